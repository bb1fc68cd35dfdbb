(** Field buckets, look-up tables and the three passes. *)
From Coq Require Import String.
From Verif Require Import Base Spec GenTables GenModel GenSpec GenLemmas.

Fixpoint sel (p : field -> bool) (fs : list field) (i : nat) : list nat :=
  match fs with
  | [] => []
  | f :: fs => if p f then i :: sel p fs (S i) else sel p fs (S i)
  end.
Definition p_val f := match f with One (Scalar _) => true | _ => false end.
Definition p_slice f := match f with Many _ => true | _ => false end.
Definition p_msg f := match f with One (Msg _) | MapOf _ _ => true | _ => false end.

Lemma sel_in p fs i j : In j (sel p fs i) <->
  (i <= j)%nat /\ exists f, nth_error fs (j - i) = Some f /\ p f = true.
Proof.
  revert i. induction fs as [|f fs IH]; intros i; cbn [sel].
  - split; [intros []|]. intros (_ & f & H & _). destruct (j - i)%nat; discriminate.
  - assert (R : In j (sel p fs (S i)) <-> (i < j)%nat /\ exists f0, nth_error (f :: fs) (j - i) = Some f0 /\ p f0 = true).
    { rewrite IH. split.
      - intros (H & g & Hg & Hp). split; [lia|]. exists g. split; [|exact Hp].
        replace (j - i)%nat with (S (j - S i)) by lia. exact Hg.
      - intros (H & g & Hg & Hp). split; [lia|]. exists g. split; [|exact Hp].
        replace (j - i)%nat with (S (j - S i)) in Hg by lia. exact Hg. }
    destruct (p f) eqn:E.
    + cbn [In]. rewrite R. split.
      * intros [->|(H & g & Hg)].
        { split; [lia|]. exists f. rewrite Nat.sub_diag. auto. }
        { split; [lia|]. exists g. exact Hg. }
      * intros (H & g & Hg & Hp). destruct (Nat.eq_dec i j) as [->|]; [auto|]. right. split; [lia|]. eauto.
    + rewrite R. split.
      * intros (H & g & Hg). split; [lia|]. exists g. exact Hg.
      * intros (H & g & Hg & Hp). destruct (Nat.eq_dec i j) as [->|].
        { rewrite Nat.sub_diag in Hg. injection Hg as <-. congruence. }
        split; [lia|]. eauto.
Qed.
Lemma sel_nodup p fs i : NoDup (sel p fs i).
Proof.
  revert i. induction fs as [|f fs IH]; intros i; cbn [sel]; [constructor|].
  destruct (p f); [|apply IH]. constructor; [|apply IH]. rewrite sel_in. intros [H _]. lia.
Qed.
Lemma sel_none p fs i : (forall f, In f fs -> p f = false) -> sel p fs i = [].
Proof.
  revert i. induction fs as [|f fs IH]; intros i H; cbn [sel]; [reflexivity|].
  rewrite H by (left; reflexivity). apply IH. intros g Hg. apply H. right; exact Hg.
Qed.

Definition order (fs : list field) : list nat := sel p_val fs 0 ++ sel p_slice fs 0 ++ sel p_msg fs 0.
Lemma order_in fs i : In i (order fs) <-> (i < length fs)%nat.
Proof.
  unfold order. rewrite !in_app_iff, !sel_in, Nat.sub_0_r. split.
  - intros [(_ & f & H & _)|[(_ & f & H & _)|(_ & f & H & _)]];
    apply nth_error_Some; congruence.
  - intros H. apply nth_error_Some in H. destruct (nth_error fs i) as [f|] eqn:E; [|congruence].
    assert (C : p_val f = true \/ p_slice f = true \/ p_msg f = true)
      by (destruct f as [[|]|[|]|]; cbn; auto).
    destruct C as [C|[C|C]]; [left|right; left|right; right]; (split; [lia|]); exists f; auto.
Qed.
Lemma order_nodup fs : NoDup (order fs).
Proof.
  assert (D : forall p q, (forall f, p f = true -> q f = false) -> forall i,
            In i (sel p fs 0) -> In i (sel q fs 0) -> False).
  { intros p q H i Hp Hq. apply sel_in in Hp, Hq. destruct Hp as (_ & f & Hf & P), Hq as (_ & g & Hg & Q).
    rewrite Hf in Hg. injection Hg as <-. rewrite (H _ P) in Q. discriminate. }
  assert (ND : forall a b : list nat, NoDup a -> NoDup b -> (forall i, In i a -> In i b -> False) -> NoDup (a ++ b)).
  { clear. induction a as [|x a IH]; intros b Ha Hb Hd; [exact Hb|]. inversion Ha; subst. cbn. constructor.
    - rewrite in_app_iff. intros [?|?]; [auto|]. apply (Hd x); [left; reflexivity|assumption].
    - apply IH; try assumption. intros i Hi. apply Hd. right; exact Hi. }
  unfold order. apply ND; [apply sel_nodup| |].
  - apply ND; try apply sel_nodup. apply D. intros [[|]|[|]|]; cbn; congruence.
  - intros i Hv Hs. apply in_app_iff in Hs. destruct Hs as [Hs|Hs]; revert Hv Hs; apply D;
    intros [[|]|[|]|]; cbn; congruence.
Qed.

(** ** Table facts *)
Lemma call_facts conv arg k : call_compiles conv arg k = true ->
  exists q en dn takes, scalar_type k = Some q /\ go_encodeLUT k = Some en /\ go_decodeLUT k = Some dn /\
    assoc en go_encoder_methods = Some q /\ assoc dn go_decoder_methods = Some (q, takes).
Proof.
  destruct k; try discriminate; intros _; do 4 eexists; repeat split; reflexivity.
Qed.
Lemma holds_scalar k v : holds k v -> scalar_type k = Some (want v) /\
  exists en dn takes, go_encodeLUT k = Some en /\ go_decodeLUT k = Some dn /\
    assoc en go_encoder_methods = Some (want v) /\ assoc dn go_decoder_methods = Some (want v, takes).
Proof.
  intros [_ H]. destruct k, v; try contradiction H; (split; [reflexivity|]); do 3 eexists; repeat split; reflexivity.
Qed.
Lemma enc_call_holds k v : holds k v -> enc_call k v = Some v.
Proof.
  intros H. destruct (holds_scalar k v H) as (_ & en & dn & tk & E & _ & A & _).
  unfold enc_call. rewrite E, A. destruct (request_eq_dec (want v) (want v)); [reflexivity|congruence].
Qed.
Lemma dec_call_holds prim dst k v b : holds k v ->
  dec_call prim dst k b = call prim dst (want v) b (fun r v => GDone r v).
Proof.
  intros H. destruct (holds_scalar k v H) as (_ & en & dn & tk & _ & E & _ & A).
  unfold dec_call. rewrite E, A. reflexivity.
Qed.
Lemma holds_not_nil k v : holds k v -> v <> VNil.
Proof. intros [_ H] ->. destruct k; exact H. Qed.

Definition kind_ok (z : option Z) : Prop := exists k, z = Some k /\ isbyte k.
Lemma kind_scalar k v : holds k v -> kind_ok (kind_number (go_GetKind k)) /\ kind_number (go_kindLUT k) = kind_number (go_GetKind k).
Proof.
  intros [_ H]. destruct k, v; try contradiction H; (split; [eexists; split; [reflexivity|unfold isbyte; lia]|reflexivity]).
Qed.
Lemma kind_call conv arg k : call_compiles conv arg k = true ->
  kind_ok (kind_number (go_GetKind k)) /\ kind_number (go_kindLUT k) = kind_number (go_GetKind k).
Proof.
  destruct k; try discriminate; intros _; (split; [eexists; split; [reflexivity|unfold isbyte; lia]|reflexivity]).
Qed.
Lemma kind_msg : kind_number (go_GetKind KMessage) = Some 3.
Proof. reflexivity. Qed.

Lemma getFields_sel S fs : forall i lut, lut = go_encodeLUT \/ lut = go_decodeLUT ->
  forallb (field_compiles S) fs = true ->
  getFields lut fs i = Some (sel p_val fs i, sel p_slice fs i, sel p_msg fs i).
Proof.
  intros i lut HL. revert i. induction fs as [|f fs IH]; intros i H; [reflexivity|].
  cbn [forallb] in H. apply andb_prop in H. destruct H as [Hf H].
  cbn [getFields]. rewrite IH by exact H.
  destruct f as [[k|m]|[k|m]|k t]; cbn [Repeated IsMap negb andb fkind tkind sel p_val p_slice p_msg]; try reflexivity.
  - cbn [field_compiles] in Hf. destruct (call_facts _ _ _ Hf) as (q & en & dn & tk & _ & E & D & _).
    destruct HL as [->| ->]; [rewrite E|rewrite D]; reflexivity.
  - destruct HL as [->| ->]; reflexivity.
  - destruct HL as [->| ->]; reflexivity.
Qed.
Lemma compiles_msg S m : compiles S = true -> (m < length S)%nat ->
  forallb (field_compiles S) (fields_of S m) = true.
Proof.
  intros H L. unfold compiles in H. rewrite forallb_forall in H.
  specialize (H (fields_of S m) (nth_In _ _ L)). unfold message_compiles in H.
  apply andb_prop in H. apply H.
Qed.
Lemma compiles_field S m i f : compiles S = true -> nth_error (fields_of S m) i = Some f -> field_compiles S f = true.
Proof.
  intros H E. destruct (Nat.lt_ge_cases m (length S)) as [L|L].
  - pose proof (compiles_msg S m H L) as C. rewrite forallb_forall in C. apply C. eapply nth_error_In; exact E.
  - unfold fields_of in E. rewrite nth_overflow in E by exact L. destruct i; discriminate.
Qed.

Lemma calls_order S xs m : compiles S = true -> (m < length S)%nat ->
  calls S (GMsg (Some xs)) (One (Msg m)) =
  all_some (map (fun i => nth i (zw (calls S) xs (fields_of S m)) None) (order (fields_of S m))).
Proof.
  intros H L. rewrite calls_msg by exact L. rewrite (getFields_sel S) by (auto using compiles_msg). reflexivity.
Qed.

(** ** all_some *)
Lemma all_some_app {A} (a b : list (option (list A))) :
  all_some (a ++ b) = match all_some a, all_some b with Some x, Some y => Some (x ++ y) | _, _ => None end.
Proof.
  induction a as [|[x|] a IH]; cbn.
  - destruct (all_some b); reflexivity.
  - rewrite IH. destruct (all_some a), (all_some b); try reflexivity. rewrite app_assoc. reflexivity.
  - reflexivity.
Qed.
Lemma all_some_cons {A} (a : option (list A)) l vs : all_some (a :: l) = Some vs ->
  exists x y, a = Some x /\ all_some l = Some y /\ vs = x ++ y.
Proof.
  cbn. destruct a as [x|]; [|discriminate]. destruct (all_some l) as [y|]; [|discriminate].
  intros H. injection H as <-. eauto.
Qed.
Lemma all_some_ok {A} (P : A -> Prop) (l : list (option (list A))) :
  (forall x, In x l -> exists vs, x = Some vs /\ Forall P vs) -> exists vs, all_some l = Some vs /\ Forall P vs.
Proof.
  induction l as [|x l IH]; intros H; [exists []; split; [reflexivity|constructor]|].
  destruct (H x (or_introl eq_refl)) as (a & -> & Ha). destruct IH as (b & Eb & Hb).
  { intros y Hy. apply H. right; exact Hy. }
  exists (a ++ b). cbn. rewrite Eb. split; [reflexivity|]. apply Forall_app. auto.
Qed.

Lemma Forall2_nth {A B} (R : A -> B -> Prop) xs ys i x y : Forall2 R xs ys ->
  nth_error xs i = Some x -> nth_error ys i = Some y -> R x y.
Proof.
  intros H. revert i. induction H; intros [|i] Hx Hy; try discriminate.
  - injection Hx as <-. injection Hy as <-. assumption.
  - eapply IHForall2; eassumption.
Qed.
Lemma Forall2_length {A B} (R : A -> B -> Prop) xs ys : Forall2 R xs ys -> length xs = length ys.
Proof. induction 1; cbn; congruence. Qed.
Lemma nth_zw_calls S xs fs i x f : nth_error xs i = Some x -> nth_error fs i = Some f ->
  nth i (zw (calls S) xs fs) None = calls S x f.
Proof. intros Hx Hf. apply nth_error_nth. rewrite nth_error_zw, Hx, Hf. reflexivity. Qed.
Lemma nth_error_ex {A} (l : list A) i : (i < length l)%nat -> exists x, nth_error l i = Some x.
Proof. intros H. apply nth_error_Some in H. destruct (nth_error l i); [eauto|congruence]. Qed.

(** ** Every typed value encodes, to valid calls *)
Lemma u32_len {A} (l : list A) : zlen l < 2 ^ 32 -> u32 (zlen l) = zlen l.
Proof. intros. apply u32_small. pose proof (zlen_nonneg l). lia. Qed.

Lemma calls_sent S : compiles S = true -> forall x f, sent_type S x f -> field_compiles S f = true ->
  exists vs, calls S x f = Some vs /\ Forall valid vs.
Proof.
  intros HC. induction x using gval_ind'; intros f HT FC.
  - destruct f as [[k|m]|[k|m]|k t]; try contradiction HT. cbn [sent_type] in HT. cbn [calls].
    rewrite (enc_call_holds _ _ HT). exists [v]. split; [reflexivity|]. constructor; [apply HT|constructor].
  - destruct f as [[k|m]|t|k t]; try contradiction HT. apply st_many in HT. destruct HT as [HL HT]. cbn [calls].
    assert (K : exists z, isbyte z /\ match t with Msg _ => kind_number (Some "polyglot.AnyKind"%string) | Scalar k => kind_number (go_kindLUT k) end = Some z).
    { destruct t as [k|m].
      - cbn [field_compiles] in FC. apply andb_prop in FC. destruct FC as [FC _].
        destruct (kind_call _ _ _ FC) as ((z & E & B) & E2). exists z. split; [exact B|congruence].
      - exists 3. split; [unfold isbyte; lia|reflexivity]. }
    destruct K as (z & B & ->).
    change (exists vs, all_some (Some [VSlice (u32 (zlen xs)) z] :: map (fun x => calls S x (One t)) xs) = Some vs /\ Forall valid vs).
    apply all_some_ok. intros y [<-|Hy].
    { eexists. split; [reflexivity|]. constructor; [|constructor]. cbn. rewrite u32_len by exact HL.
      pose proof (zlen_nonneg xs). split; [lia|exact B]. }
    apply in_map_iff in Hy. destruct Hy as (x & <- & Hx). rewrite Forall_forall in H, HT.
    apply (H x Hx). { apply HT; exact Hx. }
    destruct t as [k|m]; [|exact FC]. cbn [field_compiles] in *. apply andb_prop in FC. destruct FC as [FC _].
    destruct k; try discriminate FC; reflexivity.
  - destruct f as [[k|m]|t|k t]; try contradiction HT. cbn [calls].
    cbn [field_compiles] in FC. apply andb_prop in FC. destruct FC as [FC1 FC2]. apply andb_prop in FC1. destruct FC1 as [_ FC1].
    destruct (kind_call _ _ _ FC1) as ((z1 & E1 & B1) & _). rewrite E1.
    assert (K : kind_ok (kind_number (go_GetKind (tkind t)))).
    { destruct t as [k2|m]; [apply (kind_call _ _ _ FC2)|]. exists 3. split; [reflexivity|unfold isbyte; lia]. }
    destruct K as (z2 & E2 & B2). rewrite E2. eexists. split; [reflexivity|]. constructor; [|constructor].
    cbn. repeat split; try lia; first [apply B1|apply B2].
  - destruct f as [[k|m]|t|k t]; try contradiction HT. apply st_map in HT. destruct HT as (HL & HT). cbn [calls].
    cbn [field_compiles] in FC. apply andb_prop in FC. destruct FC as [FC1 FC2]. apply andb_prop in FC1. destruct FC1 as [_ FC1].
    destruct (kind_call _ _ _ FC1) as ((z1 & E1 & B1) & _). rewrite E1.
    assert (K : kind_ok (kind_number (go_GetKind (tkind t)))).
    { destruct t as [k2|m]; [apply (kind_call _ _ _ FC2)|]. exists 3. split; [reflexivity|unfold isbyte; lia]. }
    destruct K as (z2 & E2 & B2). rewrite E2.
    apply all_some_ok. intros y [<-|Hy].
    { eexists. split; [reflexivity|]. constructor; [|constructor]. cbn. rewrite u32_len by exact HL.
      pose proof (zlen_nonneg l). repeat split; try lia; first [apply B1|apply B2]. }
    apply in_map_iff in Hy. destruct Hy as ([kv x] & <- & Hx). rewrite Forall_forall in H, HT.
    destruct (HT _ Hx) as [Hk Hv]. cbn [fst snd] in *. rewrite (enc_call_holds _ _ Hk).
    destruct (H _ Hx (One t) Hv) as (vs & E & V).
    { destruct t as [k2|m]; [|exact FC2]. cbn [field_compiles]. destruct k2; try discriminate FC2; reflexivity. }
    cbn [snd] in E. rewrite E. eexists. split; [reflexivity|]. constructor; [apply Hk|exact V].
  - destruct f as [[k|m]|t|k t]; try contradiction HT. exists [VNil]. split; [reflexivity|]. constructor; [exact I|constructor].
  - destruct f as [[k|m]|t|k t]; try contradiction HT. apply st_msg in HT. destruct HT as [L HT].
    rewrite calls_order by assumption. apply all_some_ok. intros y Hy. apply in_map_iff in Hy.
    destruct Hy as (i & <- & Hi). apply order_in in Hi.
    destruct (nth_error_ex _ _ Hi) as [f Ef].
    destruct (nth_error_ex xs i) as [x Ex]. { rewrite (Forall2_length _ _ _ HT). exact Hi. }
    rewrite (nth_zw_calls _ _ _ _ _ _ Ex Ef). rewrite Forall_forall in H. apply H.
    + eapply nth_error_In; exact Ex.
    + eapply Forall2_nth; eassumption.
    + eapply compiles_field; eassumption.
Qed.

(** ** The first call *)
Lemma hd_pieces S xs fs l vs :
  all_some (map (fun i => nth i (zw (calls S) xs fs) None) l) = Some vs ->
  (forall i, nth_error l 0 = Some i -> exists v ws, nth i (zw (calls S) xs fs) None = Some (v :: ws) /\ v <> VNil) ->
  l <> [] -> exists v ws, vs = v :: ws /\ v <> VNil.
Proof.
  destruct l as [|i l]; [congruence|]. intros H HD _. destruct (HD i eq_refl) as (v & ws & E & N).
  cbn [map] in H. apply all_some_cons in H. destruct H as (a & b & Ea & _ & ->). rewrite E in Ea. injection Ea as <-.
  exists v, (ws ++ b). split; [reflexivity|exact N].
Qed.
Lemma first_message_sel xs fs : length xs = length fs -> (forall f, In f fs -> plain_field f = false) ->
  first_message xs fs = match nth_error (sel p_msg fs 0) 0 with Some i => nth_error xs i | None => None end.
Proof.
  intros L H. destruct fs as [|f fs], xs as [|x xs]; try discriminate L; [reflexivity|].
  cbn [first_message]. rewrite (H f) by (left; reflexivity). cbn [sel].
  assert (p_msg f = true) as ->.
  { specialize (H f (or_introl eq_refl)). destruct f as [[|]|[|]|]; cbn in *; congruence. }
  reflexivity.
Qed.
Lemma calls_sent_head S : compiles S = true -> forall x f vs, sent_type S x f -> readable S x f ->
  calls S x f = Some vs -> x <> GMsg None -> exists v ws, vs = v :: ws /\ v <> VNil.
Proof.
  intros HC. induction x using gval_ind'; intros f vs HT HR E NN.
  - destruct f as [[k|m]|[k|m]|k t]; try contradiction HT. cbn [sent_type] in HT. cbn [calls] in E.
    rewrite (enc_call_holds _ _ HT) in E. injection E as <-. exists v, []. split; [reflexivity|]. eapply holds_not_nil; exact HT.
  - destruct f as [[k|m]|t|k t]; try contradiction HT. cbn [calls] in E.
    destruct (match t with Msg _ => _ | Scalar k => _ end) as [z|]; [|discriminate].
    apply all_some_cons in E. destruct E as (a & b & Ea & _ & ->). injection Ea as <-.
    eexists _, b. split; [reflexivity|discriminate].
  - destruct f as [[k|m]|t|k t]; try contradiction HT. cbn [calls] in E.
    destruct (kind_number (go_GetKind k)), (kind_number (go_GetKind (tkind t))); try discriminate. injection E as <-.
    eexists _, []. split; [reflexivity|discriminate].
  - destruct f as [[k|m]|t|k t]; try contradiction HT. cbn [calls] in E.
    destruct (kind_number (go_GetKind k)), (kind_number (go_GetKind (tkind t))); try discriminate.
    apply all_some_cons in E. destruct E as (a & b & Ea & _ & ->). injection Ea as <-.
    eexists _, b. split; [reflexivity|discriminate].
  - congruence.
  - destruct f as [[k|m]|t|k t]; try contradiction HT. apply st_msg in HT. destruct HT as [L HT].
    pose proof (Forall2_length _ _ _ HT) as Len.
    apply ev_msg in HR; [|exact Len]. destruct HR as [HA HR].
    rewrite calls_order in E by assumption. set (fs := fields_of S m) in *.
    (* the first index is visible *)
    assert (IHi : forall i x f, nth_error xs i = Some x -> nth_error fs i = Some f -> x <> GMsg None ->
              exists v ws, nth i (zw (calls S) xs fs) None = Some (v :: ws) /\ v <> VNil).
    { intros i x f Ex Ef Nx. rewrite (nth_zw_calls _ _ _ _ _ _ Ex Ef).
      pose proof (Forall2_nth _ _ _ _ _ _ HT Ex Ef) as Tx.
      destruct (calls_sent S HC x f Tx (compiles_field _ _ _ _ HC Ef)) as (ws & Ews & _).
      rewrite Forall_forall in H. destruct (H x (nth_error_In _ _ Ex) f ws Tx) as (v & ws' & -> & Nv); try assumption.
      { eapply Forall2_nth; eassumption. }
      exists v, ws'. auto. }
    destruct (existsb plain_field fs) eqn:EX.
    + apply existsb_exists in EX. destruct EX as (g & Hg & Pg).
      apply In_nth_error in Hg. destruct Hg as [j Ej].
      eapply hd_pieces; [exact E| |].
      * intros i Hi.
        assert (NE : sel p_val fs 0 ++ sel p_slice fs 0 <> []).
        { intros Z. assert (Hj : In j (sel p_val fs 0 ++ sel p_slice fs 0)).
          { apply in_app_iff. destruct g as [[k|mm]|tt|k tt]; try discriminate Pg; [left|right]; apply sel_in; (split; [lia|]);
            rewrite Nat.sub_0_r; eexists; (split; [exact Ej|reflexivity]). }
          rewrite Z in Hj. destruct Hj. }
        assert (Hin : In i (sel p_val fs 0 ++ sel p_slice fs 0)).
        { unfold order in Hi. rewrite app_assoc in Hi. destruct (sel p_val fs 0 ++ sel p_slice fs 0); [congruence|].
          cbn in Hi. injection Hi as <-. left; reflexivity. }
        assert (Ex : exists f, nth_error fs i = Some f /\ plain_field f = true).
        { apply in_app_iff in Hin. destruct Hin as [Hin|Hin]; apply sel_in in Hin; rewrite Nat.sub_0_r in Hin;
          destruct Hin as (_ & f & Ef & Pf); exists f; (split; [exact Ef|]); destruct f as [[|]|[|]|]; cbn in *; congruence. }
        destruct Ex as (f & Ef & Pf).
        assert (i < length xs)%nat as Hlt. { rewrite Len. apply nth_error_Some. fold fs. congruence. }
        destruct (nth_error_ex xs i Hlt) as [x Ex]. apply (IHi i x f); try assumption.
        pose proof (Forall2_nth _ _ _ _ _ _ HT Ex Ef) as Tx. intros ->. destruct f as [[|]|[|]|]; cbn in Pf, Tx; try discriminate; contradiction.
      * intros Z. assert (Hj : In j (order fs)) by (apply order_in, nth_error_Some; congruence). rewrite Z in Hj. destruct Hj.
    + assert (NP : forall f, In f fs -> plain_field f = false).
      { intros f Hf. destruct (plain_field f) eqn:Pf; [|reflexivity]. rewrite <- EX. symmetry. apply existsb_exists. eauto. }
      assert (O : order fs = sel p_msg fs 0).
      { unfold order. rewrite (sel_none p_val), (sel_none p_slice); [reflexivity| |]; intros f Hf; specialize (NP f Hf); destruct f as [[|]|[|]|]; cbn in *; congruence. }
      assert (FM : exists y, first_message xs fs = Some y /\ y <> GMsg None).
      { destruct HA as [HA|[[y Hy]|[y Hy]]]; [fold fs in HA; congruence| |]; fold fs in Hy; eexists; (split; [exact Hy|discriminate]). }
      destruct FM as (y & Fy & Ny). rewrite first_message_sel in Fy by assumption.
      rewrite O in E. eapply hd_pieces; [exact E| |].
      * intros i Hi. rewrite Hi in Fy.
        assert (i < length fs)%nat as Hlt. { rewrite <- Len. apply nth_error_Some. congruence. }
        destruct (nth_error_ex fs i Hlt) as [f Ef]. eapply IHi; eassumption.
      * intros Z. rewrite Z in Fy. discriminate.
Qed.
Lemma calls_total S : compiles S = true -> forall x f, has_type S x f -> field_compiles S f = true ->
  exists vs, calls S x f = Some vs /\ Forall valid vs.
Proof. intros HC x f HT. apply calls_sent; [exact HC|]. apply ht_st. exact HT. Qed.
Lemma calls_head S : compiles S = true -> forall x f vs, has_type S x f -> readable S x f ->
  calls S x f = Some vs -> x <> GMsg None -> exists v ws, vs = v :: ws /\ v <> VNil.
Proof. intros HC x f vs HT. apply calls_sent_head; [exact HC|]. apply ht_st. exact HT. Qed.
