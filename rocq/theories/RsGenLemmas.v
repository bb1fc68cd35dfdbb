(** Unfolding lemmas and table facts for generated Rust code. *)
From Coq Require Import String.
From Verif Require Import Base Spec SpecProofs Utf8 RustModel RustSpec RustDec RustThms RustEnc RustThms2 GenTables.
From Verif Require Import GoIdeal GoProps GoThms GoThms2 GenLemmas GenFields GenDec GenThms GenThms2 RsGenModel RsGenSpec.
From Verif Require Import GenModel GenSpec.
Import RustModel RsGenModel RsGenSpec.

Lemma in_msg P S xs m : length xs = length (rfields_of S m) ->
  inside P S (GMsg (Some xs)) (ROne (RMsg m)) <->
  P (ROne (RMsg m)) (GMsg (Some xs)) /\ Forall2 (inside P S) xs (rfields_of S m).
Proof.
  cbn [inside]. intros L. apply and_iff_compat_l. revert L. generalize (rfields_of S m). induction xs as [|x xs IH]; intros [|f fs] L; try discriminate L.
  - split; [constructor|auto].
  - injection L as L. rewrite (IH fs L). split; [intros [A B]; constructor; assumption|]. intros H. inversion H; auto.
Qed.
Lemma in_many P S xs t : inside P S (GList xs) (RMany t) <->
  P (RMany t) (GList xs) /\ Forall (fun x => inside P S x (ROne t)) xs.
Proof.
  cbn [inside]. apply and_iff_compat_l. induction xs as [|x xs IH]; [split; constructor|].
  rewrite IH. split; [intros [A B]; constructor; assumption|]. intros H. inversion H; auto.
Qed.
Lemma in_map P S l k t : inside P S (GMap (Some l)) (RMapOf k t) <->
  P (RMapOf k t) (GMap (Some l)) /\ Forall (fun e => inside P S (snd e) (ROne t)) l.
Proof.
  cbn [inside]. apply and_iff_compat_l. induction l as [|[kv x] l IH]; [split; constructor|].
  rewrite IH. split; [intros [A B]; constructor; assumption|]. intros H. inversion H; auto.
Qed.

Lemma forget_fields S m : fields_of (forget S) m = map forget_f (rfields_of S m).
Proof. unfold fields_of, rfields_of, forget. change [] with (map forget_f []) at 1. apply map_nth. Qed.
Lemma forget_length S : length (forget S) = length S.
Proof. apply map_length. Qed.
Lemma rfields_nth S m : (m < length S)%nat -> nth_error S m = Some (rfields_of S m).
Proof. intros L. apply nth_error_nth'. exact L. Qed.

(** ** tables *)
Lemma agree_facts k q : rs_types_agree k = Some q ->
  exists en dn, rs_encodeLUT k = Some en /\ rs_decodeLUT k = Some dn /\
    assoc en rs_encoder_methods = Some q /\ assoc dn rs_decoder_methods = Some q.
Proof. destruct k; cbn; intros H; try discriminate H; injection H as <-; do 2 eexists; repeat split; reflexivity. Qed.
Lemma rs_holds k v : holds k v ->
  exists en dn, rs_encodeLUT k = Some en /\ rs_decodeLUT k = Some dn /\
    assoc en rs_encoder_methods = Some (want v) /\ assoc dn rs_decoder_methods = Some (want v).
Proof. intros [_ H]. destruct k, v; try contradiction H; do 2 eexists; repeat split; reflexivity. Qed.
Lemma rs_enc_holds k v : holds k v -> rs_enc_call k v = Some v.
Proof.
  intros H. destruct (rs_holds k v H) as (en & dn & E & _ & A & _). unfold rs_enc_call. rewrite E, A.
  destruct (request_eq_dec (want v) (want v)); [reflexivity|congruence].
Qed.
Lemma rs_dec_holds rt k v c : holds k v -> rs_dec_call rt k c = qmark (RustModel.decode rt (want v) c).
Proof. intros H. destruct (rs_holds k v H) as (en & dn & _ & E & _ & A). unfold rs_dec_call. rewrite E, A. reflexivity. Qed.
Lemma rs_kind_t (S : rschema) t f : rfield_compiles S f = true ->
  match f with RMany t' | RMapOf _ t' => t' = t | ROne _ => False end ->
  rs_kind (rs_getKind (rkind t)) = Some (announced (forget_t t)) /\
  match t with RMsg _ => rs_kind (Some "Kind::Any"%string) | _ => rs_kind (rs_kindLUT (rkind t)) end = Some (announced (forget_t t)).
Proof.
  intros H HF. destruct f as [t'|t'|k t']; [contradiction| |]; subst t'.
  - destruct t as [k|n|m]; [|discriminate H|split; reflexivity]. destruct k; try discriminate H; split; reflexivity.
  - destruct t as [k2|n|m]; [|split; reflexivity|split; reflexivity].
    cbn [rfield_compiles] in H. apply andb_prop in H. destruct H as [_ H]. destruct k2; try discriminate H; split; reflexivity.
Qed.
Lemma rs_key (S : rschema) k t : rfield_compiles S (RMapOf k t) = true -> k = GenTables.KString.
Proof. intros H. cbn [rfield_compiles] in H. apply andb_prop in H. destruct H as [H _]. destruct k; try discriminate H; reflexivity. Qed.
Lemma rs_elem (S : rschema) t f : rfield_compiles S f = true ->
  match f with RMany t' | RMapOf _ t' => t' = t | ROne _ => False end ->
  rfield_compiles S (ROne t) = true.
Proof.
  intros H HF. destruct f as [t'|t'|k t']; [contradiction| |]; subst t'.
  - destruct t as [k|n|m]; [|discriminate H|exact H]. destruct k; try discriminate H; reflexivity.
  - destruct t as [k2|n|m]; [|reflexivity|]; cbn [rfield_compiles] in H; apply andb_prop in H; destruct H as [_ H]; [|exact H].
    destruct k2; try discriminate H; reflexivity.
Qed.
Lemma compiles_field_in S m f : rs_compiles S -> In f (rfields_of S m) -> rfield_compiles S f = true.
Proof.
  intros [H _] Hf. rewrite forallb_forall in H. destruct (Nat.lt_ge_cases m (length S)) as [L|L].
  - specialize (H (rfields_of S m) (nth_In _ _ L)). rewrite forallb_forall in H. apply H, Hf.
  - unfold rfields_of in Hf. rewrite nth_overflow in Hf by exact L. destruct Hf.
Qed.

(** ** buckets *)
Lemma rs_getFields_sel S lut fs : lut = rs_encodeLUT \/ lut = rs_decodeLUT ->
  forallb (rfield_compiles S) fs = true ->
  rs_getFields lut fs = Some (sel p_val (map forget_f fs) 0, sel p_slice (map forget_f fs) 0, sel p_msg (map forget_f fs) 0).
Proof.
  intros HL. unfold rs_getFields. generalize 0%nat. induction fs as [|f fs IH]; intros i H; [reflexivity|].
  cbn [forallb] in H. apply andb_prop in H. destruct H as [Hf H]. cbn [map getFields]. rewrite IH by exact H.
  destruct f as [[k|n|m]|t|k t]; cbn [forget_f forget_t Repeated IsMap negb andb fkind tkind sel p_val p_slice p_msg].
  - assert (E : exists n, lut k = Some n).
    { cbn [rfield_compiles] in Hf. destruct (rs_types_agree k) as [q|] eqn:A; [|discriminate Hf].
      destruct (agree_facts k q A) as (en & dn & E & D & _). destruct HL as [->| ->]; eauto. }
    destruct E as [n ->]. reflexivity.
  - destruct HL as [->| ->]; reflexivity.
  - destruct HL as [->| ->]; reflexivity.
  - reflexivity.
  - destruct HL as [->| ->]; reflexivity.
Qed.
Lemma compiles_msg_r S m : rs_compiles S -> (m < length S)%nat -> forallb (rfield_compiles S) (rfields_of S m) = true.
Proof. intros HC L. apply forallb_forall. intros f Hf. eapply compiles_field_in; eassumption. Qed.

Lemma rs_calls_order S xs m : rs_compiles S -> (m < length S)%nat ->
  rs_calls S (GMsg (Some xs)) (ROne (RMsg m)) =
  all_some (map (fun i => nth i (zw (rs_calls S) xs (rfields_of S m)) None) (order (map forget_f (rfields_of S m)))).
Proof.
  intros HC L. cbn [rs_calls]. rewrite (rfields_nth S m L).
  rewrite (rs_getFields_sel S) by (auto; apply compiles_msg_r; assumption). unfold order.
  assert (E : forall fs, (fix each (xs : list gval) (fs : list rfield) : list (option (list value)) :=
                           match xs, fs with
                           | x :: xs, f :: fs => rs_calls S x f :: each xs fs
                           | _, _ => []
                           end) xs fs = zw (rs_calls S) xs fs).
  { induction xs as [|x xs IH]; intros [|f fs]; try reflexivity. cbn [zw]. rewrite IH. reflexivity. }
  rewrite E. reflexivity.
Qed.

(** ** a singular field's compile fact from a struct *)
Lemma ht_msg_r S xs m : has_type (forget S) (GMsg (Some xs)) (One (Msg m)) ->
  (m < length S)%nat /\ length xs = length (rfields_of S m) /\
  forall i x f, nth_error xs i = Some x -> nth_error (rfields_of S m) i = Some f -> has_type (forget S) x (forget_f f).
Proof.
  intros H. apply ht_msg in H. destruct H as [L H]. rewrite forget_length in L. rewrite forget_fields in H.
  split; [exact L|]. split; [apply Forall2_length in H; rewrite map_length in H; exact H|].
  intros i x f Ex Ef. eapply (Forall2_nth _ _ _ i); [exact H|exact Ex|]. rewrite nth_error_map, Ef. reflexivity.
Qed.
Lemma st_msg_r S xs m : sent_type (forget S) (GMsg (Some xs)) (One (Msg m)) ->
  (m < length S)%nat /\ length xs = length (rfields_of S m) /\
  forall i x f, nth_error xs i = Some x -> nth_error (rfields_of S m) i = Some f -> sent_type (forget S) x (forget_f f).
Proof.
  intros H. apply st_msg in H. destruct H as [L H]. rewrite forget_length in L. rewrite forget_fields in H.
  split; [exact L|]. split; [apply Forall2_length in H; rewrite map_length in H; exact H|].
  intros i x f Ex Ef. eapply (Forall2_nth _ _ _ i); [exact H|exact Ex|]. rewrite nth_error_map, Ef. reflexivity.
Qed.
Lemma in_msg_nth P S xs m : length xs = length (rfields_of S m) -> inside P S (GMsg (Some xs)) (ROne (RMsg m)) ->
  forall i x f, nth_error xs i = Some x -> nth_error (rfields_of S m) i = Some f -> inside P S x f.
Proof. intros L H i x f Ex Ef. apply in_msg in H; [|exact L]. eapply Forall2_nth; [apply H|exact Ex|exact Ef]. Qed.

Lemma rust_kind_announced t : 0 <= announced t <= 16.
Proof. destruct t as [k|m]; [destruct k|]; cbn; lia. Qed.
Lemma u32_small_len {A} (l : list A) : zlen l < 2 ^ 32 -> 0 <= zlen l < 2 ^ 32.
Proof. pose proof (zlen_nonneg l). lia. Qed.

(** ** Encode *)
Lemma group_sel_r S p : forall xs fs i pre vs, length xs = length fs -> length pre = i ->
  (forall j x f ws, nth_error xs j = Some x -> nth_error fs j = Some f -> rs_calls S x f = Some ws -> wires ws = layout (forget S) x (forget_f f)) ->
  all_some (map (fun j => nth j (pre ++ zw (rs_calls S) xs fs) None) (sel p (map forget_f fs) i)) = Some vs ->
  wires vs = group p (zw (fun x f => (f, layout (forget S) x f)) xs (map forget_f fs)).
Proof.
  induction xs as [|x xs IH]; intros [|f fs] i pre vs L LP H E; try discriminate L.
  - injection E as <-. reflexivity.
  - injection L as L. cbn [sel zw map] in *.
    assert (E' : pre ++ rs_calls S x f :: zw (rs_calls S) xs fs = (pre ++ [rs_calls S x f]) ++ zw (rs_calls S) xs fs)
      by (rewrite <- app_assoc; reflexivity).
    assert (LP' : length (pre ++ [rs_calls S x f]) = Datatypes.S i) by (rewrite app_length; cbn; lia).
    assert (H' : forall j x f ws, nth_error xs j = Some x -> nth_error fs j = Some f -> rs_calls S x f = Some ws -> wires ws = layout (forget S) x (forget_f f))
      by (intros j; apply (H (Datatypes.S j))).
    unfold group. cbn [filter fst]. destruct (p (forget_f f)).
    + cbn [map] in E. apply all_some_cons in E. destruct E as (a & b & Ea & Eb & ->).
      rewrite app_nth2 in Ea by lia. rewrite LP, Nat.sub_diag in Ea. cbn [nth] in Ea.
      rewrite wires_app. cbn [map concat snd]. rewrite (H 0%nat x f a eq_refl eq_refl Ea). f_equal.
      rewrite E' in Eb. exact (IH fs _ _ _ L LP' H' Eb).
    + rewrite E' in E. exact (IH fs _ _ _ L LP' H' E).
Qed.
Lemma slice_valid {A} (l : list A) k : zlen l < 2 ^ 32 -> 0 <= k <= 16 -> rust_valid (VSlice (zlen l) k).
Proof. intros H K. pose proof (zlen_nonneg l). split; [cbn; unfold isbyte; lia|]. split; [exact K|exact I]. Qed.
Lemma map_valid {A} (l : list A) k k' : zlen l < 2 ^ 32 -> 0 <= k <= 16 -> 0 <= k' <= 16 -> rust_valid (VMap (zlen l) k k').
Proof. intros H K K'. pose proof (zlen_nonneg l). split; [cbn; unfold isbyte; lia|]. split; [split; assumption|exact I]. Qed.
Lemma holds_rust k v : holds k v -> text_ok v -> rust_valid v.
Proof. intros [V H] T. split; [exact V|]. split; [|exact T]. destruct k, v; try contradiction H; exact I. Qed.

Lemma rs_calls_ok S : rs_compiles S -> forall x f, has_type (forget S) x (forget_f f) -> rfield_compiles S f = true ->
  ready S x f -> no_nil x ->
  exists vs, rs_calls S x f = Some vs /\ Forall rust_valid vs /\ wires vs = layout (forget S) x (forget_f f).
Proof.
  intros HC. induction x using gval_ind'; intros f HT FC HR HN.
  - destruct f as [[k|n|m]|t|k t]; try contradiction HT; cbn [forget_f forget_t has_type] in HT; cbn [rs_calls].
    + rewrite (rs_enc_holds _ _ HT). exists [v]. split; [reflexivity|]. split; [|apply wires_one].
      apply Forall_cons; [|apply Forall_nil]. apply (holds_rust k); [exact HT|]. apply HR.
    + rewrite (rs_enc_holds _ _ HT). exists [v]. split; [reflexivity|]. split; [|apply wires_one].
      apply Forall_cons; [|apply Forall_nil]. apply (holds_rust KEnum); [exact HT|]. destruct HT as [_ HT]. destruct v; try contradiction HT; exact I.
  - destruct f as [[k|n|m]|t|k t]; try contradiction HT. cbn [forget_f] in *. apply ht_many in HT. destruct HT as [HL HT].
    apply in_many in HR. destruct HR as [_ HR]. apply nn_list in HN.
    destruct (rs_kind_t S t (RMany t) FC eq_refl) as [_ K]. cbn [rs_calls]. rewrite K.
    pose proof (rs_elem S t (RMany t) FC eq_refl) as FE.
    rewrite Forall_forall in H, HT, HR, HN.
    destruct (all_some_ok rust_valid (Some [VSlice (zlen xs) (announced (forget_t t))] :: map (fun x => rs_calls S x (ROne t)) xs)) as (vs & E & V).
    { intros y [<-|Hy].
      - eexists. split; [reflexivity|]. apply Forall_cons; [|apply Forall_nil]. apply slice_valid; [exact HL|apply rust_kind_announced].
      - apply in_map_iff in Hy. destruct Hy as (x & <- & Hx).
        destruct (H x Hx (ROne t) (HT x Hx) FE (HR x Hx) (HN x Hx)) as (ws & Ew & Vw & _). eauto. }
    exists vs. split; [exact E|]. split; [exact V|].
    apply all_some_cons in E. destruct E as (a & b & Ea & Eb & ->). injection Ea as <-.
    rewrite wires_app, wires_one. cbn [layout]. f_equal. eapply all_some_flat; [|exact Eb]. intros x ws Hx Ex.
    destruct (H x Hx (ROne t) (HT x Hx) FE (HR x Hx) (HN x Hx)) as (ws' & Ew & _ & W). rewrite Ex in Ew. injection Ew as <-. exact W.
  - contradiction HN.
  - destruct f as [[k|n|m]|t|k t]; try contradiction HT. cbn [forget_f] in *. apply ht_map in HT. destruct HT as (HL & _ & HT).
    apply in_map in HR. destruct HR as [HK HR]. apply nn_map in HN. cbn [node_ready] in HK.
    destruct (rs_kind_t S t (RMapOf k t) FC eq_refl) as [K2 _]. pose proof (rs_elem S t (RMapOf k t) FC eq_refl) as FE.
    pose proof (rs_key S k t FC) as ->. cbn [rs_calls]. change (rs_kind (rs_getKind GenTables.KString)) with (Some 5). rewrite K2.
    rewrite Forall_forall in H, HT, HR, HN, HK.
    set (g := fun e : value * gval => let (k, v) := e in match rs_enc_call GenTables.KString k, rs_calls S v (ROne t) with
                           | Some k, Some vs => Some (k :: vs) | _, _ => None end).
    assert (G : forall e, In e l -> exists ws, g e = Some ws /\ Forall rust_valid ws /\ wires ws = wire (fst e) ++ layout (forget S) (snd e) (One (forget_t t))).
    { intros [kv x] He. destruct (HT _ He) as [Hk Hx]. cbn [fst snd] in *.
      destruct (H (kv, x) He (ROne t) Hx FE (HR _ He) (HN _ He)) as (ws & Ew & Vw & Ww). cbn [snd] in *.
      exists (kv :: ws). unfold g. rewrite (rs_enc_holds _ _ Hk), Ew. split; [reflexivity|].
      split; [apply Forall_cons; [apply (holds_rust GenTables.KString); [exact Hk|exact (HK (kv, x) He)]|exact Vw]|].
      change (kv :: ws) with ([kv] ++ ws). rewrite wires_app, wires_one, Ww. reflexivity. }
    destruct (all_some_ok rust_valid (Some [VMap (zlen l) 5 (announced (forget_t t))] :: map g l)) as (vs & E & V).
    { intros y [<-|Hy].
      - eexists. split; [reflexivity|]. apply Forall_cons; [|apply Forall_nil]. apply map_valid; [exact HL|lia|apply rust_kind_announced].
      - apply in_map_iff in Hy. destruct Hy as (e & <- & He). destruct (G e He) as (ws & Ew & Vw & _). eauto. }
    exists vs. split; [exact E|]. split; [exact V|].
    apply all_some_cons in E. destruct E as (a & b & Ea & Eb & ->). injection Ea as <-.
    rewrite wires_app, wires_one. cbn [layout]. f_equal. eapply all_some_flat; [|exact Eb]. intros e ws He Ee.
    destruct (G e He) as (ws' & Ew & _ & W). rewrite Ee in Ew. injection Ew as <-. exact W.
  - contradiction HN.
  - destruct f as [[k|n|m]|t|k t]; try contradiction HT. cbn [forget_f forget_t] in *.
    destruct (ht_msg_r _ _ _ HT) as (L & Len & HT'). apply nn_msg in HN. rewrite rs_calls_order by assumption.
    set (fs := rfields_of S m) in *.
    assert (G : forall i x f, nth_error xs i = Some x -> nth_error fs i = Some f ->
      exists ws, rs_calls S x f = Some ws /\ Forall rust_valid ws /\ wires ws = layout (forget S) x (forget_f f)).
    { intros i x f Ex Ef. rewrite Forall_forall in H, HN. pose proof (nth_error_In _ _ Ex) as Ix. apply H; auto.
      - eapply HT'; eassumption.
      - eapply compiles_field_in; [exact HC|]. eapply nth_error_In; exact Ef.
      - exact (in_msg_nth _ _ _ _ Len HR _ _ _ Ex Ef). }
    destruct (all_some_ok rust_valid (map (fun i => nth i (zw (rs_calls S) xs fs) None) (order (map forget_f fs)))) as (vs & E & V).
    { intros y Hy. apply in_map_iff in Hy. destruct Hy as (i & <- & Hi). apply order_in in Hi. rewrite map_length in Hi.
      destruct (nth_error_ex fs i Hi) as [f Ef]. rewrite <- Len in Hi. destruct (nth_error_ex xs i Hi) as [x Ex].
      destruct (G i x f Ex Ef) as (ws & Ew & Vw & _). exists ws. split; [|exact Vw]. apply nth_error_nth. rewrite nth_error_zw, Ex, Ef, Ew. reflexivity. }
    exists vs. split; [exact E|]. split; [exact V|].
    unfold order in E. rewrite !map_app in E. apply all_some_app_inv in E. destruct E as (va & vb & Ea & Eb & ->).
    apply all_some_app_inv in Eb. destruct Eb as (vc & vd & Ec & Ed & ->). rewrite !wires_app.
    assert (G' : forall j x f ws, nth_error xs j = Some x -> nth_error fs j = Some f -> rs_calls S x f = Some ws -> wires ws = layout (forget S) x (forget_f f)).
    { intros j x f ws Ex Ef Ew. destruct (G j x f Ex Ef) as (ws' & Ew' & _ & W). rewrite Ew in Ew'. injection Ew' as <-. exact W. }
    rewrite layout_msg. cbv zeta. rewrite forget_fields. fold fs.
    rewrite (group_sel_r S p_val xs fs 0 [] va), (group_sel_r S p_slice xs fs 0 [] vc), (group_sel_r S p_msg xs fs 0 [] vd); auto.
Qed.
