(** Generated Rust code on arbitrary input: the result has the declared type, the cursor moves
    forward, the stack depth is bounded. *)
From Coq Require Import String.
From Verif Require Import Base Spec SpecProofs Utf8 GoSpec GoProps2 RustModel RustSpec RustDec RustThms RustEnc RustThms2 GenTables.
From Verif Require Import GenLemmas GenFields GenDec GenTerm GenThms2 RsGenModel RsGenSpec RsGenLemmas RsGenDec RsGenRound.
From Verif Require Import GenModel GenSpec.
Import RustModel RsGenModel RsGenSpec.

(** ** how deep singular messages nest *)
Fixpoint bnd (S : rschema) (n : nat) (m : nat) : bool :=
  forallb (fun f => match f with
                    | ROne (RMsg b) => match n with O => false | Datatypes.S n => bnd S n b end
                    | _ => true
                    end) (rfields_of S m).
Lemma bnd_field S n m b : bnd S n m = true -> In (ROne (RMsg b)) (rfields_of S m) ->
  exists k, n = Datatypes.S k /\ bnd S k b = true.
Proof.
  intros H Hin. destruct n as [|n]; cbn [bnd] in H; rewrite forallb_forall in H; specialize (H _ Hin); cbn in H; [discriminate|]. eauto.
Qed.
Lemma bnd_mono S n : forall m k, bnd S n m = true -> (n <= k)%nat -> bnd S k m = true.
Proof.
  induction n as [|n IH]; intros m k H Hk.
  - destruct k; cbn [bnd] in *; rewrite forallb_forall in *; intros f Hf; specialize (H f Hf); destruct f as [[| |]| |]; try reflexivity; discriminate H.
  - destruct k as [|k]; [lia|]. cbn [bnd] in *. rewrite forallb_forall in *. intros f Hf. specialize (H f Hf).
    destruct f as [[| |]| |]; try reflexivity. apply IH; [exact H|lia].
Qed.
Lemma bnd_exists S m : Acc (fun b a => embeds S a b) m -> exists n, bnd S n m = true.
Proof.
  induction 1 as [m _ IH]. unfold embeds in IH. change (nth m S []) with (rfields_of S m) in IH.
  assert (G : forall fs, (forall f, In f fs -> In f (rfields_of S m)) ->
    exists n, forallb (fun f => match f with ROne (RMsg b) => bnd S n b | _ => true end) fs = true).
  { induction fs as [|f fs IHf]; intros Hin; [exists 0%nat; reflexivity|].
    destruct IHf as [n Hn]; [intros g Hg; apply Hin; right; exact Hg|].
    assert (F : exists k, match f with ROne (RMsg b) => bnd S k b | _ => true end = true).
    { destruct f as [[k0|e|b]|t|k0 t]; try (exists 0%nat; reflexivity). apply IH. apply Hin. left; reflexivity. }
    destruct F as [k Hk]. exists (Nat.max n k). cbn [forallb]. apply andb_true_intro. split.
    - destruct f as [[k0|e|b]|t|k0 t]; try reflexivity. apply (bnd_mono S k); [exact Hk|lia].
    - rewrite forallb_forall in *. intros g Hg. specialize (Hn g Hg). destruct g as [[k0|e|b]|t|k0 t]; try reflexivity. apply (bnd_mono S n); [exact Hn|lia]. }
  destruct (G (rfields_of S m)) as [n Hn]; [auto|]. exists (Datatypes.S n). cbn [bnd]. exact Hn.
Qed.
Lemma bnd_all S : (forall m, Acc (fun b a => embeds S a b) m) -> exists N, forall m, bnd S N m = true.
Proof.
  intros HA. assert (G : forall k, exists N, forall m, (m < k)%nat -> bnd S N m = true).
  { induction k as [|k [N HN]]; [exists 0%nat; intros m Hm; lia|]. destruct (bnd_exists S k (HA k)) as [n Hn].
    exists (Nat.max N n). intros m Hm. destruct (Nat.eq_dec m k) as [->|]; [apply (bnd_mono S n); [exact Hn|lia]|].
    apply (bnd_mono S N); [apply HN; lia|lia]. }
  destruct (G (length S)) as [N HN]. exists N. intros m. destruct (Nat.lt_ge_cases m (length S)) as [L|L]; [apply HN; exact L|].
  apply (bnd_mono S 0); [|lia]. cbn [bnd]. unfold rfields_of. rewrite nth_overflow by exact L. reflexivity.
Qed.

Section Any.
Variables (rt : runtime) (alloc : rtype -> Z -> bool) (S : rschema).
Hypothesis HC : rs_compiles S.

(** [dp]: the stack may overflow; [dies]: memory *)
Definition dies : Prop := W rt = 32 \/ exists t n, 0 <= n < 2 ^ 32 /\ alloc t n = false.
Definition fine {A} (dp : Prop) (c : cursor) (P : A -> Prop) (x : rgres A) : Prop :=
  match x with
  | RGOk a c' => forward c c' /\ P a
  | RGErr e c' => forward c c' /\ match e with Remote p => utf8 p | Decoding _ => True end
  | RGDie => dies
  | RGDeep => dp
  | RGBroken => False
  end.
Lemma forward_trans a b c : forward a b -> forward b c -> forward a c.
Proof. intros [E1 H1] [E2 H2]. split; [congruence|]. rewrite E1 in H2. lia. Qed.
Lemma forward_ok c c' : cursor_ok rt c -> forward c c' -> cursor_ok rt c'.
Proof. intros (Hp & Hb & Hi) [E H]. split; [rewrite E; lia|]. rewrite E. split; assumption. Qed.
Lemma forward_refl c : cursor_ok rt c -> forward c c.
Proof. intros (Hp & _). split; [reflexivity|lia]. Qed.
Lemma fine_weak {A} dp c c' (P Q : A -> Prop) x : forward c c' -> fine dp c' P x -> (forall a, P a -> Q a) -> fine dp c Q x.
Proof.
  intros F H W. destruct x; cbn in *; auto.
  - destruct H as [H1 H2]. split; [eapply forward_trans; eassumption|auto].
  - destruct H as [H1 H2]. split; [eapply forward_trans; eassumption|auto].
Qed.
Lemma fine_try {A C} dp c (P : A -> Prop) (Q : C -> Prop) x k : cursor_ok rt c -> fine dp c P x ->
  (forall a c', P a -> forward c c' -> cursor_ok rt c' -> fine dp c' Q (k a c')) -> fine dp c Q (gtry x k).
Proof.
  intros Hc H K. destruct x; cbn [gtry fine] in *; auto. destruct H as [F Pa].
  eapply fine_weak; [exact F|apply K; eauto using forward_ok|auto].
Qed.
Lemma fine_ok {A} dp c (P : A -> Prop) a : cursor_ok rt c -> P a -> fine dp c P (RGOk a c).
Proof. intros Hc Pa. split; [apply forward_refl; exact Hc|exact Pa]. Qed.
Lemma fine_err {A} dp c (P : A -> Prop) e : cursor_ok rt c -> fine dp c P (RGErr (Decoding e) c).
Proof. intros Hc. split; [apply forward_refl; exact Hc|exact I]. Qed.

Lemma w_cases : forall c, cursor_ok rt c -> W rt = 64 \/ W rt = 32.
Proof. intros c (_ & _ & [H _]). exact H. Qed.
Lemma fine_call dp q c : rust_req q -> cursor_ok rt c ->
  fine dp c (fun v => valid v /\ want v = q /\ text_ok v) (qmark (RustModel.decode rt q c)).
Proof.
  intros Hq Hc. destruct (RustModel.decode rt q c) as [v c'|e c'|] eqn:E; cbn [qmark fine].
  - destruct (dec_moves rt q c v c' Hq Hc E) as (E1 & E2 & _). split; [split; [exact E1|lia]|].
    apply dec_rust_ok in E; [|assumption..]. destruct E as (r & HA & HT & _).
    assert (Rq : req_ok q). { destruct q; cbn in *; auto; unfold rust_kind, isbyte in *; lia. }
    destruct (accepts_valid _ _ _ _ _ HA) as [V Wv]; [apply (rest_ok rt c Hc)|exact Rq|]. auto.
  - destruct (dec_err_forward rt q c e c' Hq Hc E) as (E1 & E2). split; [split; assumption|exact I].
  - destruct (w_cases c Hc) as [H64|H32]; [|left; exact H32]. exfalso. exact (dec_64_no_panic rt q c H64 Hq Hc E).
Qed.
Lemma call_strict q c v c' : rust_req q -> cursor_ok rt c -> qmark (RustModel.decode rt q c) = RGOk v c' -> pos c < pos c'.
Proof.
  intros Hq Hc E. destruct (RustModel.decode rt q c) as [v0 c0|e c0|] eqn:D; try discriminate E. injection E as <- <-.
  apply (dec_moves rt q c v0 c0 Hq Hc D).
Qed.

Lemma none_fine c : cursor_ok rt c ->
  match decode_none rt c with ROk b c' => forward c c' /\ (b = false -> c' = c) | _ => False end.
Proof.
  intros (Hp & _). destruct (cursor_cur c Hp) as [Ec Sc].
  assert (E : decode_none rt c = match rest c with a :: u => if a =? 0 then ROk true (cur (buf c) u) else ROk false c | [] => ROk false c end).
  { transitivity (decode_none rt (cur (buf c) (rest c))); [f_equal; exact Ec|]. rewrite (none_cur rt alloc) by exact Sc. destruct (rest c) as [|a u]; [|destruct (a =? 0)]; rewrite <- ?Ec; reflexivity. }
  rewrite E. destruct (rest c) as [|a u] eqn:R; [split; [split; [reflexivity|lia]|reflexivity]|].
  destruct (a =? 0).
  - split; [|discriminate]. split; [reflexivity|]. unfold cur. cbn [pos buf].
    assert (L : zlen (a :: u) = zlen (buf c) - pos c) by (rewrite <- R; unfold rest; rewrite zlen_zdrop by exact Hp; reflexivity).
    rewrite zlen_cons in L. pose proof (zlen_nonneg u). lia.
  - split; [split; [reflexivity|lia]|reflexivity].
Qed.

(** the types of the pieces *)
Definition good (x : gval) (f : rfield) : Prop := has_type (forget S) x (forget_f f) /\ ready S x f /\ no_nil x.
Lemma agree_want k q v : rs_types_agree k = Some q -> valid v -> want v = q -> holds k v.
Proof.
  intros H V E. destruct k; cbn in H; try discriminate H; injection H as <-; destruct v; try discriminate E; split; try exact V; exact I.
Qed.
Lemma agree_req k q : rs_types_agree k = Some q -> rust_req q.
Proof. destruct k; cbn; intros H; try discriminate H; injection H as <-; exact I. Qed.
Lemma fine_scalar dp k q c : rs_types_agree k = Some q -> cursor_ok rt c ->
  fine dp c (fun v => holds k v /\ text_ok v) (rs_dec_call rt k c).
Proof.
  intros H Hc. destruct (agree_facts k q H) as (en & dn & _ & D & _ & A). unfold rs_dec_call. rewrite D, A.
  eapply fine_weak; [apply forward_refl; exact Hc|apply fine_call; [eapply agree_req; exact H|exact Hc]|].
  intros v (V & Wv & T). split; [eapply agree_want; eassumption|exact T].
Qed.
Lemma scalar_agree k : rfield_compiles S (ROne (RScalar k)) = true -> exists q, rs_types_agree k = Some q.
Proof. cbn. destruct (rs_types_agree k); [eauto|discriminate]. Qed.
Lemma fine_enum dp n e c : cursor_ok rt c ->
  fine dp c (fun x => good x (ROne (REnum n))) (gtry (qmark (RustModel.decode rt RU32 c)) (fun v c => rs_try_from n e v c)).
Proof.
  intros Hc. eapply fine_try; [exact Hc|apply fine_call; [exact I|exact Hc]|]. intros v c' (V & Wv & _) F Hc'.
  destruct v; try discriminate Wv. cbn [rs_try_from valid] in *. destruct (Z.leb_spec 0 n0); [|lia]. cbn [andb].
  destruct (Z.ltb_spec n0 n); [|apply fine_err; exact Hc']. apply fine_ok; [exact Hc'|].
  split; [split; [exact V|exact I]|]. split; [split; [assumption|exact I]|exact I].
Qed.

Section Loops.
Variables (rec : nat -> cursor -> rgres (option (list gval))) (dp : Prop) (c0 : cursor).
Definition Some_good (m : nat) (o : option (list gval)) : Prop :=
  match o with Some xs => good (GMsg (Some xs)) (ROne (RMsg m)) | None => True end.

Lemma step_fine e f c : rfield_compiles S f = true -> cursor_ok rt c ->
  (forall m c', match f with ROne t => t = RMsg m /\ c' = c | RMany t | RMapOf _ t => t = RMsg m /\ pos c < pos c' end ->
     (m < length S)%nat -> cursor_ok rt c' -> forward c c' -> fine dp c' (Some_good m) (rec m c')) ->
  fine dp c (fun x => good x f) (step rt alloc rec e f c).
Proof.
  assert (EL : forall e t c, rfield_compiles S (ROne t) = true -> cursor_ok rt c ->
    (forall m, t = RMsg m -> (m < length S)%nat -> fine dp c (Some_good m) (rec m c)) ->
    fine dp c (fun x => good x (ROne t)) (step rt alloc rec e (ROne t) c)).
  { clear e f c. intros e t c FC Hc Hrec. destruct t as [k|n|m]; cbn [step].
    - destruct (scalar_agree k FC) as [q Hq]. eapply fine_try; [exact Hc|eapply fine_scalar; [exact Hq|exact Hc]|].
      intros v c' [Hv Ht] F Hc'. apply fine_ok; [exact Hc'|]. split; [exact Hv|]. split; [split; [exact Ht|exact I]|exact I].
    - apply fine_enum. exact Hc.
    - unfold rs_ok_or. cbn in FC. apply Nat.ltb_lt in FC. eapply fine_try; [exact Hc|apply (Hrec m eq_refl FC)|].
      intros [xs|] c' Hx F Hc'; [apply fine_ok; assumption|apply fine_err; exact Hc']. }
  intros FC Hc Hrec. destruct f as [t|t|k t].
  - apply EL; [exact FC|exact Hc|]. intros m -> L. apply Hrec; auto. apply forward_refl; exact Hc.
  - cbn [step rs_dec_slice]. destruct (rs_kind_t S t (RMany t) FC eq_refl) as [K _]. pose proof (rs_elem S t (RMany t) FC eq_refl) as FE.
    rewrite K. assert (Hq : rust_req (RSlice (announced (forget_t t)))) by apply rust_kind_announced.
    pose proof (fine_call dp _ c Hq Hc) as HF. pose proof (fun v c' => call_strict _ c v c' Hq Hc) as HS.
    destruct (qmark (RustModel.decode rt (RSlice (announced (forget_t t))) c)) as [v c1|e1 c1| | |] eqn:E; try exact HF.
    cbn [gtry]. destruct HF as [F1 (V & Wv & _)]. specialize (HS v c1 eq_refl). destruct v; try discriminate Wv.
    pose proof (forward_ok _ _ Hc F1) as Hc1. cbn [valid] in V. destruct (alloc t size) eqn:A; [|right; exists t, size; split; [lia|exact A]].
    eapply fine_weak; [exact F1| |intros x Hx; exact Hx].
    eapply fine_try; [exact Hc1| |].
    + assert (G : forall j c', cursor_ok rt c' -> forward c1 c' ->
        fine dp c' (fun xs => length xs = j /\ Forall (fun x => good x (ROne t)) xs) (rs_dec_elems rt rec t j c')).
      { induction j as [|j IH]; intros c' Hc' F'; [apply fine_ok; [exact Hc'|split; [reflexivity|constructor]]|].
        cbn [rs_dec_elems].
        assert (X : fine dp c' (fun x => good x (ROne t)) (step rt alloc rec InvalidArray (ROne t) c')).
        { apply EL; [exact FE|exact Hc'|]. intros m -> L. apply Hrec; auto; [|eapply forward_trans; eassumption]. split; [reflexivity|]. destruct F' as [_ F']. lia. }
        eapply (fine_try dp c' (fun x => good x (ROne t))); [exact Hc'|destruct t as [k|e0|m]; [exact X|discriminate FC|exact X]|].
        intros x c2 Hx F2 Hc2. eapply fine_try; [exact Hc2|apply IH; [exact Hc2|eapply forward_trans; eassumption]|].
        intros xs c3 [L3 H3] F3 Hc3. apply fine_ok; [exact Hc3|]. split; [cbn; lia|constructor; assumption]. }
      apply G; [exact Hc1|apply forward_refl; exact Hc1].
    + intros xs c' [L Hxs] F' Hc'. apply fine_ok; [exact Hc'|]. rewrite Forall_forall in Hxs.
      split; [|split].
      * cbn [forget_f]. apply ht_many. split; [unfold zlen; lia|]. apply Forall_forall. intros x Hx. apply (Hxs x Hx).
      * unfold ready. apply in_many. split; [exact I|]. apply Forall_forall. intros x Hx. apply (Hxs x Hx).
      * apply nn_list. apply Forall_forall. intros x Hx. apply (Hxs x Hx).
  - cbn [step rs_dec_message]. destruct (rs_kind_t S t (RMapOf k t) FC eq_refl) as [K2 _]. pose proof (rs_elem S t (RMapOf k t) FC eq_refl) as FE.
    pose proof (rs_key S k t FC) as ->. change (rs_kind (rs_getKind GenTables.KString)) with (Some 5). rewrite K2.
    pose proof (none_fine c Hc) as Nn.
    destruct (decode_none rt c) as [b c1|e1 c1|]; try contradiction Nn. destruct Nn as [F1 E1]. pose proof (forward_ok _ _ Hc F1) as Hc1.
    destruct b; [split; [exact F1|exact I]|]. rewrite (E1 eq_refl). clear E1 F1 Hc1 c1.
    assert (Hq : rust_req (RMap 5 (announced (forget_t t)))) by (split; [unfold rust_kind; lia|apply rust_kind_announced]).
    pose proof (fine_call dp _ c Hq Hc) as HF. pose proof (fun v c' => call_strict _ c v c' Hq Hc) as HS.
    destruct (RustModel.decode rt (RMap 5 (announced (forget_t t))) c) as [v c1|e1 c1|] eqn:E; cbn [qmark] in *; try exact HF.
    destruct HF as [F1 (V & Wv & _)]. specialize (HS v c1 eq_refl). destruct v; try discriminate Wv.
    pose proof (forward_ok _ _ Hc F1) as Hc1. cbn [valid] in V.
    eapply fine_weak; [exact F1| |intros x Hx; exact Hx].
    assert (G : forall j l c', cursor_ok rt c' -> forward c1 c' -> NoDup (map fst l) ->
        Forall (fun e => (holds GenTables.KString (fst e) /\ text_ok (fst e)) /\ good (snd e) (ROne t)) l ->
        fine dp c' (fun l' => (length l' <= length l + j)%nat /\ NoDup (map fst l') /\
           Forall (fun e => (holds GenTables.KString (fst e) /\ text_ok (fst e)) /\ good (snd e) (ROne t)) l')
         (rs_dec_entries rt rec GenTables.KString t j l c')).
    { induction j as [|j IH]; intros l c' Hc' F' ND HL.
      { apply fine_ok; [exact Hc'|]. split; [lia|]. split; assumption. }
      cbn [rs_dec_entries]. eapply fine_try; [exact Hc'|apply (fine_scalar dp GenTables.KString RString); [reflexivity|exact Hc']|].
      intros kv c2 Hk F2 Hc2.
      assert (X : fine dp c2 (fun x => good x (ROne t)) (step rt alloc rec InvalidMap (ROne t) c2)).
      { apply EL; [exact FE|exact Hc2|]. intros m -> L. pose proof (forward_trans _ _ _ F' F2) as F12.
        apply Hrec; auto; [|eapply forward_trans; eassumption]. split; [reflexivity|]. destruct F12 as [_ F12]. lia. }
      eapply (fine_try dp c2 (fun x => good x (ROne t))); [exact Hc2|destruct t as [kt|e0|m]; exact X|].
      intros x c3 Hx F3 Hc3.
      eapply fine_weak; [apply forward_refl; exact Hc3| |].
      - apply IH; [exact Hc3|eapply forward_trans; [exact F'|eapply forward_trans; eassumption]|apply insert_nodup; exact ND|].
        apply insert_forall; [split; [exact Hk|exact Hx]|exact HL].
      - intros l' (L' & A1 & A2). split; [|auto]. pose proof (insert_length kv x l). lia. }
    eapply fine_try; [exact Hc1|apply (G (Z.to_nat size) [] c1 Hc1); [apply forward_refl; exact Hc1|constructor|constructor]|].
    intros l c2 (L & ND & HL) F2 Hc2. apply fine_ok; [exact Hc2|]. cbn [length] in L. rewrite Forall_forall in HL. split; [|split].
    + cbn [forget_f]. apply ht_map. split; [unfold zlen; lia|]. split; [exact ND|]. apply Forall_forall. intros x Hx. split; [apply (HL x Hx)|apply (HL x Hx)].
    + unfold ready. apply in_map. split; [cbn [node_ready]|]; apply Forall_forall; intros x Hx; apply (HL x Hx).
    + apply nn_map. apply Forall_forall. intros x Hx. apply (HL x Hx).
Qed.
End Loops.

Lemma pass_fine dp stp (Q : gval -> rfield -> Prop) : forall fs is c, cursor_ok rt c ->
  (forall i, In i is -> exists f, nth_error fs i = Some f /\ forall c', cursor_ok rt c' -> forward c c' -> fine dp c' (fun x => Q x f) (stp f c')) ->
  fine dp c (fun l => map fst l = is /\ Forall (fun e => exists f, nth_error fs (fst e) = Some f /\ Q (snd e) f) l) (rs_pass stp fs is c).
Proof.
  intros fs. induction is as [|i is IH]; intros c Hc H.
  - apply fine_ok; [exact Hc|]. split; [reflexivity|constructor].
  - cbn [rs_pass]. destruct (H i (or_introl eq_refl)) as (f & Ef & Hf). rewrite Ef.
    eapply fine_try; [exact Hc|apply Hf; [exact Hc|apply forward_refl; exact Hc]|]. intros x c1 Hx F1 Hc1.
    eapply fine_try; [exact Hc1|apply IH; [exact Hc1|]|].
    + intros j Hj. destruct (H j (or_intror Hj)) as (g & Eg & Hg). exists g. split; [exact Eg|]. intros c' Hc' F'. apply Hg; [exact Hc'|eapply forward_trans; eassumption].
    + intros l c2 [L1 L2] F2 Hc2. apply fine_ok; [exact Hc2|]. split; [cbn; congruence|]. constructor; [exists f; auto|exact L2].
Qed.

Lemma field_found i l : In i (map fst l) -> exists x, rs_field i l = Some x /\ In (i, x) l.
Proof.
  induction l as [|[j x] l IH]; intros H; [destruct H|]. cbn [rs_field]. destruct (Nat.eqb_spec i j) as [->|N].
  - exists x. split; [reflexivity|left; reflexivity].
  - destruct H as [H|H]; [cbn in H; congruence|]. destruct (IH H) as (y & E & Hy). exists y. split; [exact E|right; exact Hy].
Qed.
Lemma struct_found (Q : gval -> rfield -> Prop) fs l : (forall i, (i < length fs)%nat -> In i (map fst l)) ->
  Forall (fun e => exists f, nth_error fs (fst e) = Some f /\ Q (snd e) f) l ->
  exists xs, rs_struct (length fs) l = Some xs /\ Forall2 Q xs fs.
Proof.
  intros H HQ. rewrite Forall_forall in HQ. unfold rs_struct.
  assert (G : forall n i, (i + n = length fs)%nat ->
    exists xs, all_some (map (fun i => option_map (fun x => [x]) (rs_field i l)) (seq i n)) = Some xs /\ Forall2 Q xs (skipn i fs)).
  { induction n as [|n IH]; intros i Hi.
    - exists []. split; [reflexivity|]. rewrite skipn_all2 by lia. constructor.
    - destruct (IH (Datatypes.S i)) as (xs & E & F); [lia|]. destruct (field_found i l) as (x & Ex & Hx); [apply H; lia|].
      exists (x :: xs). cbn [seq map all_some]. rewrite Ex. cbn [option_map]. rewrite E. split; [reflexivity|].
      destruct (HQ _ Hx) as (f & Ef & Qf). cbn [fst snd] in *. rewrite (skipn_cons_nth_error fs i f Ef). constructor; assumption. }
  destruct (G (length fs) 0%nat eq_refl) as (xs & E & F). exists xs. split; [exact E|exact F].
Qed.

Variable N : nat.
Hypothesis HN : forall m, bnd S N m = true.
Definition room (c : cursor) : nat := Z.to_nat (zlen (buf c) - pos c).
Lemma room_le c c' : forward c c' -> (room c' <= room c)%nat.
Proof. intros [E H]. unfold room. rewrite E. lia. Qed.
Lemma room_lt c c' : forward c c' -> pos c < pos c' -> (room c' < room c)%nat.
Proof. intros [E H] L. unfold room. rewrite E. lia. Qed.

Lemma decode_fine : forall fuel n m c, bnd S n m = true -> (m < length S)%nat -> cursor_ok rt c ->
  fine (fuel <= (N + 1) * room c + n)%nat c (Some_good m) (rs_decode rt alloc S fuel m c).
Proof.
  induction fuel as [|fuel IH]; intros n m c Hn L Hc; [cbn; lia|]. cbn [rs_decode].
  pose proof (none_fine c Hc) as Nn.
  destruct (decode_none rt c) as [b c1|e1 c1|]; try contradiction Nn. destruct Nn as [F1 E1]. pose proof (forward_ok _ _ Hc F1) as Hc1.
  destruct b; [split; [exact F1|exact I]|]. specialize (E1 eq_refl). subst c1. clear F1 Hc1.
  pose proof (fine_call False RError c I Hc) as HE. cbn [RustModel.decode] in HE.
  destruct (decode_error rt c) as [p c1|e1 c1|]; cbn [rmap qmark fine] in HE |- *.
  { destruct HE as [F1 (_ & _ & T)]. split; [exact F1|exact T]. }
  2:{ exact HE. }
  destruct HE as [F1 _]. pose proof (forward_ok _ _ Hc F1) as Hc1. rewrite (rfields_nth S m L).
  rewrite (rs_getFields_sel S) by (auto; apply compiles_msg_r; assumption).
  set (fs := rfields_of S m). set (is := sel p_val (map forget_f fs) 0). set (js := sel p_slice (map forget_f fs) 0). set (ks := sel p_msg (map forget_f fs) 0).
  set (dp := (Datatypes.S fuel <= (N + 1) * room c + n)%nat).
  assert (ST : forall f c' e, In f fs -> cursor_ok rt c' -> forward c c' ->
    fine dp c' (fun x => good x f) (step rt alloc (rs_decode rt alloc S fuel) e f c')).
  { intros f c' e Hf Hc' F'. apply step_fine; [eapply compiles_field_in; [exact HC|exact Hf]|exact Hc'|].
    intros q c2 Hq Lq Hc2 F2.
    assert (D : exists n', bnd S n' q = true /\ ((fuel <= (N + 1) * room c2 + n')%nat -> dp)).
    { pose proof (room_le _ _ F'). pose proof (room_le _ _ F2). unfold dp. destruct f as [t|t|k t].
      - destruct Hq as [-> ->]. destruct (bnd_field S n m q Hn Hf) as (k & -> & Hk). exists k. split; [exact Hk|]. intros X. nia.
      - destruct Hq as [-> Hlt]. exists N. split; [apply HN|]. pose proof (room_lt _ _ F2 Hlt). intros X. nia.
      - destruct Hq as [-> Hlt]. exists N. split; [apply HN|]. pose proof (room_lt _ _ F2 Hlt). intros X. nia. }
    destruct D as (n' & Hn' & D). pose proof (IH n' q c2 Hn' Lq Hc2) as R.
    destruct (rs_decode rt alloc S fuel q c2); cbn [fine] in *; auto. }
  assert (SEL : forall p i, In i (sel p (map forget_f fs) 0) -> exists f, nth_error fs i = Some f /\ p (forget_f f) = true).
  { intros p i Hi. apply sel_in in Hi. destruct Hi as (_ & g & Eg & Pg). rewrite Nat.sub_0_r, nth_error_map in Eg.
    destruct (nth_error fs i) as [f|] eqn:Ef; [|discriminate]. injection Eg as <-. eauto. }
  eapply fine_weak; [exact F1| |intros a Ha; exact Ha].
  eapply fine_try; [exact Hc1|apply (pass_fine dp (rs_dec_other rt) good fs is c1 Hc1)|].
  { intros i Hi. destruct (SEL _ _ Hi) as (f & Ef & Pf). exists f. split; [exact Ef|]. intros c' Hc' F'.
    pose proof (ST f c' InvalidEnum (nth_error_In _ _ Ef) Hc' (forward_trans _ _ _ F1 F')) as X. destruct f as [[k|e|q]|t|k t]; try discriminate Pf; exact X. }
  intros l1 c2 [M1 G1] F2 Hc2. pose proof (forward_trans _ _ _ F1 F2) as F12.
  eapply fine_try; [exact Hc2|apply (pass_fine dp (rs_dec_slice rt alloc (rs_decode rt alloc S fuel)) good fs js c2 Hc2)|].
  { intros i Hi. destruct (SEL _ _ Hi) as (f & Ef & Pf). exists f. split; [exact Ef|]. intros c' Hc' F'.
    pose proof (ST f c' InvalidEnum (nth_error_In _ _ Ef) Hc' (forward_trans _ _ _ F12 F')) as X. destruct f as [[k|e|q]|t|k t]; try discriminate Pf; exact X. }
  intros l2 c3 [M2 G2] F3 Hc3. pose proof (forward_trans _ _ _ F12 F3) as F13.
  eapply fine_try; [exact Hc3|apply (pass_fine dp (rs_dec_message rt (rs_decode rt alloc S fuel)) good fs ks c3 Hc3)|].
  { intros i Hi. destruct (SEL _ _ Hi) as (f & Ef & Pf). exists f. split; [exact Ef|]. intros c' Hc' F'.
    pose proof (ST f c' InvalidStruct (nth_error_In _ _ Ef) Hc' (forward_trans _ _ _ F13 F')) as X. destruct f as [[k|e|q]|t|k t]; try discriminate Pf; exact X. }
  intros l3 c4 [M3 G3] F4 Hc4.
  destruct (struct_found good fs (l1 ++ l2 ++ l3)) as (xs & E & G).
  { intros i Hi. rewrite !map_app, M1, M2, M3. apply order_in. rewrite map_length. exact Hi. }
  { apply Forall_app. split; [exact G1|]. apply Forall_app. split; assumption. }
  rewrite E. apply fine_ok; [exact Hc4|]. cbn [Some_good]. split; [|split].
  - cbn [forget_f forget_t]. apply ht_msg. rewrite forget_length. split; [exact L|]. rewrite forget_fields. fold fs.
    clear -G. induction G as [|x f xs fs [H _] _ IH]; constructor; assumption.
  - unfold ready. apply in_msg; [exact (Forall2_length _ _ _ G)|]. split; [exact I|]. fold fs.
    clear -G. induction G as [|x f xs fs (_ & H & _) _ IH]; constructor; assumption.
  - apply nn_msg. clear -G. induction G as [|x f xs fs (_ & _ & H) _ IH]; constructor; assumption.
Qed.
End Any.
