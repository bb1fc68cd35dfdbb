(** Generated Rust code and input that goes on behind the message. *)
From Coq Require Import String.
From Verif Require Import Base Spec SpecProofs Utf8 GoSpec GoProps2 RustModel RustSpec RustDec RustThms RustEnc RustThms2 GenTables.
From Verif Require Import GenLemmas GenFields GenDec GenThms2 RsGenModel RsGenSpec RsGenLemmas RsGenDec RsGenRound RsGenAny RsGenThms RsTrunc.
From Verif Require Import GenModel GenSpec.
Import RustModel RsGenModel RsGenSpec.

(** M::decode behind the two tests at its start *)
Definition rs_body rt alloc (S : rschema) (rec : nat -> cursor -> rgres (option (list gval))) (m : nat) (c : cursor) : rgres (option (list gval)) :=
  match nth_error S m with
  | None => RGBroken
  | Some fs =>
      match rs_getFields rs_decodeLUT fs with
      | None => RGBroken
      | Some (other, slices, messages) =>
          gtry (rs_pass (rs_dec_other rt) fs other c) (fun a c =>
          gtry (rs_pass (rs_dec_slice rt alloc rec) fs slices c) (fun b c =>
          gtry (rs_pass (rs_dec_message rt rec) fs messages c) (fun d c =>
          match rs_struct (length fs) (a ++ b ++ d) with
          | Some xs => RGOk (Some xs) c
          | None => RGBroken
          end)))
      end
  end.
Lemma rs_decode_body rt alloc S fuel m c : rs_decode rt alloc S (Datatypes.S fuel) m c =
  match decode_none rt c with
  | RPanic => RGDie
  | RErr e c => RGErr (Decoding e) c
  | ROk true c => RGOk None c
  | ROk false c =>
      match decode_error rt c with
      | RPanic => RGDie
      | ROk p c => RGErr (Remote p) c
      | RErr _ c => rs_body rt alloc S (rs_decode rt alloc S fuel) m c
      end
  end.
Proof. reflexivity. Qed.

Section Empty.
Variables (rt : runtime) (alloc : rtype -> Z -> bool) (S : rschema) (B : bytes).
Hypothesis HB : bytes_ok B.
Hypothesis HI : int_ok (W rt) B.
Hypothesis HC : rs_compiles S.
Lemma suf_nil : suf [] B. Proof. exists B. rewrite app_nil_r. reflexivity. Qed.
Lemma call_empty r : rust_req r -> forall v c, RustModel.decode rt r (cur B []) <> ROk v c.
Proof.
  intros Hr v c. rewrite decode_ideal; [|exact Hr|constructor|exact suf_nil]. destruct r; cbn; discriminate.
Qed.
Lemma scalar_empty k : forall v c, rs_dec_call rt k (cur B []) <> RGOk v c.
Proof.
  intros v c. unfold rs_dec_call. destruct (rs_decodeLUT k) as [n|] eqn:E; [|discriminate].
  destruct (assoc n rs_decoder_methods) as [r|] eqn:A; [|discriminate].
  assert (Hr : rust_req r) by (destruct k; try discriminate E; injection E as <-; cbn in A; injection A as <-; exact I).
  pose proof (call_empty r Hr) as X. destruct (RustModel.decode rt r (cur B [])) as [v' c'| |]; try discriminate. destruct (X v' c' eq_refl).
Qed.
(** success only if [V], with nothing read *)
Definition idle {A} (V : Prop) (x : rgres A) : Prop := forall a c, x = RGOk a c -> c = cur B [] /\ V.
Lemma idle_bind {A C} (V V' : Prop) (x : rgres A) (k : A -> cursor -> rgres C) :
  idle V x -> (forall a, V -> idle V' (k a (cur B []))) -> idle V' (gtry x k).
Proof. intros H K a c E. destruct x as [a0 c0| | | |]; try discriminate E. destruct (H a0 c0 eq_refl) as [-> Hv]. exact (K a0 Hv a c E). Qed.
Lemma idle_no {A} (V : Prop) (x : rgres A) : (forall a c, x <> RGOk a c) -> idle V x.
Proof. intros H a c E. destruct (H a c E). Qed.
Lemma idle_weak {A} (V V' : Prop) (x : rgres A) : (V -> V') -> idle V x -> idle V' x.
Proof. intros H K a c E. destruct (K a c E). auto. Qed.
Lemma pass_idle stp fs (V : nat -> Prop) : forall is, (forall i f, In i is -> nth_error fs i = Some f -> idle (V i) (stp f (cur B []))) ->
  idle (forall i, In i is -> V i) (rs_pass stp fs is (cur B [])).
Proof.
  induction is as [|i is IH]; intros H.
  - intros a c E. injection E as <- <-. split; [reflexivity|intros i []].
  - cbn [rs_pass]. destruct (nth_error fs i) as [f|] eqn:Ef; [|apply idle_no; discriminate].
    eapply idle_bind; [apply (H i f); [left; reflexivity|exact Ef]|]. intros x Vi.
    eapply idle_bind; [apply IH; intros j g Hj; apply H; right; exact Hj|]. intros xs Vs a c E. injection E as <- <-.
    split; [reflexivity|]. intros j [<-|Hj]; auto.
Qed.
Lemma body_idle rec : (forall m, (m < length S)%nat -> idle (vacuous false (forget S) m) (rec m (cur B []))) ->
  forall m, (m < length S)%nat -> idle (vacuous false (forget S) m) (rs_body rt alloc S rec m (cur B [])).
Proof.
  intros Hrec m L. unfold rs_body. rewrite (rfields_nth S m L). rewrite (rs_getFields_sel S) by (auto; apply compiles_msg_r; assumption).
  set (fs := rfields_of S m).
  eapply idle_bind; [apply (pass_idle _ _ (fun _ => False))|].
  { intros i f _ _. apply idle_no. intros a c. destruct f as [[k|n|m']|t|k t]; try discriminate; cbn [rs_dec_other].
    - pose proof (scalar_empty k) as X. destruct (rs_dec_call rt k (cur B [])) as [v c'| | | |]; try discriminate. destruct (X v c' eq_refl).
    - pose proof (call_empty RU32 I) as X. destruct (RustModel.decode rt RU32 (cur B [])) as [v c'| |]; try discriminate. destruct (X v c' eq_refl). }
  intros a V1. eapply idle_bind; [apply (pass_idle _ _ (fun _ => False))|].
  { intros i f Hi Ef. apply idle_no. intros b c. destruct f as [[k|n|m']|t|k t]; try discriminate; cbn [rs_dec_slice].
    assert (FC : rfield_compiles S (RMany t) = true) by (eapply compiles_field_in; [exact HC|eapply nth_error_In; exact Ef]).
    destruct (rs_kind_t S t (RMany t) FC eq_refl) as [-> _].
    pose proof (call_empty (RSlice (announced (forget_t t))) (rust_kind_announced _)) as X.
    destruct (RustModel.decode rt (RSlice (announced (forget_t t))) (cur B [])) as [v c'| |]; try discriminate. destruct (X v c' eq_refl). }
  intros b V2. eapply idle_bind; [apply (pass_idle _ _ (fun i => exists m', nth_error fs i = Some (ROne (RMsg m')) /\ vacuous false (forget S) m'))|].
  { intros i f Hi Ef. assert (FC : rfield_compiles S f = true) by (eapply compiles_field_in; [exact HC|eapply nth_error_In; exact Ef]).
    destruct f as [[k|n|m']|t|k t]; try (apply idle_no; discriminate); cbn [rs_dec_message].
    - eapply idle_weak; [intros V; exists m'; split; [exact Ef|exact V]|]. unfold rs_ok_or.
      eapply idle_bind; [apply Hrec; apply Nat.ltb_lt; exact FC|]. intros [xs|] V; [|apply idle_no; discriminate].
      intros y c E. injection E as <- <-. auto.
    - apply idle_no. intros y c. rewrite (none_cur rt alloc) by exact suf_nil.
      destruct (rs_kind_t S t (RMapOf k t) FC eq_refl) as [-> _]. pose proof (rs_key S k t FC) as ->. change (rs_kind (rs_getKind GenTables.KString)) with (Some 5).
      assert (Hq : rust_req (RMap 5 (announced (forget_t t)))) by (split; [unfold rust_kind; lia|apply rust_kind_announced]).
      pose proof (call_empty _ Hq) as X. cbv beta iota.
      destruct (RustModel.decode rt (RMap 5 (announced (forget_t t))) (cur B [])) as [v c'| |]; try discriminate. destruct (X v c' eq_refl). }
  intros d V3 y c E. destruct (rs_struct _ _); [|discriminate E]. injection E as <- <-. split; [reflexivity|].
  constructor; [rewrite forget_length; exact L|]. intros f Hf. right. rewrite forget_fields in Hf. fold fs in Hf. apply In_nth_error in Hf. destruct Hf as [i Hi].
  assert (Hio : In i (order (map forget_f fs))) by (apply order_in, nth_error_Some; congruence).
  unfold order in Hio. rewrite !in_app_iff in Hio. destruct Hio as [Hi'|[Hi'|Hi']]; [destruct (V1 _ Hi')|destruct (V2 _ Hi')|].
  destruct (V3 _ Hi') as (m' & E & Vm). rewrite nth_error_map, E in Hi. injection Hi as <-. exists m'. split; [reflexivity|exact Vm].
Qed.
Theorem decode_idle : forall fuel m, (m < length S)%nat -> idle (vacuous false (forget S) m) (rs_decode rt alloc S fuel m (cur B [])).
Proof.
  induction fuel as [|fuel IH]; intros m L; [apply idle_no; discriminate|]. rewrite rs_decode_body, (none_cur rt alloc) by exact suf_nil.
  destruct (error_cur rt B [] suf_nil (or_introl eq_refl)) as [e ->]. apply body_idle; assumption.
Qed.
End Empty.

Section More.
Variables (rt : runtime) (alloc : rtype -> Z -> bool) (S : rschema) (B q : bytes).
Hypothesis HB : bytes_ok (B ++ q).
Hypothesis HI : int_ok (W rt) (B ++ q).
Hypothesis HC : rs_compiles S.
Hypothesis HE : eof rt = true.
Hypothesis HV : forall k, ~ vacuous false (forget S) k.

Lemma HB1 : bytes_ok B. Proof. apply Forall_app in HB. apply HB. Qed.
Lemma HI1 : int_ok (W rt) B. Proof. eapply int_shorter; [exact HI|]. rewrite zlen_app. pose proof (zlen_nonneg q). lia. Qed.
Lemma suf_more t : suf t B -> suf (t ++ q) (B ++ q).
Proof. intros [p ->]. exists p. rewrite app_assoc. reflexivity. Qed.
Lemma suf_bytes t : suf t B -> bytes_ok t.
Proof. intros [p E]. pose proof HB1 as H. rewrite E in H. apply Forall_app in H. apply H. Qed.
Lemma suf_bytes_more t : suf t B -> bytes_ok (t ++ q).
Proof. intros H. apply Forall_app. split; [apply suf_bytes, H|]. apply Forall_app in HB. apply HB. Qed.
Definition sim {A} (x x' : rgres A) : Prop :=
  forall a c, x = RGOk a c -> exists t, suf t B /\ c = cur B t /\ x' = RGOk a (cur (B ++ q) (t ++ q)).
Lemma sim_bind {A C} (x x' : rgres A) (k k' : A -> cursor -> rgres C) :
  sim x x' -> (forall a t, suf t B -> sim (k a (cur B t)) (k' a (cur (B ++ q) (t ++ q)))) -> sim (gtry x k) (gtry x' k').
Proof.
  intros H K a c E. destruct x as [a0 c0| | | |]; try discriminate E. destruct (H a0 c0 eq_refl) as (t & Ht & -> & ->). exact (K a0 t Ht a c E).
Qed.
Lemma sim_ok {A} (a : A) t : suf t B -> sim (RGOk a (cur B t)) (RGOk a (cur (B ++ q) (t ++ q))).
Proof. intros Ht b c E. injection E as <- <-. exists t. auto. Qed.
Lemma sim_no {A} (x x' : rgres A) : (forall a c, x <> RGOk a c) -> sim x x'.
Proof. intros H a c E. destruct (H a c E). Qed.
Lemma call_more r t v c : rust_req r -> suf t B -> RustModel.decode rt r (cur B t) = ROk v c ->
  exists u, suf u B /\ c = cur B u /\ RustModel.decode rt r (cur (B ++ q) (t ++ q)) = ROk v (cur (B ++ q) (u ++ q)).
Proof.
  intros Hr Hs D.
  assert (CK : forall B t, suf t B -> bytes_ok B -> int_ok (W rt) B -> cursor_ok rt (cur B t) /\ rest (cur B t) = t).
  { clear. intros B t [pre ->] HB HI. unfold cur, rest, cursor_ok. cbn [pos buf]. pose proof (zlen_nonneg pre). pose proof (zlen_nonneg t).
    replace (zlen (pre ++ t) - zlen t) with (zlen pre) by (rewrite zlen_app; lia). split; [|apply zdrop_app_exact].
    split; [rewrite zlen_app; lia|auto]. }
  destruct (CK B t Hs HB1 HI1) as [C1 R1]. destruct (CK (B ++ q) (t ++ q) (suf_more _ Hs) HB HI) as [C2 R2].
  apply dec_rust_ok in D; [|exact Hr|exact C1]. destruct D as (r0 & HA & HT & ->). rewrite R1 in HA. exists r0.
  destruct (accepts_suffix _ _ _ _ _ HA) as [p Ep]. split; [eapply suf_app; rewrite <- Ep; exact Hs|]. split; [reflexivity|].
  apply dec_rust_ok; [exact Hr|exact C2|]. exists (r0 ++ q). rewrite R2. split; [apply accepts_app; exact HA|]. split; [exact HT|reflexivity].
Qed.
Lemma sim_call r t : rust_req r -> suf t B -> sim (qmark (RustModel.decode rt r (cur B t))) (qmark (RustModel.decode rt r (cur (B ++ q) (t ++ q)))).
Proof.
  intros Hr Hs a c E. destruct (RustModel.decode rt r (cur B t)) as [v c'| |] eqn:D; try discriminate E. injection E as <- <-.
  destruct (call_more r t v c' Hr Hs D) as (u & Hu & -> & ->). exists u. auto.
Qed.
Lemma sim_scalar k t : suf t B -> sim (rs_dec_call rt k (cur B t)) (rs_dec_call rt k (cur (B ++ q) (t ++ q))).
Proof.
  intros Hs. unfold rs_dec_call. destruct (rs_decodeLUT k) as [n|] eqn:E; [|apply sim_no; discriminate].
  destruct (assoc n rs_decoder_methods) as [r|] eqn:A; [|apply sim_no; discriminate]. apply sim_call; [|exact Hs].
  destruct k; try discriminate E; injection E as <-; cbn in A; injection A as <-; exact I.
Qed.
Lemma sim_enum n e v t : suf t B -> sim (rs_try_from n e v (cur B t)) (rs_try_from n e v (cur (B ++ q) (t ++ q))).
Proof. intros Hs. destruct v; try (apply sim_no; discriminate). cbn [rs_try_from]. destruct (_ && _); [apply sim_ok; exact Hs|apply sim_no; discriminate]. Qed.

Section Rec.
Variables rec : nat -> cursor -> rgres (option (list gval)).
Hypothesis Hrec : forall m t, (m < length S)%nat -> suf t B -> sim (rec m (cur B t)) (rec m (cur (B ++ q) (t ++ q))).
Lemma sim_ok_or m e t : (m < length S)%nat -> suf t B -> sim (rs_ok_or rec m e (cur B t)) (rs_ok_or rec m e (cur (B ++ q) (t ++ q))).
Proof.
  intros L Hs. unfold rs_ok_or. eapply sim_bind; [apply Hrec; assumption|]. intros [xs|] u Hu; [apply sim_ok; exact Hu|apply sim_no; discriminate].
Qed.
Lemma sim_elems t n : rfield_compiles S (ROne t) = true -> forall u, suf u B -> sim (rs_dec_elems rt rec t n (cur B u)) (rs_dec_elems rt rec t n (cur (B ++ q) (u ++ q))).
Proof.
  intros FC. induction n as [|n IH]; intros u Hu; [apply sim_ok; exact Hu|]. cbn [rs_dec_elems]. eapply sim_bind.
  - destruct t as [k|v|m]; [|apply sim_no; discriminate|apply sim_ok_or; [apply Nat.ltb_lt; exact FC|exact Hu]].
    eapply sim_bind; [apply sim_scalar; exact Hu|]. intros v w Hw. apply sim_ok; exact Hw.
  - intros x w Hw. eapply sim_bind; [apply IH; exact Hw|]. intros xs w' Hw'. apply sim_ok; exact Hw'.
Qed.
Lemma sim_entries kk t n : rfield_compiles S (ROne t) = true -> forall l u, suf u B -> sim (rs_dec_entries rt rec kk t n l (cur B u)) (rs_dec_entries rt rec kk t n l (cur (B ++ q) (u ++ q))).
Proof.
  intros FC. induction n as [|n IH]; intros l u Hu; [apply sim_ok; exact Hu|]. cbn [rs_dec_entries].
  eapply sim_bind; [apply sim_scalar; exact Hu|]. intros k w Hw. eapply sim_bind; [|intros v w' Hw'; apply IH; exact Hw'].
  destruct t as [kt|v|m]; [| |apply sim_ok_or; [apply Nat.ltb_lt; exact FC|exact Hw]].
  - eapply sim_bind; [apply sim_scalar; exact Hw|]. intros v w' Hw'. apply sim_ok; exact Hw'.
  - eapply sim_bind; [apply sim_scalar; exact Hw|]. intros v' w' Hw'. apply sim_enum; exact Hw'.
Qed.
Lemma sim_pass stp fs : (forall f t, In f fs -> suf t B -> sim (stp f (cur B t)) (stp f (cur (B ++ q) (t ++ q)))) ->
  forall is t, suf t B -> sim (rs_pass stp fs is (cur B t)) (rs_pass stp fs is (cur (B ++ q) (t ++ q))).
Proof.
  intros H. induction is as [|i is IH]; intros t Ht; [apply sim_ok; exact Ht|]. cbn [rs_pass]. destruct (nth_error fs i) as [f|] eqn:Ef; [|apply sim_no; discriminate].
  eapply sim_bind; [apply H; [eapply nth_error_In; exact Ef|exact Ht]|]. intros x u Hu. eapply sim_bind; [apply IH; exact Hu|]. intros xs w Hw. apply sim_ok; exact Hw.
Qed.
Lemma sim_body m t : (m < length S)%nat -> suf t B -> sim (rs_body rt alloc S rec m (cur B t)) (rs_body rt alloc S rec m (cur (B ++ q) (t ++ q))).
Proof.
  intros L Ht. unfold rs_body. rewrite (rfields_nth S m L). destruct (rs_getFields rs_decodeLUT (rfields_of S m)) as [[[o s] ms]|]; [|apply sim_no; discriminate].
  assert (FC : forall f, In f (rfields_of S m) -> rfield_compiles S f = true) by (intros f; apply compiles_field_in; exact HC).
  eapply sim_bind; [apply sim_pass; [|exact Ht]|].
  { intros f u _ Hu. destruct f as [[k|n|m']|t'|k t']; try (apply sim_no; discriminate); cbn [rs_dec_other].
    - eapply sim_bind; [apply sim_scalar; exact Hu|]. intros v w Hw. apply sim_ok; exact Hw.
    - eapply sim_bind; [apply sim_call; [exact I|exact Hu]|]. intros v w Hw. apply sim_enum; exact Hw. }
  intros a u Hu. eapply sim_bind; [apply sim_pass; [|exact Hu]|].
  { intros f w Hf Hw. specialize (FC f Hf). destruct f as [[k|n|m']|t'|k t']; try (apply sim_no; discriminate); cbn [rs_dec_slice].
    destruct (rs_kind_t S t' (RMany t') FC eq_refl) as [-> _].
    eapply sim_bind; [apply sim_call; [apply rust_kind_announced|exact Hw]|]. intros v w' Hw'. destruct v; try (apply sim_no; discriminate).
    destruct (alloc t' size); [|apply sim_no; discriminate].
    eapply sim_bind; [apply sim_elems; [apply (rs_elem S t' (RMany t') FC eq_refl)|exact Hw']|]. intros xs w2 Hw2. apply sim_ok; exact Hw2. }
  intros b w Hw. eapply sim_bind; [apply sim_pass; [|exact Hw]|].
  { intros f w' Hf Hw'. specialize (FC f Hf). destruct f as [[k|n|m']|t'|k t']; try (apply sim_no; discriminate); cbn [rs_dec_message].
    - apply sim_ok_or; [apply Nat.ltb_lt; exact FC|exact Hw'].
    - destruct (rs_kind_t S t' (RMapOf k t') FC eq_refl) as [-> _]. pose proof (rs_key S k t' FC) as ->. change (rs_kind (rs_getKind GenTables.KString)) with (Some 5).
      assert (Hq : rust_req (RMap 5 (announced (forget_t t')))) by (split; [unfold rust_kind; lia|apply rust_kind_announced]).
      rewrite (none_cur rt alloc) by exact Hw'. destruct w' as [|x w'].
      { apply sim_no. intros y c. pose proof (call_empty rt B _ Hq) as X. cbv beta iota.
        destruct (RustModel.decode rt (RMap 5 (announced (forget_t t'))) (cur B [])) as [v c'| |]; try discriminate. destruct (X v c' eq_refl). }
      rewrite (none_cur rt alloc) by (apply suf_more; exact Hw'). cbn [app]. destruct (x =? 0); [apply sim_no; discriminate|].
      intros y c E. destruct (RustModel.decode rt (RMap 5 (announced (forget_t t'))) (cur B (x :: w'))) as [v c'| |] eqn:D; try discriminate E.
      destruct (call_more _ _ v c' Hq Hw' D) as (w2 & Hw2 & -> & D2). cbn [app] in D2. rewrite D2. destruct v; try discriminate E. revert y c E.
      eapply sim_bind; [apply sim_entries; [apply (rs_elem S t' (RMapOf GenTables.KString t') FC eq_refl)|exact Hw2]|]. intros l w3 Hw3. apply sim_ok; exact Hw3. }
  intros d w' Hw'. destruct (rs_struct _ _); [apply sim_ok; exact Hw'|apply sim_no; discriminate].
Qed.
End Rec.

(** the test for an error *)
Lemma payload_more u r e : bytes_ok u -> ipay rt InvalidError true u = IF r e ->
  r = [] \/ ((exists p, u = p ++ r) /\ exists e', ipay rt InvalidError true (u ++ q) = IF (r ++ q) e').
Proof.
  intros Hu. unfold ipay, iu32, iint. destruct u as [|k u]; [cbn; intros E; injection E as <- _; left; reflexivity|]. cbn [app].
  destruct (k =? 10).
  2: { cbn [ibind]. intros E. injection E as <- _. right. split; [exists []; reflexivity|]. eexists. reflexivity. }
  destruct (scan 5 u) as [ds w| |] eqn:Es.
  - rewrite (scan_app 5 u ds w q Es). apply scan_shape in Es. cbn [ibind]. set (n := dval ds mod 2 ^ 32). destruct (vec_ok rt n); [|discriminate].
    assert (Hn : 0 <= n) by (apply Z.mod_pos_bound; reflexivity).
    destruct (Z.leb_spec n (zlen w)) as [Ln|Ln].
    + destruct (Z.leb_spec n (zlen (w ++ q))); [|rewrite zlen_app in *; pose proof (zlen_nonneg q); lia].
      rewrite ztake_app1, zdrop_app1 by lia. destruct (negb true || from_utf8 (ztake n w)); [discriminate|].
      intros E. injection E as <- _. right. split; [|eexists; reflexivity].
      exists (k :: ds ++ ztake n w). rewrite Es. cbn. rewrite <- app_assoc, ztake_zdrop. reflexivity.
    + rewrite HE. intros E. injection E as <- _. left. reflexivity.
  - cbn [ibind]. intros E. injection E as <- _. right. split; [eexists; symmetry; apply ztake_zdrop|].
    apply scan_long in Es. destruct Es as (cs & w & -> & Lc & Fc).
    assert (Es' : scan 5 ((cs ++ w) ++ q) = SLong) by (apply scan_long; exists cs, (w ++ q); rewrite app_assoc; auto).
    rewrite Es'. eexists. cbn [ibind]. f_equal. change (k :: (cs ++ w) ++ q) with ((k :: cs ++ w) ++ q). rewrite zdrop_app1; [reflexivity|].
    rewrite zlen_cons, zlen_app. pose proof (zlen_nonneg w). lia.
  - cbn [ibind]. intros E. injection E as <- _. left. reflexivity.
Qed.
Theorem decode_more : forall fuel m t, (m < length S)%nat -> suf t B ->
  sim (rs_decode rt alloc S fuel m (cur B t)) (rs_decode rt alloc S fuel m (cur (B ++ q) (t ++ q))).
Proof.
  induction fuel as [|fuel IH]; intros m t L Ht; [apply sim_no; discriminate|].
  assert (Z0 : forall a c, rs_body rt alloc S (rs_decode rt alloc S fuel) m (cur B []) <> RGOk a c).
  { intros a c E. apply (body_idle rt alloc S B HC (rs_decode rt alloc S fuel)) in E; [|intros; apply decode_idle; assumption|exact L]. exact (HV _ (proj2 E)). }
  destruct t as [|a t].
  { apply sim_no. rewrite rs_decode_body, (none_cur rt alloc) by exact Ht. destruct (error_cur rt B [] Ht (or_introl eq_refl)) as [e ->]. exact Z0. }
  rewrite !rs_decode_body. rewrite (none_cur rt alloc B) by exact Ht. rewrite (none_cur rt alloc (B ++ q)) by (apply suf_more; exact Ht).
  cbn [app]. destruct (Z.eqb_spec a 0) as [->|Na]; [apply sim_ok; eapply suf_cons; exact Ht|].
  destruct t as [|b t].
  { unfold decode_error at 1. rewrite read_u8_cons by exact Ht. cbn [rbind]. rewrite read_u8_nil. apply sim_no. exact Z0. }
  cbn [app]. assert (D : (a = 6 /\ b = 5) \/ ~ (a = 6 /\ b = 5)) by lia. destruct D as [[-> ->]|D].
  - pose proof (decode_ideal rt RError B (6 :: 5 :: t) I (suf_bytes _ Ht) Ht) as E1.
    pose proof (decode_ideal rt RError (B ++ q) (6 :: 5 :: t ++ q) I (suf_bytes_more _ Ht) (suf_more _ Ht)) as E2.
    cbn [RustModel.decode ideal] in E1, E2. cbn [Z.eqb Pos.eqb andb] in E1, E2.
    destruct (ipay rt InvalidError true t) as [r p|r e|] eqn:Ep; cbn [ibind lift] in E1.
    + destruct (decode_error rt (cur B (6 :: 5 :: t))) as [p' c'|e' c'|]; cbn [rmap] in E1; try discriminate E1. apply sim_no; discriminate.
    + destruct (decode_error rt (cur B (6 :: 5 :: t))) as [p' c'|e' c'|]; cbn [rmap] in E1; try discriminate E1. injection E1 as -> ->.
      pose proof (suf_bytes _ Ht) as Hb. apply bytes_ok_cons in Hb. destruct Hb as [_ Hb]. apply bytes_ok_cons in Hb. destruct Hb as [_ Hb].
      destruct (payload_more t r e Hb Ep) as [->|[[p Et] [e' Ep2]]]; [apply sim_no; exact Z0|]. rewrite Ep2 in E2. cbn [ibind lift] in E2.
      destruct (decode_error rt (cur (B ++ q) (6 :: 5 :: t ++ q))) as [p' c'|e2 c'|]; cbn [rmap] in E2; try discriminate E2. injection E2 as -> ->.
      apply sim_body; [exact IH|exact L|].
      rewrite Et in Ht. apply suf_cons, suf_cons, suf_app in Ht. exact Ht.
    + destruct (decode_error rt (cur B (6 :: 5 :: t))) as [p' c'|e' c'|]; cbn [rmap] in E1; try discriminate E1. apply sim_no; discriminate.
  - destruct (error_cur rt B (a :: b :: t) Ht) as [e1 ->]; [right; exists a, b, t; auto|].
    destruct (error_cur rt (B ++ q) (a :: b :: t ++ q) (suf_more _ Ht)) as [e2 ->]; [right; exists a, b, (t ++ q); auto|].
    apply (sim_body _ IH m (a :: b :: t) L Ht).
Qed.
End More.
