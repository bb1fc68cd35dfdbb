(** Input that matches no request: nothing, or an error in place of a message. *)
From Coq Require Import String.
From Verif Require Import Base Spec SpecProofs GoSpec GoIdeal GoProps GoThms GoThms2 GoThms3 BufSpec GenTables GenModel GenSpec GenLemmas GenFields GenDec GenThms GenThms2 GenThms3 GenTerm GenTerm2 GenTerm3 GenTerm4.
From Verif Require V1Model V2Model.

(** [b0]: no call of the generated code succeeds on it (an Error is never asked for) *)
Section Stuck.
Variable v2 : bool.
Variable prim : option bytes -> request -> bytes -> outcome.
Variable S : schema.
Variable b0 : bytes.
Hypothesis HC : compiles S = true.
Hypothesis Hst : forall dst p, p <> RError -> prim dst p b0 = Fail b0 (error_of p).

Lemma dec_call_stuck dst k : dec_call prim dst k b0 = GBroken \/
  exists n p t, go_decodeLUT k = Some n /\ assoc n go_decoder_methods = Some (p, t) /\ dec_call prim dst k b0 = GErr (error_of p).
Proof.
  unfold dec_call. destruct (go_decodeLUT k) as [n|] eqn:En; [|left; reflexivity]. destruct (assoc n go_decoder_methods) as [[p t]|] eqn:Ea; [|left; reflexivity].
  right. exists n, p, t. split; [reflexivity|]. split; [exact Ea|]. unfold call. rewrite Hst; [reflexivity|].
  intros ->. destruct k; try discriminate En; injection En as <-; discriminate Ea.
Qed.
(** no panic, and success only without having consumed anything, and only if [V] *)
Definition sres {A} (V : Prop) (x : gres A) : Prop :=
  match x with GDone r _ => r = b0 /\ V | GPanic => False | _ => True end.
Lemma sres_bind {A B} (V V' : Prop) (x : gres A) (k : bytes -> A -> gres B) :
  sres V x -> (forall a, V -> sres V' (k b0 a)) -> sres V' (gbind x k).
Proof. intros H K. destruct x; cbn in *; auto. destruct H as [-> H]. apply K, H. Qed.
Lemma sres_const {A B} (V : Prop) (n : gres A) (f : A -> gres B) : n <> GPanic -> (forall a, sres V (f a)) -> sres V (gbind n (fun _ a => f a)).
Proof. intros N H. destruct n; cbn; auto. Qed.
Lemma sres_weaken {A} (V V' : Prop) (x : gres A) : (V -> V') -> sres V x -> sres V' x.
Proof. intros I H. destruct x; cbn in *; auto. destruct H. auto. Qed.
Lemma nil_stuck {A} (yes no : bytes -> gres A) : if_nil prim b0 yes no = no b0.
Proof. unfold if_nil. rewrite Hst by discriminate. reflexivity. Qed.
Lemma call_stuck {A} dst p (k : bytes -> value -> gres A) : p <> RError -> call prim dst p b0 k = GErr (error_of p).
Proof. intros H. unfold call. rewrite Hst by exact H. reflexivity. Qed.
Lemma dec_call_sres dst k : sres False (dec_call prim dst k b0).
Proof. destruct (dec_call_stuck dst k) as [->|(n & p & t & _ & _ & ->)]; exact I. Qed.
Lemma New_no_panic v fuel : forall m, New v S fuel m <> GPanic.
Proof.
  induction fuel as [|fuel IH]; intros m; cbn [New]; (destruct (nth_error S m) as [fs|]; [|discriminate]); (destruct v; [discriminate|]); [discriminate|].
  induction fs as [|f fs IHfs]; [discriminate|]. intros E. destruct f as [[k|m']|t|k t].
  2: { destruct (New false S fuel m') eqn:EN; cbn [gbind] in E; try discriminate E; [|exact (IH _ EN)].
       match type of E with gbind ?x _ = _ => destruct x eqn:E2; cbn [gbind] in E; try discriminate E; exact (IHfs eq_refl) end. }
  all: cbn [gbind] in E; match type of E with gbind ?x _ = _ => destruct x eqn:E2; cbn [gbind] in E; try discriminate E; exact (IHfs eq_refl) end.
Qed.
Lemma pass_stuck step fs (V : nat -> Prop) : forall is x, (forall i f old, In i is -> nth_error fs i = Some f -> sres (V i) (step f old b0)) ->
  sres (forall i, In i is -> V i) (pass step fs is x b0).
Proof.
  induction is as [|i is IH]; intros x HS; cbn [pass]; [split; [reflexivity|intros i []]|].
  destruct (nth_error fs i) as [f|] eqn:Ef; [|exact I]. destruct (nth_error x i) as [old|]; [|exact I].
  eapply sres_bind; [apply (HS i f old); [left; reflexivity|exact Ef]|]. intros y Vi.
  eapply sres_weaken; [|apply IH; intros j g o Hj; apply HS; right; exact Hj]. intros H j [<-|Hj]; [exact Vi|apply H, Hj].
Qed.
Theorem decode_stuck : forall fuel m x, (m < length S)%nat -> sres (vacuous false S m) (decode v2 prim S fuel m x b0).
Proof.
  induction fuel as [|fuel IH]; intros m x L; [exact I|]. cbn [decode]. rewrite nil_stuck.
  rewrite (fields_nth S m L). rewrite (getFields_sel S) by (auto using compiles_msg). set (fs := fields_of S m) in *.
  assert (FCs : forall i f, nth_error fs i = Some f -> field_compiles S f = true) by (intros i f; apply compiles_field; exact HC).
  eapply sres_bind; [apply (pass_stuck _ _ (fun _ => False))|].
  { intros i f old Hi Ef. destruct f as [[k|]| |]; try exact I. cbn [dec_other]. eapply sres_bind; [apply dec_call_sres|]. intros _ []. }
  intros x1 V1. eapply sres_bind; [apply (pass_stuck _ _ (fun _ => False))|].
  { intros i f old Hi Ef. destruct f as [|t|], old; try exact I. cbn [dec_slice]. destruct (kind_number (go_GetKind (tkind t))); [|exact I].
    rewrite call_stuck by discriminate. exact I. }
  intros x2 V2. eapply sres_weaken; [|apply (pass_stuck _ _ (fun i => exists m', nth_error fs i = Some (One (Msg m')) /\ vacuous false S m'))].
  - intros V3. constructor; [exact L|]. intros f Hf. right. apply In_nth_error in Hf. destruct Hf as [i Hi]. fold fs in Hi.
    assert (Hio : In i (order fs)) by (apply order_in, nth_error_Some; congruence).
    unfold order in Hio. rewrite !in_app_iff in Hio. destruct Hio as [Hi'|[Hi'|Hi']]; [destruct (V1 _ Hi')|destruct (V2 _ Hi')|].
    destruct (V3 _ Hi') as (m' & E & Vm). rewrite Hi in E. injection E as ->. eauto.
  - intros i f old Hi Ef. destruct f as [[k|m']|t|kk t]; try exact I.
    + assert (L' : (m' < length S)%nat) by (apply Nat.ltb_lt; exact (FCs _ _ Ef)).
      assert (R : forall n : gres (list gval), n <> GPanic -> sres (vacuous false S m') (gbind n (fun _ s => gbind (decode v2 prim S fuel m' s b0) (fun r s => GDone r (GMsg (Some s)))))).
      { intros n N. apply sres_const; [exact N|]. intros s. eapply sres_bind; [apply IH, L'|]. intros a V. split; [reflexivity|exact V]. }
      eapply sres_weaken; [intros V; exists m'; split; [exact Ef|exact V]|]. destruct (bool_cases v2) as [Ev|Ev].
      * rewrite dm_v2 by exact Ev. rewrite nil_stuck. apply R, New_no_panic.
      * rewrite dm_v1 by exact Ev. apply R. unfold or_new. destruct old as [| | |[|]]; try discriminate. apply New_no_panic.
    + cbn [dec_message]. rewrite nil_stuck. destruct (kind_number (go_GetKind kk)); [|exact I]. destruct (kind_number (go_GetKind (tkind t))); [|exact I].
      rewrite call_stuck by discriminate. exact I.
Qed.
(** the error: that of the first scalar field *)
Theorem decode_stuck_scalar fuel m x k post pre : (m < length S)%nat -> fields_of S m = pre ++ One (Scalar k) :: post -> existsb is_scalar pre = false ->
  length x = length (fields_of S m) ->
  exists p, scalar_type k = Some p /\ decode v2 prim S (Datatypes.S fuel) m x b0 = GErr (error_of p).
Proof.
  intros L Ef Hp Hx. cbn [decode]. rewrite nil_stuck, (fields_nth S m L). rewrite (getFields_sel S) by (auto using compiles_msg).
  assert (Es : sel p_val (fields_of S m) 0 = length pre :: sel p_val post (Datatypes.S (length pre))).
  { rewrite Ef. clear - Hp. assert (G : forall i, sel p_val (pre ++ One (Scalar k) :: post) i = (i + length pre)%nat :: sel p_val post (Datatypes.S (i + length pre))).
    { induction pre as [|f pre IH]; intros i; cbn [app sel length].
      - rewrite Nat.add_0_r. reflexivity.
      - cbn in Hp. apply orb_false_elim in Hp. destruct Hp as [Hf Hp]. replace (p_val f) with false by (destruct f as [[]| |]; try reflexivity; discriminate Hf).
        rewrite (IH Hp). replace (Datatypes.S i + length pre)%nat with (i + Datatypes.S (length pre))%nat by lia. reflexivity. }
    rewrite G. reflexivity. }
  rewrite Es. cbn [pass]. assert (En : nth_error (fields_of S m) (length pre) = Some (One (Scalar k))) by (rewrite Ef, nth_error_app2, Nat.sub_diag by lia; reflexivity).
  rewrite En. destruct (nth_error x (length pre)) as [old|] eqn:Eo.
  2: { apply nth_error_None in Eo. assert (length pre < length (fields_of S m))%nat by (apply nth_error_Some; congruence). lia. }
  cbn [dec_other]. pose proof (compiles_field S m (length pre) _ HC En) as FC. cbn [field_compiles] in FC.
  destruct (call_facts _ _ _ FC) as (p & en & dn & tk & T & _ & D & _ & M). exists p. split; [exact T|].
  unfold dec_call. rewrite D, M. rewrite call_stuck; [reflexivity|]. intros ->. destruct k; discriminate T.
Qed.
End Stuck.

(** Decoding an error. *)
Lemma header_first p : p <> RError -> forall t r, [] <> header p ++ t /\ 6 :: r <> header p ++ t.
Proof. intros H t r. destruct p; cbn; split; try discriminate; congruence. Qed.
Lemma stuck1 W b dst p : b = [] \/ (exists r, b = 6 :: r) -> okb W b -> p <> RError -> prim1 W dst p b = Fail b (error_of p).
Proof.
  intros Hb [B1 B2] Hp. apply dec1_kind; try assumption. intros t. destruct Hb as [->|(r & ->)]; apply (header_first p Hp t); exact [].
Qed.
Lemma stuck2 W b dst p : b = [] \/ (exists r, b = 6 :: r) -> okb W b -> p <> RError -> prim2 W dst p b = Fail b (error_of p).
Proof.
  intros Hb [B1 B2] Hp. apply dec2_kind; try assumption. intros t. destruct Hb as [->|(r & ->)]; apply (header_first p Hp t); exact [].
Qed.
