(** Errors in place of messages; appended and missing input: both versions. *)
From Coq Require Import String.
From Verif Require Import Base Spec SpecProofs GoSpec GoIdeal GoProps GoThms GoThms2 GoThms3 BufSpec GenTables GenModel GenSpec GenLemmas GenFields GenDec GenThms GenThms2 GenThms3 GenTerm GenTerm2 GenTerm3 GenTerm4 GenExt GenStuck.
From Verif Require V1Model V2Model.

(** ** Errors *)
Lemma error1 g b p : V1Model.wf b -> payload_ok p ->
  exists b', Error1 g b p = Ok b' /\ V1Model.wf b' /\ V1Model.Bytes b' = V1Model.Bytes b ++ wire (VError p).
Proof.
  intros Hb Hp. destruct (enc1 g b [VError p] Hb) as (b' & E & Hb' & B & _); [repeat constructor; apply Hp|].
  exists b'. split; [exact E|]. split; [exact Hb'|]. rewrite B. unfold wires. cbn [map concat]. rewrite app_nil_r. reflexivity.
Qed.
Lemma error2 g b p : V2Model.wf b -> payload_ok p ->
  exists b' l, V2Model.Bytes b = Ok l /\ Error2 g b p = Ok b' /\ V2Model.wf b' /\ V2Model.Bytes b' = Ok (l ++ wire (VError p)).
Proof.
  intros Hb Hp. destruct (enc2 g b [VError p] Hb) as (b' & l & L & E & Hb' & B & _); [repeat constructor; apply Hp| |].
  { intros q [H|[]]. discriminate H. }
  exists b', l. split; [exact L|]. split; [exact E|]. split; [exact Hb'|]. rewrite B. unfold wires. cbn [map concat]. rewrite app_nil_r. reflexivity.
Qed.
Definition verdict (S : schema) (m : nat) (b : bytes) (y : gres (list gval)) : Prop :=
  y = GDeep \/ (exists e, y = GErr e) \/ (vacuous false S m /\ exists z, y = GDone b z).
Lemma stuck_input W S fuel m x b : compiles S = true -> (m < length S)%nat -> struct_type S x m ->
  bytes_ok b -> int_ok W b -> b = [] \/ (exists r, b = 6 :: r) ->
  (exists y, Decode1 W S fuel m (Some x) b = Some y /\ verdict S m b y) /\ (exists y, Decode2 W S fuel m (Some x) b = Some y /\ verdict S m b y).
Proof.
  intros HC L Hx Hb Hi Hs. assert (Ok : okb W b) by (split; assumption).
  destruct (typed_result W S fuel m x b HC L Hx Hb Hi) as [(y1 & E1 & T1) (y2 & E2 & T2)].
  assert (G : forall y, sres b (vacuous false S m) y -> (y = GDeep \/ returns S m b y) -> verdict S m b y).
  { intros y Sy [->|T]; [left; reflexivity|]. destruct y as [r z|e| | |]; cbn in *; try contradiction.
    - right. right. destruct Sy as [-> V]. eauto.
    - right. left. eauto. }
  split; [exists y1|exists y2]; (split; [assumption|]); apply G; try assumption.
  - injection E1 as <-. apply (decode_stuck false (prim1 W) S b HC); [|exact L]. intros. apply stuck1; assumption.
  - injection E2 as <-. apply (decode_stuck true (prim2 W) S b HC); [|exact L]. intros. apply stuck2; assumption.
Qed.
Lemma stuck_scalar W S fuel m x b k pre post : compiles S = true -> (m < length S)%nat -> struct_type S x m ->
  bytes_ok b -> int_ok W b -> b = [] \/ (exists r, b = 6 :: r) ->
  fields_of S m = pre ++ One (Scalar k) :: post -> existsb is_scalar pre = false ->
  exists p, scalar_type k = Some p /\ Decode1 W S (Datatypes.S fuel) m (Some x) b = Some (GErr (error_of p)) /\
    Decode2 W S (Datatypes.S fuel) m (Some x) b = Some (GErr (error_of p)).
Proof.
  intros HC L Hx Hb Hi Hs Ef Hp. assert (Ok : okb W b) by (split; assumption).
  assert (Hl : length x = length (fields_of S m)) by (apply ht_msg in Hx; destruct Hx as [_ Hx]; eapply Forall2_length; exact Hx).
  destruct (decode_stuck_scalar false (prim1 W) S b HC (fun d p => stuck1 W b d p Hs Ok) fuel m x k post pre L Ef Hp Hl) as (p & Tp & E1).
  destruct (decode_stuck_scalar true (prim2 W) S b HC (fun d p => stuck2 W b d p Hs Ok) fuel m x k post pre L Ef Hp Hl) as (p' & Tp' & E2).
  exists p. split; [exact Tp|]. rewrite Tp in Tp'. injection Tp' as <-. split.
  - unfold Decode1. cbn [option_map]. f_equal. exact E1.
  - unfold Decode2. cbn [option_map]. f_equal. exact E2.
Qed.
Lemma error_first p r : wire (VError p) ++ r = [] \/ exists t, wire (VError p) ++ r = 6 :: t.
Proof. right. cbn [wire app]. eauto. Qed.

(** ** Appending *)
Lemma header_nonempty p t : [] <> header p ++ t.
Proof. destruct p; discriminate. Qed.
Lemma okb_nil W b : okb W b -> okb W [].
Proof. intros H. eapply okb_sfx; [exact H|]. exists b. rewrite app_nil_r. reflexivity. Qed.
Section Inst.
Variables (W : Z) (S : schema) (q : bytes).
Hypothesis HW : W = 64 \/ W = 32.
Hypothesis HC : compiles S = true.
Hypothesis HV : forall m, ~ vacuous false S m.
Lemma empty_ok : okb W [].
Proof. split; [constructor|]. split; [exact HW|]. cbn. destruct HW as [->| ->]; lia. Qed.
Lemma ext_done1 dst p b r v : (false = false -> dst = None) -> okb W (b ++ q) -> prim1 W dst p b = Done r v ->
  prim1 W dst p (b ++ q) = Done (r ++ q) v /\ okb W (r ++ q).
Proof.
  intros Hd Hb E. rewrite (Hd eq_refl) in *. pose proof (dec1_app W p b q r v (proj1 Hb) (proj2 Hb) E) as E'. split; [exact E'|].
  destruct (hdone1 W None p (b ++ q) _ _ (fun _ => eq_refl) Hb E') as (_ & _ & Sf & _). eapply okb_sfx; eassumption.
Qed.
Lemma ext_done2 dst p b r v : (true = false -> dst = None) -> okb W (b ++ q) -> prim2 W dst p b = Done r v ->
  prim2 W dst p (b ++ q) = Done (r ++ q) v /\ okb W (r ++ q).
Proof.
  intros Hd Hb E. pose proof (dec2_app W _ p b q r v (proj1 Hb) (proj2 Hb) E) as E'. split; [exact E'|].
  destruct (hdone2 W dst p (b ++ q) _ _ Hd Hb E') as (_ & _ & Sf & _). eapply okb_sfx; eassumption.
Qed.
Lemma none1 dst p r v : prim1 W dst p [] <> Done r v.
Proof. unfold prim1. rewrite dec1_kind; [discriminate|apply empty_ok|apply empty_ok|apply header_nonempty]. Qed.
Lemma none2 dst p r v : prim2 W dst p [] <> Done r v.
Proof. unfold prim2. rewrite dec2_kind; [discriminate|apply empty_ok|apply empty_ok|apply header_nonempty]. Qed.
Lemma nilq1 b r e : prim1 W None RNil b = Fail r e -> r = b /\ (b <> [] -> exists r e, prim1 W None RNil (b ++ q) = Fail r e).
Proof.
  intros E. split; [eapply prim1_fail; exact E|]. intros Hb. destruct b as [|c b]; [contradiction|]. do 2 eexists. apply nil1. intros t Ht. injection Ht as -> _.
  unfold prim1 in E. rewrite nil1_yes in E. discriminate E.
Qed.
Lemma nilq2 b r e : prim2 W None RNil b = Fail r e -> r = b /\ (b <> [] -> exists r e, prim2 W None RNil (b ++ q) = Fail r e).
Proof.
  intros E. split; [eapply prim2_fail; exact E|]. intros Hb. destruct b as [|c b]; [contradiction|]. do 2 eexists. apply nil2. intros t Ht. injection Ht as -> _.
  unfold prim2 in E. rewrite nil2_yes in E. discriminate E.
Qed.
Lemma nile1 : exists e, prim1 W None RNil [] = Fail [] e.
Proof. eexists. apply nil1. discriminate. Qed.
Lemma nile2 : exists e, prim2 W None RNil [] = Fail [] e.
Proof. eexists. apply nil2. discriminate. Qed.
Lemma append1 fuel m x b r y : (m < length S)%nat -> bytes_ok (b ++ q) -> int_ok W (b ++ q) ->
  Decode1 W S fuel m (Some x) b = Some (GDone r y) -> Decode1 W S fuel m (Some x) (b ++ q) = Some (GDone (r ++ q) y).
Proof.
  intros L Hb Hi E. injection E as E. unfold Decode1. cbn [option_map]. f_equal.
  apply (decode_ext false (prim1 W) S W q HC ext_done1 none1 nilq1 nile1 (prim1_fail W) HV fuel m x L b r y); [split; assumption|exact E].
Qed.
Lemma append2 fuel m x b r y : (m < length S)%nat -> bytes_ok (b ++ q) -> int_ok W (b ++ q) ->
  Decode2 W S fuel m (Some x) b = Some (GDone r y) -> Decode2 W S fuel m (Some x) (b ++ q) = Some (GDone (r ++ q) y).
Proof.
  intros L Hb Hi E. injection E as E. unfold Decode2. cbn [option_map]. f_equal.
  apply (decode_ext true (prim2 W) S W q HC ext_done2 none2 nilq2 nile2 (prim2_fail W) HV fuel m x L b r y); [split; assumption|exact E].
Qed.
End Inst.

(** ** Truncation *)
Lemma layout_ok S m xs : compiles S = true -> struct_type S xs m -> bytes_ok (layout S (GMsg (Some xs)) (One (Msg m))).
Proof.
  intros HC HT. destruct (sent_calls S m xs HC (ht_st _ _ _ HT)) as (vs & E & V & Ly). rewrite <- Ly. apply wires_ok. exact V.
Qed.
Lemma truncated2 W S m xs x p q fuel : compiles S = true -> (forall k, ~ vacuous false S k) ->
  struct_type S xs m -> readable S (GMsg (Some xs)) (One (Msg m)) -> struct_type S x m ->
  layout S (GMsg (Some xs)) (One (Msg m)) = p ++ q -> q <> [] -> int_ok W (p ++ q) ->
  forall r y, Decode2 W S fuel m (Some x) p <> Some (GDone r y).
Proof.
  intros HC HV HT HR Hx El Hq Hi r y E. assert (L : (m < length S)%nat) by (apply ht_msg in HT; apply HT).
  pose proof (layout_ok S m xs HC HT) as Hb. rewrite El in Hb. set (f := Nat.max fuel (depth (GMsg (Some xs)))).
  destruct (decode2_exact W S m xs x [] f HC HT HR Hx (Forall_nil _)) as (y' & E' & _); [rewrite app_nil_r, El; exact Hi|unfold f; lia|].
  rewrite app_nil_r, El in E'. apply append2 with (q := q) in E; try assumption; [|apply Hi].
  destruct (stack_monotone W S fuel f m (Some x) (p ++ q) ltac:(unfold f; lia)) as [_ M]. rewrite E in M. rewrite E' in M.
  specialize (M ltac:(discriminate)). injection M as M _. symmetry in M. apply app_eq_nil in M. tauto.
Qed.
Lemma truncated1 W S K m xs x p q fuel : compiles S = true -> new_ok S K -> (forall k, ~ vacuous false S k) ->
  struct_type S xs m -> readable S (GMsg (Some xs)) (One (Msg m)) -> struct_type S x m ->
  layout S (GMsg (Some xs)) (One (Msg m)) = p ++ q -> q <> [] -> int_ok W (p ++ q) ->
  forall r y, Decode1 W S fuel m (Some x) p <> Some (GDone r y).
Proof.
  intros HC HN HV HT HR Hx El Hq Hi r y E. assert (L : (m < length S)%nat) by (apply ht_msg in HT; apply HT).
  pose proof (layout_ok S m xs HC HT) as Hb. rewrite El in Hb. set (f := Nat.max fuel (depth (GMsg (Some xs)) + K)).
  destruct (decode1_exact W S K m xs x [] f HC HN HT HR Hx (Forall_nil _)) as (y' & E' & _); [rewrite app_nil_r, El; exact Hi|unfold f; lia|].
  rewrite app_nil_r, El in E'. apply append1 with (q := q) in E; try assumption; [|apply Hi].
  destruct (stack_monotone W S fuel f m (Some x) (p ++ q) ltac:(unfold f; lia)) as [M _]. rewrite E in M. rewrite E' in M.
  specialize (M ltac:(discriminate)). injection M as M _. symmetry in M. apply app_eq_nil in M. tauto.
Qed.
