(** Termination of generated decoders: the two versions, and the converse. *)
From Coq Require Import String.
From Verif Require Import Base Spec SpecProofs GoSpec GoIdeal GoProps GoThms GoThms2 GoThms3 BufSpec GenTables GenModel GenSpec GenLemmas GenFields GenDec GenThms GenThms2 GenThms3 GenTerm GenTerm2 GenTerm3.
From Verif Require V1Model V2Model.

Lemma accepts_req v2 q b r v : bytes_ok b -> accepts v2 q b r v -> req_ok q.
Proof.
  intros Hb H. destruct H; try exact I.
  - destruct q; try exact I; cbn in H0; discriminate H0.
  - inversion Hb as [|? ? _ Hb1]; subst. inversion Hb1 as [|? ? H1 Hb2]; subst. inversion Hb2; subst. split; assumption.
  - inversion Hb as [|? ? _ Hb1]; subst. inversion Hb1 as [|? ? H1 Hb2]; subst. exact H1.
Qed.
Lemma in_range1 W q b r v : bytes_ok b -> int_ok W b -> V1Model.decode W None q b = Done r v -> valid v /\ want v = q.
Proof.
  intros Hb Hi E. eapply dec1_valid; try eassumption. apply dec1_done in E; try assumption. eapply accepts_req; eassumption.
Qed.
Lemma in_range2 W ret q b r v : bytes_ok b -> int_ok W b -> V2Model.decode W ret q b = Done r v -> valid v /\ want v = q.
Proof.
  intros Hb Hi E. eapply dec2_valid; try eassumption. apply dec2_done in E; try assumption. eapply accepts_req; eassumption.
Qed.
Lemma prim2_done W dst q b r v : okb W b -> prim2 W dst q b = Done r v ->
  valid v /\ want v = q /\ sfx b r /\ (r = b -> q = RBytes).
Proof.
  intros [Hb Hi] E. unfold prim2 in E. pose proof E as E'. apply in_range2 in E; try assumption.
  destruct E as [E1 E2]. split; [exact E1|]. split; [exact E2|]. split.
  - destruct (dec2_suffix W (V1Model.oget dst) q b r Hb Hi) as [c Ec]; [rewrite E'; reflexivity|exists c; exact Ec].
  - intros ->. destruct (progress_v2 _ _ _ _ _ _ Hb Hi E') as (P & _). apply P. reflexivity.
Qed.
Lemma prim1_done W q b r v : okb W b -> prim1 W None q b = Done r v ->
  valid v /\ want v = q /\ sfx b r /\ r <> b.
Proof.
  intros [Hb Hi] E. unfold prim1 in E. pose proof E as E'. apply in_range1 in E; try assumption.
  destruct E as [E1 E2]. split; [exact E1|]. split; [exact E2|]. split.
  - destruct (dec1_suffix W q b r Hb Hi) as [c Ec]; [rewrite E'; reflexivity|exists c; exact Ec].
  - intros ->. pose proof (dec1_progress _ _ _ _ _ Hb Hi E'). lia.
Qed.
Lemma prim2_fail W b r e : prim2 W None RNil b = Fail r e -> r = b.
Proof.
  unfold prim2. intros H. destruct b as [|c b]; [injection H; auto|]. destruct (Z.eq_dec c 0) as [->|N].
  - rewrite nil2_yes in H. discriminate.
  - rewrite nil2 in H by congruence. injection H; auto.
Qed.
Lemma prim1_fail W b r e : prim1 W None RNil b = Fail r e -> r = b.
Proof.
  unfold prim1. intros H. destruct b as [|c b]; [injection H; auto|]. destruct (Z.eq_dec c 0) as [->|N].
  - rewrite nil1_yes in H. discriminate.
  - rewrite nil1 in H by congruence. injection H; auto.
Qed.
Lemma hdone2 W dst q b r v : (true = false -> dst = None) -> okb W b -> prim2 W dst q b = Done r v ->
  valid v /\ want v = q /\ sfx b r /\ (r = b -> true = true /\ q = RBytes).
Proof. intros _ Hb E. destruct (prim2_done _ _ _ _ _ _ Hb E) as (A & B & C & D). repeat (split; [assumption|]). intros Er. split; [reflexivity|apply D; exact Er]. Qed.
Lemma hdone1 W dst q b r v : (false = false -> dst = None) -> okb W b -> prim1 W dst q b = Done r v ->
  valid v /\ want v = q /\ sfx b r /\ (r = b -> false = true /\ q = RBytes).
Proof.
  intros Hd Hb E. rewrite (Hd eq_refl) in E. destruct (prim1_done _ _ _ _ _ Hb E) as (A & B & C & D).
  repeat (split; [assumption|]). intros; contradiction.
Qed.

Theorem terminates2 W S : compiles S = true -> (forall m, (m < length S)%nat -> well_founded_at true S m) ->
  exists R, forall m x b fuel, (m < length S)%nat -> struct_type S x m -> bytes_ok b -> int_ok W b ->
    ((length b + 1) * R <= fuel)%nat ->
    exists y, Decode2 W S fuel m (Some x) b = Some y /\ returns S m b y.
Proof.
  intros HC HWF. destruct (all_tall true S HWF) as (R & HR). exists R. intros m x b fuel L Hx Hb Hi HF.
  eexists. split; [reflexivity|].
  assert (Hok : okb W b) by (split; assumption).
  pose proof (decode_fine true (prim2 W) S W HC (hdone2 W) (prim2_fail W) fuel m x b L Hx Hok) as F.
  assert (N : decode true (prim2 W) S fuel m x b <> GDeep).
  { apply (decode_nd true (prim2 W) S W R 0 HC (hdone2 W) (prim2_fail W) HR) with (h := R); auto; [|lia].
    intros k f Lk _. rewrite New_v2 by exact Lk. discriminate. }
  change (fun dst => V2Model.decode W (V1Model.oget dst)) with (prim2 W).
  destruct (decode true (prim2 W) S fuel m x b); cbn in *; auto. destruct F as (F1 & F2 & _). auto.
Qed.
Theorem terminates1 W S : compiles S = true -> (forall m, (m < length S)%nat -> Acc (fun b a => creates S a b) m) ->
  exists R K, forall m x b fuel, (m < length S)%nat -> struct_type S x m -> bytes_ok b -> int_ok W b ->
    ((length b + 1) * R + K <= fuel)%nat ->
    exists y, Decode1 W S fuel m (Some x) b = Some y /\ returns S m b y.
Proof.
  intros HC HWF. destruct (all_tall false S) as (R & HR).
  { intros m L. specialize (HWF m L). clear L. induction HWF as [m _ IH]. constructor. intros b Hb. apply IH. eapply left_in. exact Hb. }
  destruct (new_ok_exists S HC HWF) as (K & HK).
  exists R, K. intros m x b fuel L Hx Hb Hi HF.
  eexists. split; [reflexivity|].
  assert (Hok : okb W b) by (split; assumption).
  pose proof (decode_fine false (prim1 W) S W HC (hdone1 W) (prim1_fail W) fuel m x b L Hx Hok) as F.
  assert (N : decode false (prim1 W) S fuel m x b <> GDeep).
  { apply (decode_nd false (prim1 W) S W R K HC (hdone1 W) (prim1_fail W) HR) with (h := R); auto; [|lia].
    intros k f Lk Hf. destruct (HK k Lk) as (q & s & E). destruct (New_v1_ok S HC _ _ _ _ E) as [_ HM]. rewrite (HM f Hf). discriminate. }
  change (V1Model.decode W) with (prim1 W).
  destruct (decode false (prim1 W) S fuel m x b); cbn in *; auto. destruct F as (F1 & F2 & _). auto.
Qed.
(** Without the condition, results are still typed and a longer stack never changes a result. *)
Theorem typed_result W S fuel m x b : compiles S = true -> (m < length S)%nat -> struct_type S x m -> bytes_ok b -> int_ok W b ->
  (exists y, Decode1 W S fuel m (Some x) b = Some y /\ (y = GDeep \/ returns S m b y)) /\
  (exists y, Decode2 W S fuel m (Some x) b = Some y /\ (y = GDeep \/ returns S m b y)).
Proof.
  intros HC L Hx Hb Hi. assert (Hok : okb W b) by (split; assumption). split; (eexists; split; [reflexivity|]).
  - pose proof (decode_fine false (prim1 W) S W HC (hdone1 W) (prim1_fail W) fuel m x b L Hx Hok) as F.
    change (V1Model.decode W) with (prim1 W).
    destruct (decode false (prim1 W) S fuel m x b); cbn in *; auto. destruct F as (F1 & F2 & _). auto.
  - pose proof (decode_fine true (prim2 W) S W HC (hdone2 W) (prim2_fail W) fuel m x b L Hx Hok) as F.
    change (fun dst => V2Model.decode W (V1Model.oget dst)) with (prim2 W).
    destruct (decode true (prim2 W) S fuel m x b); cbn in *; auto. destruct F as (F1 & F2 & _). auto.
Qed.
Theorem stack_monotone W S fuel fuel' m x b : (fuel <= fuel')%nat ->
  (Decode1 W S fuel m x b <> Some GDeep -> Decode1 W S fuel' m x b = Decode1 W S fuel m x b) /\
  (Decode2 W S fuel m x b <> Some GDeep -> Decode2 W S fuel' m x b = Decode2 W S fuel m x b).
Proof.
  intros H. unfold Decode1, Decode2. destruct x as [x|]; [|auto]. cbn [option_map]. split; intros N.
  - destruct (decode_mono false (V1Model.decode W) S fuel fuel' m x b H) as [E|E]; [congruence|]. rewrite E. reflexivity.
  - destruct (decode_mono true (fun dst => V2Model.decode W (V1Model.oget dst)) S fuel fuel' m x b H) as [E|E]; [congruence|]. rewrite E. reflexivity.
Qed.

(** ** The converse *)
Lemma sel_app p a b k : sel p (a ++ b) k = sel p a k ++ sel p b (k + length a).
Proof.
  revert k. induction a as [|f a IH]; intros k; cbn [sel app length]; [rewrite Nat.add_0_r; reflexivity|].
  rewrite IH. replace (Datatypes.S k + length a)%nat with (k + Datatypes.S (length a))%nat by lia.
  destruct (p f); reflexivity.
Qed.
Lemma pass_app step fs a b x bs : pass step fs (a ++ b) x bs = gbind (pass step fs a x bs) (fun r y => pass step fs b y r).
Proof.
  revert x bs. induction a as [|i a IH]; intros x bs; cbn [pass app gbind]; [reflexivity|].
  destruct (nth_error fs i); [|reflexivity]. destruct (nth_error x i); [|reflexivity].
  rewrite gbind_gbind. destruct (step f g bs); cbn [gbind]; auto.
Qed.

Section Bad.
Variable W : Z.
Variable S : schema.
Variable bad : bytes.
Hypothesis HC : compiles S = true.
Hypothesis Hbad : overlong bad.
Hypothesis Hok : okb W bad.
Notation dec := (decode true (prim2 W) S).

Lemma bad_nil {A} (yes no : bytes -> gres A) : if_nil (prim2 W) bad yes no = no bad.
Proof.
  unfold if_nil, prim2. rewrite nil2; [reflexivity|]. destruct Hbad as (cs & r & -> & _). congruence.
Qed.
Lemma bad_bytes old : has_type S old (One (Scalar KBytes)) ->
  dec_other true (prim2 W) (One (Scalar KBytes)) old bad = GDone bad (GPrim (VBytes [])).
Proof.
  intros _. cbn [dec_other]. unfold dec_call. cbn [go_decodeLUT assoc go_decoder_methods String.eqb Ascii.eqb Bool.eqb].
  unfold call, prim2. destruct Hok as [Hb Hi]. rewrite dec2_overlong by assumption. reflexivity.
Qed.
Definition stuck (f : field) (x : gres gval) : Prop := x = GDeep \/ exists y, x = GDone bad y /\ has_type S y f.
Lemma pass_bad step fs : forall is x, Forall2 (has_type S) x fs ->
  (forall i, In i is -> exists f, nth_error fs i = Some f /\ forall old, has_type S old f -> stuck f (step f old bad)) ->
  pass step fs is x bad = GDeep \/ exists y, pass step fs is x bad = GDone bad y /\ Forall2 (has_type S) y fs.
Proof.
  induction is as [|i is IH]; intros x Hx H; cbn [pass]; [right; eauto|].
  destruct (H i (or_introl eq_refl)) as (f & Ef & Hf). rewrite Ef.
  destruct (nth_error x i) as [old|] eqn:Eo.
  2: { apply nth_error_None in Eo. rewrite (Forall2_length _ _ _ Hx) in Eo. apply nth_error_None in Eo. congruence. }
  destruct (Hf old (Forall2_nth _ _ _ _ _ _ Hx Eo Ef)) as [-> |(y & -> & Hy)]; [left; reflexivity|]. cbn [gbind].
  apply IH; [eapply Forall2_set; eassumption|]. intros j Hj. apply H. right; exact Hj.
Qed.
Lemma vac_bad : forall fuel m x, vacuous true S m -> struct_type S x m ->
  dec fuel m x bad = GDeep \/ exists y, dec fuel m x bad = GDone bad y /\ struct_type S y m.
Proof.
  induction fuel as [|fuel IH]; intros m x V Hx; [left; reflexivity|]. destruct V as [m L V]. cbn [decode].
  rewrite bad_nil, (fields_nth S m L), (getFields_sel S) by (auto using compiles_msg).
  apply ht_msg in Hx. destruct Hx as [_ Hx].
  destruct (pass_bad (dec_other true (prim2 W)) (fields_of S m) (sel p_val (fields_of S m) 0) x Hx) as [-> |(x1 & -> & H1)].
  { intros i Hi. destruct (sel_field _ _ _ Hi) as (f & Ef & Pf). exists f. split; [exact Ef|]. intros old Ho.
    destruct (V f (nth_error_In _ _ Ef)) as [(_ & ->)|(q & -> & _)]; [|discriminate Pf].
    right. exists (GPrim (VBytes [])). split; [apply bad_bytes; exact Ho|]. cbn. repeat split; cbn; auto; try lia; constructor. }
  { left; reflexivity. }
  cbn [gbind]. assert (sel p_slice (fields_of S m) 0 = []) as ->.
  { apply sel_none. intros f Hf. destruct (V f Hf) as [(_ & ->)|(q & -> & _)]; reflexivity. }
  cbn [pass gbind].
  destruct (pass_bad (dec_message true (prim2 W) S fuel (dec fuel)) (fields_of S m) (sel p_msg (fields_of S m) 0) x1 H1) as [-> |(x2 & -> & H2)].
  { intros i Hi. destruct (sel_field _ _ _ Hi) as (f & Ef & Pf). exists f. split; [exact Ef|]. intros old Ho.
    destruct (V f (nth_error_In _ _ Ef)) as [(_ & ->)|(q & -> & Vq)]; [discriminate Pf|].
    assert (Lq : (q < length S)%nat) by (destruct Vq; assumption).
    cbn [dec_message]. rewrite bad_nil, New_v2 by exact Lq. cbn [gbind].
    destruct (IH q (zero_struct S q) Vq (zero_struct_type S q HC Lq)) as [-> |(y & -> & Hy)]; [left; reflexivity|].
    right. exists (GMsg (Some y)). split; [reflexivity|exact Hy]. }
  { left; reflexivity. }
  right. exists x2. split; [reflexivity|]. apply ht_msg. auto.
Qed.
Lemma edge_bad fuel m x q : (m < length S)%nat -> struct_type S x m -> left_edge true S m q ->
  dec (Datatypes.S fuel) m x bad <> GDeep -> dec fuel q (zero_struct S q) bad <> GDeep.
Proof.
  intros L Hx (HA & pre & post & E & HP) N C. apply N. clear N. cbn [decode].
  rewrite bad_nil, (fields_nth S m L), (getFields_sel S) by (auto using compiles_msg).
  assert (Lq : (q < length S)%nat).
  { pose proof (compiles_msg S m HC L) as FC. rewrite forallb_forall in FC. apply Nat.ltb_lt. apply (FC (One (Msg q))).
    rewrite E. apply in_app_iff. right; left; reflexivity. }
  apply ht_msg in Hx. destruct Hx as [_ Hx].
  destruct (pass_bad (dec_other true (prim2 W)) (fields_of S m) (sel p_val (fields_of S m) 0) x Hx) as [-> |(x1 & -> & H1)].
  { intros i Hi. destruct (sel_field _ _ _ Hi) as (f & Ef & Pf). exists f. split; [exact Ef|]. intros old Ho.
    destruct (HA f (nth_error_In _ _ Ef)) as [_ HB].
    destruct f as [[k|]| |]; try discriminate Pf. destruct (HB eq_refl) as [_ HE]. rewrite HE in *.
    right. exists (GPrim (VBytes [])). split; [apply bad_bytes; exact Ho|]. cbn. repeat split; cbn; auto; try lia; constructor. }
  { reflexivity. }
  cbn [gbind]. assert (sel p_slice (fields_of S m) 0 = []) as ->.
  { apply sel_none. intros f Hf. destruct (HA f Hf) as [HB _]. destruct f; try discriminate HB; reflexivity. }
  cbn [pass gbind].
  assert (ES : sel p_msg (fields_of S m) 0 = sel p_msg pre 0 ++ length pre :: sel p_msg post (Datatypes.S (length pre))).
  { rewrite E, sel_app. cbn [sel p_msg Nat.add]. reflexivity. }
  rewrite ES, pass_app.
  destruct (pass_bad (dec_message true (prim2 W) S fuel (dec fuel)) (fields_of S m) (sel p_msg pre 0) x1 H1) as [-> |(x2 & -> & H2)].
  { intros i Hi. destruct (sel_field _ _ _ Hi) as (f & Ef & Pf). exists f. split.
    - rewrite E, nth_error_app1; [exact Ef|]. apply nth_error_Some. congruence.
    - intros old Ho. destruct (HP f (nth_error_In _ _ Ef)) as (q' & -> & Vq).
      { destruct f as [[|]| |]; try discriminate Pf; reflexivity. }
      assert (Lq' : (q' < length S)%nat) by (destruct Vq; assumption).
      cbn [dec_message]. rewrite bad_nil, New_v2 by exact Lq'. cbn [gbind].
      destruct (vac_bad fuel q' (zero_struct S q') Vq (zero_struct_type S q' HC Lq')) as [-> |(y & -> & Hy)]; [left; reflexivity|].
      right. exists (GMsg (Some y)). split; [reflexivity|exact Hy]. }
  { reflexivity. }
  cbn [gbind pass]. assert (EN : nth_error (fields_of S m) (length pre) = Some (One (Msg q))).
  { rewrite E, nth_error_app2, Nat.sub_diag by lia. reflexivity. }
  rewrite EN. destruct (nth_error x2 (length pre)) as [old|] eqn:Eo.
  2: { apply nth_error_None in Eo. rewrite (Forall2_length _ _ _ H2) in Eo. apply nth_error_None in Eo. congruence. }
  cbn [dec_message]. rewrite bad_nil, New_v2 by exact Lq. cbn [gbind]. rewrite C. reflexivity.
Qed.
Theorem bad_wf : forall fuel m x, (m < length S)%nat -> struct_type S x m ->
  Decode2 W S fuel m (Some x) bad <> Some GDeep -> well_founded_at true S m.
Proof.
  unfold Decode2. cbn [option_map]. change (fun dst => V2Model.decode W (V1Model.oget dst)) with (prim2 W).
  intros fuel m x L Hx N. assert (N' : dec fuel m x bad <> GDeep) by congruence. clear N. revert m x L Hx N'.
  induction fuel as [|fuel IH]; intros m x L Hx N; [exfalso; apply N; reflexivity|]. constructor. intros q Hq.
  assert (Lq : (q < length S)%nat).
  { pose proof (compiles_msg S m HC L) as FC. rewrite forallb_forall in FC. apply Nat.ltb_lt. apply (FC (One (Msg q))).
    eapply left_in. exact Hq. }
  apply (IH q (zero_struct S q) Lq); [apply zero_struct_type; assumption|]. exact (edge_bad fuel m x q L Hx Hq N).
Qed.
End Bad.
Lemma bad_overlong : overlong bad_input.
Proof. exists [128; 128; 128; 128; 128], []. repeat split. repeat constructor; lia. Qed.
Lemma bad_ok W : W = 64 \/ W = 32 -> okb W bad_input.
Proof. intros H. split; [repeat constructor; unfold isbyte; lia|]. split; [exact H|]. destruct H as [->| ->]; vm_compute; reflexivity. Qed.
Theorem terminates_iff W S : compiles S = true -> W = 64 \/ W = 32 ->
  (forall m, (m < length S)%nat -> well_founded_at true S m) <->
  (forall m x b, (m < length S)%nat -> struct_type S x m -> bytes_ok b -> int_ok W b ->
     exists fuel, Decode2 W S fuel m (Some x) b <> Some GDeep).
Proof.
  intros HC HW. split.
  - intros H. destruct (terminates2 W S HC H) as (R & HR). intros m x b L Hx Hb Hi.
    exists ((length b + 1) * R)%nat. destruct (HR m x b _ L Hx Hb Hi (Nat.le_refl _)) as (y & E & Hy). rewrite E.
    intros C. injection C as ->. exact Hy.
  - intros H m L. pose proof (bad_ok W HW) as [Hb Hi].
    destruct (H m (zero_struct S m) bad_input L (zero_struct_type S m HC L) Hb Hi) as (fuel & N).
    eapply bad_wf; try exact N; auto using bad_overlong, zero_struct_type. split; assumption.
Qed.
Theorem overflows W S m x fuel : compiles S = true -> W = 64 \/ W = 32 -> (m < length S)%nat -> struct_type S x m ->
  ~ well_founded_at true S m -> Decode2 W S fuel m (Some x) bad_input = Some GDeep.
Proof.
  intros HC HW L Hx NW. destruct (Decode2 W S fuel m (Some x) bad_input) as [y|] eqn:E; [|discriminate].
  assert (D : y = GDeep \/ y <> GDeep) by (destruct y; auto; right; discriminate).
  destruct D as [->|D]; [reflexivity|exfalso]. apply NW.
  apply (bad_wf W S bad_input HC bad_overlong (bad_ok W HW) fuel m x L Hx). rewrite E. congruence.
Qed.
