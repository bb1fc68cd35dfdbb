(** More lemmas behind the Go property theorems. *)
From Verif Require Import Base Spec SpecProofs GoLoop GoIdeal GoSpec GoProps GoProps2 GoWidth BufSpec GoBuf GoThms.
From Verif Require V1Model V2Model V1Enc V2Enc V1Dec V2Dec.

(** ** C07 *)
Lemma varint_size n m : 0 <= n < 2 ^ 64 -> 0 < m -> zlen (varint n) <= m <-> n < 128 ^ m.
Proof.
  intros Hn Hm. split; intros H.
  - pose proof (dval_bound (varint n)) as B. rewrite varint_dval in B by exact Hn.
    eapply Z.lt_le_trans; [exact B|]. apply Z.pow_le_mono_r; lia.
  - apply leb_len; try assumption. split; [lia|]. eapply Z.lt_le_trans; [apply Hn|].
    vm_compute; discriminate.
Qed.
Lemma varint_minimal n ds : 0 <= n < 2 ^ 64 -> ds <> [] -> dval ds = n -> zlen (varint n) <= zlen ds.
Proof.
  intros Hn Hd E. apply varint_size; [exact Hn| |].
  - destruct ds; [congruence|]. rewrite zlen_cons. pose proof (zlen_nonneg ds). lia.
  - rewrite <- E. apply dval_bound.
Qed.
Lemma dval_snoc0 cs : dval (cs ++ [0]) = dval cs.
Proof. induction cs as [|c cs IH]; [reflexivity|]. cbn [app dval]. rewrite IH. reflexivity. Qed.
Lemma varint_last n cs l : 0 <= n < 2 ^ 64 -> varint n = cs ++ [l] -> n <> 0 -> l <> 0.
Proof.
  intros Hn E Hz ->. pose proof (varint_dval n Hn) as D. rewrite E, dval_snoc0 in D.
  assert (cs <> []) as Hc by (intros ->; cbn [dval] in D; lia).
  pose proof (varint_minimal n cs Hn Hc D) as M. rewrite E, zlen_app in M.
  change (zlen [0]) with 1 in M. lia.
Qed.
Lemma digits_unique cs : forall cs' l l',
  length cs = length cs' -> bytes_ok cs -> bytes_ok cs' ->
  Forall (fun c => 128 <= c) cs -> Forall (fun c => 128 <= c) cs' -> 0 <= l < 128 -> 0 <= l' < 128 ->
  dval (cs ++ [l]) = dval (cs' ++ [l']) -> cs ++ [l] = cs' ++ [l'].
Proof.
  induction cs as [|c cs IH]; intros cs' l l' L B B' F F' Hl Hl' D; destruct cs' as [|c' cs']; try discriminate L.
  - cbn [app dval] in *. f_equal. lia.
  - inversion B; inversion B'; inversion F; inversion F'; subst. unfold isbyte in *.
    cbn [app dval] in *. injection L as L.
    assert (c = c') by lia. subst c'. f_equal. apply IH; try assumption. lia.
Qed.
Lemma varint_terminated n : 0 <= n < 2 ^ 64 -> exists cs l, varint n = cs ++ [l] /\
  Forall (fun c => 128 <= c) cs /\ l < 128.
Proof.
  intros Hn. assert (Hb : 0 <= n < 128 ^ Z.of_nat 10) by (cbn; lia).
  pose proof (varint_scan n [] 10 Hb ltac:(lia)) as S. apply scan_done in S.
  destruct S as (_ & _ & S). exact S.
Qed.
Lemma varint_unique n k b ds r : 0 <= n < 2 ^ 64 -> vsplit k b ds r -> bytes_ok ds -> dval ds = n ->
  zlen ds = zlen (varint n) -> ds = varint n.
Proof.
  intros Hn (_ & _ & cs & l & -> & F & Hl) B D L.
  destruct (varint_terminated n Hn) as (cs' & l' & E & F' & Hl').
  pose proof (varint_ok n Hn) as B'. pose proof (varint_dval n Hn) as D'. rewrite E in *.
  apply bytes_ok_app in B. apply bytes_ok_app in B'. destruct B as [B Bl], B' as [B' Bl'].
  inversion Bl; inversion Bl'; subst. unfold isbyte in *.
  rewrite !zlen_app in L. unfold zlen in L. cbn [length] in L.
  apply digits_unique; try assumption; lia.
Qed.

Lemma varint_le n m : 0 <= n < 2 ^ 64 -> 0 < m -> n < 128 ^ m -> zlen (varint n) <= m.
Proof. intros Hn Hm H. apply varint_size; assumption. Qed.
Lemma wire_size v : valid v -> zlen (wire v) <= max_size v.
Proof.
  intros Hv. assert (H32 : forall n, 0 <= n < 2 ^ 32 -> zlen (varint n) <= 5).
  { intros n Hn. apply varint_le; lia. }
  assert (H64 : forall n, 0 <= n < 2 ^ 64 -> zlen (varint n) <= 10).
  { intros n Hn. apply varint_le; lia. }
  assert (H16 : forall n, 0 <= n < 2 ^ 16 -> zlen (varint n) <= 3).
  { intros n Hn. apply varint_le; lia. }
  destruct v; cbn [wire valid max_size] in *; rewrite ?zlen_cons, ?zlen_app, ?zlen_nil.
  - lia.
  - pose proof (H32 size ltac:(lia)). lia.
  - pose proof (H32 size ltac:(lia)). lia.
  - pose proof (H32 (zlen p) (payload_len _ Hv)). lia.
  - pose proof (H32 (zlen p) (payload_len _ Hv)). lia.
  - pose proof (H32 (zlen p) (payload_len _ Hv)). lia.
  - lia.
  - lia.
  - pose proof (H16 n Hv). lia.
  - pose proof (H32 n Hv). lia.
  - pose proof (H64 n Hv). lia.
  - pose proof (H32 _ (zigzag32 n Hv)). lia.
  - pose proof (H64 _ (zigzag64 n Hv)). lia.
  - vm_compute; discriminate.
  - vm_compute; discriminate.
Qed.
(** every bound is reached, with a payload of any length of at least 2^28 *)
Lemma wire_size_reached : forall v, valid v ->
  (forall p, v = VBytes p \/ v = VString p \/ v = VError p -> 2 ^ 28 <= zlen p) ->
  exists v', valid v' /\ want v' = want v /\ zlen (wire v') = max_size v' /\ max_size v' = max_size v.
Proof.
  intros v Hv Hp. destruct v.
  - exists VNil. repeat split.
  - exists (VMap (2 ^ 32 - 1) keyKind valueKind). cbn [valid] in *. unfold isbyte in *. repeat split; lia.
  - exists (VSlice (2 ^ 32 - 1) kind). cbn [valid] in *. unfold isbyte in *. repeat split; lia.
  - exists (VBytes p). split; [exact Hv|]. split; [reflexivity|]. split; [|reflexivity].
    cbn [wire max_size valid] in *. destruct (varint_5 (zlen p)) as [E _].
    { split; [apply Hp; auto|apply Hv]. }
    rewrite !zlen_cons, zlen_app, E. lia.
  - exists (VString p). split; [exact Hv|]. split; [reflexivity|]. split; [|reflexivity].
    cbn [wire max_size valid] in *. destruct (varint_5 (zlen p)) as [E _].
    { split; [apply Hp; auto|apply Hv]. }
    rewrite !zlen_cons, zlen_app, E. lia.
  - exists (VError p). split; [exact Hv|]. split; [reflexivity|]. split; [|reflexivity].
    cbn [wire max_size valid] in *. destruct (varint_5 (zlen p)) as [E _].
    { split; [apply Hp; auto|apply Hv]. }
    rewrite !zlen_cons, zlen_app, E. lia.
  - exists (VBool b). repeat split.
  - exists (VU8 0). cbn [valid]. repeat split; lia.
  - exists (VU16 (2 ^ 16 - 1)). cbn [valid]. repeat split; lia.
  - exists (VU32 (2 ^ 32 - 1)). cbn [valid]. repeat split; lia.
  - exists (VU64 (2 ^ 64 - 1)). cbn [valid]. repeat split; lia.
  - exists (VI32 (- 2 ^ 31)). cbn [valid]. repeat split; lia.
  - exists (VI64 (- 2 ^ 63)). cbn [valid]. repeat split; lia.
  - exists (VF32 0). cbn [valid]. repeat split; lia.
  - exists (VF64 0). cbn [valid]. repeat split; lia.
Qed.

(** ** C09 *)
Lemma zigzag_size n m : - 2 ^ 63 <= n < 2 ^ 63 -> 0 < m ->
  zlen (varint (zigzag n)) <= m <-> - (128 ^ m / 2) <= n < 128 ^ m / 2.
Proof.
  intros Hn Hm. rewrite varint_size by (try apply zigzag64; assumption).
  assert (exists h, 128 ^ m = 2 * h) as [h ->].
  { exists (64 * 128 ^ (m - 1)). replace m with (Z.succ (m - 1)) at 1 by lia.
    rewrite Z.pow_succ_r by lia. ring. }
  replace (2 * h / 2) with h by (rewrite Z.mul_comm, Z.div_mul by lia; reflexivity).
  unfold zigzag. destruct (Z.ltb_spec n 0); lia.
Qed.

(** ** every value a decoder returns is a value of the requested type *)
Lemma dec1_valid W q b r v : bytes_ok b -> int_ok W b -> req_ok q ->
  V1Model.decode W None q b = Done r v -> valid v /\ want v = q.
Proof. intros Hb Hi Hq H. apply dec1_done in H; try assumption. eapply accepts_valid; eassumption. Qed.
Lemma dec2_valid W ret q b r v : bytes_ok b -> int_ok W b -> req_ok q ->
  V2Model.decode W ret q b = Done r v -> valid v /\ want v = q.
Proof. intros Hb Hi Hq H. apply dec2_done in H; try assumption. eapply accepts_valid; eassumption. Qed.

(** ** C10 *)
Lemma be4_value a b c d : isbyte a -> isbyte b -> isbyte c -> isbyte d ->
  [a; b; c; d] = be4 (be_value [a; b; c; d]) /\ 0 <= be_value [a; b; c; d] < 2 ^ 32.
Proof.
  intros Ha Hb Hc Hd.
  assert (X : be_value [a; b; c; d] = be4_val a b c d).
  { unfold be_value, be4_val. cbn [fold_left]. ring. }
  rewrite X. apply be4_bytes; assumption.
Qed.
Lemma be8_value p q : zlen p = 4 -> zlen q = 4 -> bytes_ok p -> bytes_ok q ->
  p ++ q = be8 (be_value (p ++ q)) /\ 0 <= be_value (p ++ q) < 2 ^ 64.
Proof.
  intros Lp Lq Bp Bq.
  assert (H4 : forall l : bytes, zlen l = 4 -> exists a b c d, l = [a; b; c; d]).
  { intros l L. destruct l as [|a [|b [|c [|d [|e l]]]]]; unfold zlen in L; cbn [length] in L; try lia; eauto 6. }
  destruct (H4 _ Lp) as (a1 & a2 & a3 & a4 & ->). destruct (H4 _ Lq) as (a5 & a6 & a7 & a8 & ->).
  repeat match goal with H : bytes_ok (_ :: _) |- _ => apply bytes_ok_cons in H; destruct H end.
  destruct (be8_bytes a1 a2 a3 a4 a5 a6 a7 a8) as [E R]; try assumption.
  assert (X : be_value ([a1; a2; a3; a4] ++ [a5; a6; a7; a8]) = be8_val a1 a2 a3 a4 a5 a6 a7 a8).
  { unfold be_value, be8_val, be4_val. cbn [app fold_left]. ring. }
  rewrite X. split; assumption.
Qed.
Lemma float32_all W ret p r : zlen p = 4 -> bytes_ok (p ++ r) -> int_ok W (14 :: p ++ r) ->
  V1Model.decode W None RF32 (14 :: p ++ r) = Done r (VF32 (be_value p)) /\
  V2Model.decode W ret RF32 (14 :: p ++ r) = Done r (VF32 (be_value p)) /\
  wire (VF32 (be_value p)) = 14 :: p.
Proof.
  intros L B I. assert (OK : bytes_ok (14 :: p ++ r)) by (apply bytes_ok_cons; split; [unfold isbyte; lia|exact B]).
  apply bytes_ok_app in B. destruct B as [B _].
  destruct p as [|a [|b [|c [|d [|e p]]]]]; unfold zlen in L; cbn [length] in L; try lia.
  destruct (be4_value a b c d) as [E R];
    try (repeat match goal with H : bytes_ok (_ :: _) |- _ => apply bytes_ok_cons in H; destruct H end; assumption).
  assert (A : forall v2, accepts v2 RF32 (14 :: [a; b; c; d] ++ r) r (VF32 (be_value [a; b; c; d]))).
  { intros v2. rewrite E at 1. apply A_f32. exact R. }
  split; [apply dec1_done; auto|]. split; [apply dec2_done; auto|].
  cbn [wire]. rewrite E at 2. reflexivity.
Qed.
Lemma float64_all W ret p r : zlen p = 8 -> bytes_ok (p ++ r) -> int_ok W (15 :: p ++ r) ->
  V1Model.decode W None RF64 (15 :: p ++ r) = Done r (VF64 (be_value p)) /\
  V2Model.decode W ret RF64 (15 :: p ++ r) = Done r (VF64 (be_value p)) /\
  wire (VF64 (be_value p)) = 15 :: p.
Proof.
  intros L B I. assert (OK : bytes_ok (15 :: p ++ r)) by (apply bytes_ok_cons; split; [unfold isbyte; lia|exact B]).
  apply bytes_ok_app in B. destruct B as [B _].
  assert (E : p = be8 (be_value p) /\ 0 <= be_value p < 2 ^ 64).
  { rewrite <- (ztake_zdrop 4 p). apply be8_value.
    - apply zlen_ztake. lia.
    - rewrite zlen_zdrop by lia. lia.
    - apply bytes_ok_ztake. exact B.
    - apply bytes_ok_zdrop. exact B. }
  destruct E as [E R].
  assert (A : forall v2, accepts v2 RF64 (15 :: p ++ r) r (VF64 (be_value p))).
  { intros v2. rewrite E at 1. apply A_f64. exact R. }
  split; [apply dec1_done; auto|]. split; [apply dec2_done; auto|].
  cbn [wire]. rewrite E at 2. reflexivity.
Qed.

(** ** C11 *)
Lemma dec1_kind W dst q b : bytes_ok b -> int_ok W b -> (forall t, b <> header q ++ t) ->
  V1Model.decode W dst q b = Fail b (error_of q).
Proof. intros Hb Hi H. rewrite V1Dec.decode_ideal by assumption. apply ideal1_kind. exact H. Qed.
Lemma dec2_kind W ret q b : bytes_ok b -> int_ok W b -> (forall t, b <> header q ++ t) ->
  V2Model.decode W ret q b = Fail b (error_of q).
Proof. intros Hb Hi H. rewrite V2Dec.decode_ideal by assumption. apply ideal2_kind. exact H. Qed.

(** ** failures at any int width *)
Lemma dec1_fail_W W q b r e : bytes_ok b -> int_ok W b ->
  V1Model.decode W None q b = Fail r e -> e = error_of q /\ left1 q b r.
Proof.
  intros Hb Hi H. rewrite V1Dec.decode_ideal in H by assumption.
  destruct (ideal1_W W None q b Hi) as [E|(_ & E & _)]; rewrite H in E; [|discriminate E].
  symmetry in E. apply (ideal1_iff q b (Fail r e) Hb) in E. exact E.
Qed.
Lemma dec2_fail_W W ret q b r e : bytes_ok b -> int_ok W b ->
  V2Model.decode W ret q b = Fail r e -> e = error_of q /\ left2 q b r.
Proof.
  intros Hb Hi H. rewrite V2Dec.decode_ideal in H by assumption.
  destruct (ideal2_W W None q b Hi) as [E|(_ & E & _)]; rewrite H in E; [|discriminate E].
  symmetry in E. apply (ideal2_iff q b (Fail r e) Hb) in E. exact E.
Qed.

(** ** C14 *)
Lemma dec1_suffix W q b r : bytes_ok b -> int_ok W b ->
  rest_of (V1Model.decode W None q b) = Some r -> exists c, b = c ++ r.
Proof.
  intros Hb Hi H. destruct (V1Model.decode W None q b) as [r' v|r' e|] eqn:E; cbn [rest_of] in H; try discriminate H;
    injection H as ->.
  - apply dec1_done in E; try assumption. eapply accepts_suffix; exact E.
  - apply dec1_fail_W in E; try assumption. eapply left1_suffix; apply E.
Qed.
Lemma dec2_suffix W ret q b r : bytes_ok b -> int_ok W b ->
  rest_of (V2Model.decode W ret q b) = Some r -> exists c, b = c ++ r.
Proof.
  intros Hb Hi H. destruct (V2Model.decode W ret q b) as [r' v|r' e|] eqn:E; cbn [rest_of] in H; try discriminate H;
    injection H as ->.
  - apply dec2_done in E; try assumption. eapply accepts_suffix; exact E.
  - apply dec2_fail_W in E; try assumption. eapply left2_suffix; apply E.
Qed.
Lemma dec1_progress W q b r v : bytes_ok b -> int_ok W b ->
  V1Model.decode W None q b = Done r v -> zlen r < zlen b.
Proof.
  intros Hb Hi E. apply dec1_done in E; try assumption.
  destruct (accepts_split _ _ _ _ _ E) as [(C & _)|(c & Hc & -> & _)]; [discriminate C|].
  rewrite zlen_app. destruct c; [congruence|]. rewrite zlen_cons. pose proof (zlen_nonneg c). lia.
Qed.
Lemma dec2_progress W ret q b r v : bytes_ok b -> int_ok W b ->
  V2Model.decode W ret q b = Done r v -> ~ (q = RBytes /\ overlong b) -> zlen r < zlen b.
Proof.
  intros Hb Hi E Hn. apply dec2_done in E; try assumption.
  destruct (accepts_split _ _ _ _ _ E) as [(_ & Hq & _ & _ & Ho)|(c & Hc & -> & _)]; [tauto|].
  rewrite zlen_app. destruct c; [congruence|]. rewrite zlen_cons. pose proof (zlen_nonneg c). lia.
Qed.
Lemma dec2_overlong W ret b : bytes_ok b -> int_ok W b -> overlong b ->
  V2Model.decode W ret RBytes b = Done b (VBytes []).
Proof.
  intros Hb Hi (cs & r & -> & Hl & Hf). apply dec2_done; try assumption.
  apply A_bytes_overlong; auto.
Qed.

(** ** C15 *)
Lemma dec1_app W q b x r v : bytes_ok (b ++ x) -> int_ok W (b ++ x) ->
  V1Model.decode W None q b = Done r v -> V1Model.decode W None q (b ++ x) = Done (r ++ x) v.
Proof.
  intros Hb Hi E. apply dec1_done in E; [|apply bytes_ok_app in Hb; tauto|].
  - apply dec1_done; try assumption. apply accepts_app. exact E.
  - apply (int_ok_shorter _ _ _ Hi). rewrite zlen_app. pose proof (zlen_nonneg x). lia.
Qed.
Lemma dec2_app W ret q b x r v : bytes_ok (b ++ x) -> int_ok W (b ++ x) ->
  V2Model.decode W ret q b = Done r v -> V2Model.decode W ret q (b ++ x) = Done (r ++ x) v.
Proof.
  intros Hb Hi E. apply dec2_done in E; [|apply bytes_ok_app in Hb; tauto|].
  - apply dec2_done; try assumption. apply accepts_app. exact E.
  - apply (int_ok_shorter _ _ _ Hi). rewrite zlen_app. pose proof (zlen_nonneg x). lia.
Qed.
Lemma dec1_local W q b r v : bytes_ok b -> int_ok W b -> V1Model.decode W None q b = Done r v ->
  exists c, b = c ++ r /\ forall r', bytes_ok r' -> int_ok W (c ++ r') ->
    V1Model.decode W None q (c ++ r') = Done r' v.
Proof.
  intros Hb Hi E. apply dec1_done in E; try assumption.
  destruct (accepts_split _ _ _ _ _ E) as [(C & _)|(c & Hc & -> & H)]; [discriminate C|].
  exists c. split; [reflexivity|]. intros r' Hr Hi'. apply bytes_ok_app in Hb.
  apply dec1_done; [apply bytes_ok_app; tauto|assumption|apply H].
Qed.
Lemma dec2_local W ret q b r v : bytes_ok b -> int_ok W b -> V2Model.decode W ret q b = Done r v ->
  ~ (q = RBytes /\ overlong b) ->
  exists c, b = c ++ r /\ forall r', bytes_ok r' -> int_ok W (c ++ r') ->
    V2Model.decode W ret q (c ++ r') = Done r' v.
Proof.
  intros Hb Hi E Hn. apply dec2_done in E; try assumption.
  destruct (accepts_split _ _ _ _ _ E) as [(_ & Hq & _ & _ & Ho)|(c & Hc & -> & H)]; [tauto|].
  exists c. split; [reflexivity|]. intros r' Hr Hi'. apply bytes_ok_app in Hb.
  apply dec2_done; [apply bytes_ok_app; tauto|assumption|apply H].
Qed.

(** ** C16 *)
Lemma dec1_scalar_atomic W q b r e : bytes_ok b -> int_ok W b -> scalar_req q ->
  V1Model.decode W None q b = Fail r e -> r = b.
Proof.
  intros Hb Hi Hs H. apply dec1_fail_W in H; try assumption. destruct H as [_ H].
  inversion H; subst; cbn [scalar_req] in *; try reflexivity; try tauto;
    repeat match goal with H : _ \/ _ |- _ => destruct H end; subst; cbn [scalar_req] in *; tauto.
Qed.
Lemma dec2_scalar_atomic W ret q b r e : bytes_ok b -> int_ok W b -> scalar_req q \/ q = RBytes ->
  V2Model.decode W ret q b = Fail r e -> r = b.
Proof.
  intros Hb Hi Hs H. apply dec2_fail_W in H; try assumption. destruct H as [_ H].
  inversion H; subst; try reflexivity; cbn [scalar_req] in *; destruct Hs as [Hs|Hs];
    try tauto; try discriminate Hs; subst; cbn [scalar_req] in *; try tauto; congruence.
Qed.

(** ** C17 *)
Lemma prefix_rejected_go W ret v p s r v' : valid v -> wire v = p ++ s -> s <> [] -> int_ok W p ->
  V1Model.decode W None (want v) p <> Done r v' /\ V2Model.decode W ret (want v) p <> Done r v'.
Proof.
  intros Hv Hw Hs Hi. pose proof (wire_ok v Hv) as Hb. rewrite Hw in Hb. apply bytes_ok_app in Hb.
  destruct Hb as [Hb _]. split; intros E.
  - apply dec1_done in E; try assumption. exact (prefix_rejected _ _ _ _ _ _ Hv Hw Hs E).
  - apply dec2_done in E; try assumption. exact (prefix_rejected _ _ _ _ _ _ Hv Hw Hs E).
Qed.

(** ** C18 *)
Lemma accepts_int v2 q t r v : int_value q 0 <> None ->
  accepts v2 q (header q ++ t) r v <->
  exists ds, vsplit (digits q) t ds r /\ int_value q (dval ds) = Some v.
Proof.
  intros Hq. split.
  - intros H. inversion H; subst; cbn [int_value] in Hq; try congruence.
    assert (t0 = t) as -> by (destruct q; cbn [int_value header app] in *; congruence).
    exists ds. auto.
  - intros (ds & Hv & Hi). eapply A_int; eassumption.
Qed.
Lemma dec1_int W q t r v : bytes_ok (header q ++ t) -> int_ok W (header q ++ t) -> int_value q 0 <> None ->
  V1Model.decode W None q (header q ++ t) = Done r v <->
  exists ds, vsplit (digits q) t ds r /\ int_value q (dval ds) = Some v.
Proof. intros Hb Hi Hq. rewrite dec1_done by assumption. apply accepts_int. exact Hq. Qed.
Lemma dec2_int W ret q t r v : bytes_ok (header q ++ t) -> int_ok W (header q ++ t) -> int_value q 0 <> None ->
  V2Model.decode W ret q (header q ++ t) = Done r v <->
  exists ds, vsplit (digits q) t ds r /\ int_value q (dval ds) = Some v.
Proof. intros Hb Hi Hq. rewrite dec2_done by assumption. apply accepts_int. exact Hq. Qed.
Lemma dec_agree W ret q b : bytes_ok b -> int_ok W b -> scalar_req q -> q <> RBool ->
  V1Model.decode W None q b = V2Model.decode W ret q b.
Proof.
  intros Hb Hi Hs Hq. rewrite V1Dec.decode_ideal, V2Dec.decode_ideal by assumption.
  destruct q; cbn [scalar_req] in Hs; try tauto; try congruence; reflexivity.
Qed.

(** ** C19-C21 *)
Lemma dst1 W dst b r p : bytes_ok b -> int_ok W b -> V1Model.decode W None RBytes b = Done r (VBytes p) ->
  V1Model.decode W (Some dst) RBytes b =
  Done r (VBytes (if zlen dst <=? zlen p then p else p ++ zdrop (zlen p) dst)).
Proof. intros Hb Hi H. rewrite dec1_dst, H by assumption. reflexivity. Qed.
Lemma dst1_exact W dst b r p : bytes_ok b -> int_ok W b -> V1Model.decode W None RBytes b = Done r (VBytes p) ->
  V1Model.decode W (Some dst) RBytes b = Done r (VBytes p) <-> zlen dst <= zlen p.
Proof.
  intros Hb Hi H. rewrite (dst1 _ _ _ _ _ Hb Hi H). destruct (Z.leb_spec (zlen dst) (zlen p)) as [L|L].
  - tauto.
  - split; [|lia]. intros E. injection E as E.
    apply (f_equal zlen) in E. pose proof (zlen_nonneg p).
    rewrite zlen_app, zlen_zdrop in E by lia. lia.
Qed.
Lemma dst1_nofail W dst b : bytes_ok b -> int_ok W b ->
  (forall r v, V1Model.decode W None RBytes b <> Done r v) ->
  V1Model.decode W (Some dst) RBytes b = V1Model.decode W None RBytes b.
Proof.
  intros Hb Hi H. rewrite dec1_dst by assumption. destruct (V1Model.decode W None RBytes b) eqn:E; try reflexivity.
  exfalso. eapply H. reflexivity.
Qed.
Lemma ret2_any W ret q b : bytes_ok b -> int_ok W b ->
  V2Model.decode W ret q b = V2Model.decode W [] q b.
Proof. intros Hb Hi. rewrite !V2Dec.decode_ideal by assumption. reflexivity. Qed.
(** what happens to the destination's memory *)
Lemma ret2_append W ret b r x : V2Model.decodeBytes W ret b = Ok (r, x, None) ->
  exists p, x = V2Model.append_to ret p.
Proof.
  unfold V2Model.decodeBytes. intros H.
  destruct (zlen b >? 2); [|discriminate H].
  destruct (index b 0) as [b0|]; cbn [bind] in H; [|discriminate H].
  destruct (b0 =? V2Model.BytesRawKind); [|discriminate H].
  destruct (index b 1) as [b1|]; cbn [bind] in H; [|discriminate H].
  destruct (b1 =? V2Model.Uint32RawKind); [|discriminate H].
  match type of H with bind ?y _ = _ => destruct y as [[size offset]|] end; cbn [bind] in H; [|discriminate H].
  match type of H with (if ?c then _ else _) = _ => destruct c end; [|discriminate H].
  match type of H with bind ?y _ = _ => destruct y as [rr|] end; cbn [bind] in H; [|discriminate H].
  match type of H with bind ?y _ = _ => destruct y as [p|] end; cbn [bind] in H; [|discriminate H].
  injection H as _ H. exists p. symmetry. exact H.
Qed.
Lemma ret2_memory W ret b r p m : V2Model.decodeBytes W ret b = Ok (r, (p, m), None) ->
  m = (if zlen p <=? zlen ret then p ++ zdrop (zlen p) ret else ret).
Proof.
  intros H. apply ret2_append in H. destruct H as [p' H].
  pose proof (V2Dec.append_to_fst ret p') as F. rewrite <- H in F. cbn [fst] in F. subst p'.
  apply (f_equal snd) in H. cbn [snd] in H. rewrite H. unfold V2Model.append_to.
  destruct (zlen p <=? zlen ret); [|reflexivity]. reflexivity.
Qed.

Lemma bool1 W b r v : bytes_ok b -> int_ok W b ->
  V1Model.decode W None RBool b = Done r v <-> exists x, b = 7 :: x :: r /\ v = VBool (x =? 1).
Proof.
  intros Hb Hi. rewrite dec1_done by assumption. split.
  - intros H. inversion H; subst; eauto; try discriminate.
  - intros (x & -> & ->). constructor. discriminate.
Qed.
Lemma bool2 W ret b r v : bytes_ok b -> int_ok W b ->
  V2Model.decode W ret RBool b = Done r v <-> exists t, v = VBool t /\ b = wire (VBool t) ++ r.
Proof.
  intros Hb Hi. rewrite dec2_done by assumption. split.
  - intros H. inversion H; subst; try discriminate.
    destruct H0 as [->| ->]; [reflexivity|exists false; auto|exists true; auto].
  - intros (t & -> & ->). destruct t; cbn [wire app].
    + apply (A_bool true 1 r). auto.
    + apply (A_bool true 0 r). auto.
Qed.

(** ** C31 *)
Lemma error_is e1 e2 : V2Model.Error_Is e1 (Some e2) = Ok true <-> e1 = e2.
Proof.
  unfold V2Model.Error_Is, V2Model.Error_Error. destruct (list_eq_dec Z.eq_dec e1 e2).
  - tauto.
  - split; [discriminate|contradiction].
Qed.
Lemma error_is_false e1 e2 : V2Model.Error_Is e1 (Some e2) = Ok false <-> e1 <> e2.
Proof.
  unfold V2Model.Error_Is, V2Model.Error_Error. destruct (list_eq_dec Z.eq_dec e1 e2); split; congruence.
Qed.
