(** Lemmas in the exact form of the Go property theorems. *)
From Verif Require Import Base Spec SpecProofs GoLoop GoIdeal GoSpec GoProps GoProps2 GoWidth BufSpec GoBuf GoThms GoThms2 GoBuf2.
From Verif Require V1Model V2Model V1Enc V2Enc V1Dec V2Dec.

Lemma NewBufferSize_ok n : 0 <= n ->
  V2Model.wf (V2Model.NewBufferSize n) /\ V2Model.Bytes (V2Model.NewBufferSize n) = Ok [].
Proof.
  intros Hn. destruct (NewBufferSize_wf n Hn) as [W C]. split; [exact W|].
  rewrite V2Enc.Bytes_content by exact W. rewrite C. reflexivity.
Qed.
Lemma strings_right g b p : V2Model.wf b -> bytes_ok p -> zlen p < 2 ^ 32 ->
  exists b1 b2 l, V2Model.Bytes b = Ok l /\
    V2Model.encodeString g b p = Ok b1 /\ V2Model.Bytes b1 = Ok (l ++ wire (VString p)) /\
    V2Model.encodeError g b p = Ok b2 /\ V2Model.Bytes b2 = Ok (l ++ wire (VError p)).
Proof.
  intros Hw Hb Hp.
  destruct (V2Enc.encodeString_ok g b p Hw (conj Hb Hp)) as (b1 & E1 & W1 & _ & C1 & _).
  destruct (V2Enc.encodeError_ok g b p Hw (conj Hb Hp)) as (b2 & E2 & W2 & _ & C2 & _).
  exists b1, b2, (V2Enc.content b). rewrite !V2Enc.Bytes_content, C1, C2 by assumption. auto.
Qed.
Lemma reservations v :
  max_size v = match v with
  | VNil => V2Model.nilSize | VMap _ _ _ => V2Model.mapSize | VSlice _ _ => V2Model.sliceSize
  | VBytes p => V2Model.bytesSize + zlen p | VString p => V2Model.stringSize + zlen p
  | VError p => V2Model.errorSize + zlen p | VBool _ => V2Model.boolSize | VU8 _ => V2Model.uint8Size
  | VU16 _ => V2Model.uint16Size | VU32 _ | VI32 _ => V2Model.uint32Size
  | VU64 _ | VI64 _ => V2Model.uint64Size | VF32 _ => V2Model.float32Size | VF64 _ => V2Model.float64Size
  end.
Proof. destruct v; reflexivity. Qed.
Lemma zigzag_bijection w : 0 < w ->
  (forall n, - 2 ^ (w - 1) <= n < 2 ^ (w - 1) -> 0 <= zigzag n < 2 ^ w /\ unzigzag (zigzag n) = n) /\
  (forall u, 0 <= u < 2 ^ w -> - 2 ^ (w - 1) <= unzigzag u < 2 ^ (w - 1) /\ zigzag (unzigzag u) = u).
Proof.
  intros Hw. split.
  - intros n Hn. split; [apply zigzag_range; assumption|apply zigzag_unzigzag].
  - intros u Hu. split; [apply unzigzag_range; assumption|apply unzigzag_zigzag; lia].
Qed.
Lemma signed_round_trip W g1 g2 ret n r : - 2 ^ 63 <= n < 2 ^ 63 -> bytes_ok r ->
  forall v, v = VI64 n \/ (- 2 ^ 31 <= n < 2 ^ 31 /\ v = VI32 n) -> int_ok W (wire v ++ r) ->
  exists b1 b2 l, V1Model.encode g1 V1Model.NewBuffer v = Ok b1 /\ V1Model.Bytes b1 = l /\
    V2Model.encode g2 V2Model.NewBuffer v = Ok b2 /\ V2Model.Bytes b2 = Ok l /\
    V1Model.decode W None (want v) (l ++ r) = Done r v /\ V2Model.decode W ret (want v) (l ++ r) = Done r v.
Proof.
  intros Hn Hr v Hv Hi.
  assert (Hval : valid v) by (destruct Hv as [->|[H ->]]; assumption).
  assert (Hfit : V2Enc.fits2 v) by (destruct Hv as [->|[H ->]]; exact I).
  destruct (V1Enc.encode_ok g1 V1Model.NewBuffer v) as (b1 & E1 & W1 & C1 & _);
    [cbv; split; discriminate|assumption|].
  destruct (V2Enc.encode_ok g2 V2Model.NewBuffer v) as (b2 & E2 & W2 & _ & C2 & _);
    [cbv; repeat split; discriminate|assumption|assumption|].
  exists b1, b2, (wire v). rewrite V2Enc.Bytes_content by exact W2. rewrite C1, C2.
  split; [exact E1|]. split; [reflexivity|]. split; [exact E2|]. split; [reflexivity|].
  split; [apply dec1_wire; assumption|apply dec2_wire; assumption].
Qed.
Lemma decoded_in_range W ret q b r v : bytes_ok b -> int_ok W b -> req_ok q ->
  V1Model.decode W None q b = Done r v \/ V2Model.decode W ret q b = Done r v -> valid v /\ want v = q.
Proof. intros Hb Hi Hq [H|H]; [eapply dec1_valid|eapply dec2_valid]; eassumption. Qed.
Lemma float_round_trip W ret v r : (exists n, v = VF32 n \/ v = VF64 n) -> valid v -> bytes_ok r ->
  int_ok W (wire v ++ r) ->
  V1Model.decode W None (want v) (wire v ++ r) = Done r v /\
  V2Model.decode W ret (want v) (wire v ++ r) = Done r v.
Proof. intros _ Hv Hr Hi. split; [apply dec1_wire|apply dec2_wire]; assumption. Qed.
Lemma suffix_both W ret q b r : bytes_ok b -> int_ok W b ->
  rest_of (V1Model.decode W None q b) = Some r \/ rest_of (V2Model.decode W ret q b) = Some r ->
  exists c, b = c ++ r.
Proof. intros Hb Hi [H|H]; [eapply dec1_suffix|eapply dec2_suffix]; eassumption. Qed.
Lemma progress_v2 W ret q b r v : bytes_ok b -> int_ok W b ->
  V2Model.decode W ret q b = Done r v -> (r = b <-> q = RBytes /\ overlong b) /\
  (r = b -> v = VBytes []) /\ (r <> b -> zlen r < zlen b).
Proof.
  intros Hb Hi H. pose proof (dec2_done W ret q b r v Hb Hi) as D. pose proof H as A. apply D in A.
  destruct (accepts_split _ _ _ _ _ A) as [(_ & -> & -> & -> & Ho)|(c & Hc & E & _)].
  - repeat split; auto. intros C; congruence.
  - assert (L : zlen r < zlen b).
    { rewrite E, zlen_app. destruct c; [congruence|]. rewrite zlen_cons. pose proof (zlen_nonneg c). lia. }
    assert (N : r <> b) by (intros ->; lia).
    split; [|split; [intros; congruence|intros; exact L]].
    split; [intros; congruence|]. intros [-> Ho].
    rewrite (dec2_overlong W ret b Hb Hi Ho) in H. injection H as H _. congruence.
Qed.
Lemma never_panics_refuted : exists b, bytes_ok b /\
  V1Model.decode 64 None RU16 b = Crash /\ V2Model.decode 64 [] RU16 b = Crash /\
  V1Model.decode 64 None RBytes (4 :: 10 :: tl b) = Crash /\ V2Model.decode 64 [] RBytes (4 :: 10 :: tl b) = Crash.
Proof.
  exists [9; 128]. split; [repeat constructor; unfold isbyte; lia|]. repeat split.
Qed.
Lemma crash1_64 q b : bytes_ok b -> zlen b < 2 ^ 63 -> V1Model.decode 64 None q b = Crash <-> crashes q b.
Proof.
  intros Hb Hi. rewrite dec1_crash by (try assumption; apply int_ok_64; exact Hi).
  split; [intros [H|[H _]]; [exact H|discriminate H]|auto].
Qed.
Lemma crash2_64 ret q b : bytes_ok b -> zlen b < 2 ^ 63 -> V2Model.decode 64 ret q b = Crash <-> crashes q b.
Proof.
  intros Hb Hi. rewrite dec2_crash by (try assumption; apply int_ok_64; exact Hi).
  split; [intros [H|[H _]]; [exact H|discriminate H]|auto].
Qed.
Lemma payload_bounds W ret q b r v : bytes_ok b -> int_ok W b ->
  V1Model.decode W None q b = Done r v \/ V2Model.decode W ret q b = Done r v ->
  zlen (payload_of v) <= zlen b.
Proof.
  intros Hb Hi H.
  assert (A : exists v2, accepts v2 q b r v).
  { destruct H as [H|H]; [apply dec1_done in H|apply dec2_done in H]; eauto. }
  destruct A as [v2 A]. pose proof (zlen_nonneg b).
  inversion A; subst; cbn [payload_of]; rewrite ?zlen_nil; try lia;
    try (unfold int_value in *; destruct q; try discriminate;
         match goal with H : Some _ = Some _ |- _ => injection H as <- end; cbn [payload_of]; rewrite zlen_nil; lia);
    match goal with H : length_at _ _ _ |- _ => apply length_at_len in H; rewrite zlen_app in H end;
    rewrite !zlen_cons; pose proof (zlen_nonneg r); lia.
Qed.
Lemma fail1_64 q b r e : bytes_ok b -> zlen b < 2 ^ 63 ->
  V1Model.decode 64 None q b = Fail r e <-> e = error_of q /\ left1 q b r.
Proof. intros Hb Hi. apply dec1_fail; [exact Hb|apply int_ok_64; exact Hi]. Qed.
Lemma fail2_64 ret q b r e : bytes_ok b -> zlen b < 2 ^ 63 ->
  V2Model.decode 64 ret q b = Fail r e <-> e = error_of q /\ left2 q b r.
Proof. intros Hb Hi. apply dec2_fail; [exact Hb|apply int_ok_64; exact Hi]. Qed.
Lemma error_round_trip W ret m r : payload_ok m -> bytes_ok r -> int_ok W (wire (VError m) ++ r) ->
  V1Model.decode W None RError (wire (VError m) ++ r) = Done r (VError m) /\
  V2Model.decode W ret RError (wire (VError m) ++ r) = Done r (VError m).
Proof.
  intros Hm Hr Hi. split; [apply (dec1_wire W (VError m))|apply (dec2_wire W ret (VError m))]; assumption.
Qed.
Lemma too_long W ret q b ds r : bytes_ok b -> int_ok W b -> has_payload q -> b = lead q ++ ds ++ r ->
  vsplit 5 (ds ++ r) ds r -> zlen r < dval ds mod 2 ^ 32 ->
  (W = 64 \/ dval ds mod 2 ^ 32 <= 2 ^ 31 ->
     (exists r', V1Model.decode W None q b = Fail r' (error_of q)) /\
     (exists r', V2Model.decode W ret q b = Fail r' (error_of q))) /\
  (W = 32 -> 2 ^ 31 < dval ds mod 2 ^ 32 ->
     V1Model.decode W None q b = Crash /\ V2Model.decode W ret q b = Crash).
Proof.
  intros Hb Hi Hq E Hv Hl.
  assert (LA : length_at (10 :: ds ++ r) ds r) by (exists (ds ++ r); auto).
  split.
  - intros HW.
    assert (NC : ~ crashes q b).
    { intros (t & E' & Ht). assert (Heq : t = ds ++ r).
      { rewrite E in E'. apply app_inv_head in E'. auto. }
      subst t. apply (truncated_vsplit _ _ ds r) in Ht. destruct q; try contradiction; apply Ht; exact Hv. }
    assert (NH : ~ (W = 32 /\ huge_length q b)).
    { intros (-> & _ & ds' & r' & Hv' & E' & Hx). rewrite E in E'. apply app_inv_head in E'.
      rewrite <- E' in Hv'. destruct (vsplit_fun _ _ _ _ _ _ Hv Hv') as [-> ->].
      destruct HW as [HW|HW]; [discriminate HW|lia]. }
    assert (NA : forall v2 r' v, ~ accepts v2 q b r' v).
    { intros v2 r' v A.
      assert (HH : forall p, length_at (10 :: ds ++ r) ds (p ++ r') -> zlen p = dval ds mod 2 ^ 32 -> False).
      { intros p H1 H2. destruct (length_at_fun _ _ _ _ _ H1 LA) as [_ E']. rewrite <- E', zlen_app in Hl.
        pose proof (zlen_nonneg r'). lia. }
      destruct q; try contradiction; cbn [lead app] in E; subst b; inversion A; subst;
        try (match goal with H : int_value _ _ = Some _ |- _ => discriminate H end).
      - match goal with H : length_at _ _ (_ ++ r') |- _ => destruct (length_at_fun _ _ _ _ _ H LA) as [-> _]; eapply HH; [apply H|assumption] end.
      - match goal with H : ?cs ++ ?x = ds ++ r |- _ => rename H into EE end.
        rewrite <- EE in Hv. destruct Hv as (E1 & HL & cs' & l & -> & F & Hl').
        assert (LC : zlen cs = 5) by assumption.
        assert (Forall (fun c => 128 <= c) cs) as FC by assumption.
        rewrite zlen_app in HL. change (zlen [l]) with 1 in HL.
        assert (IN : In l cs).
        { apply (f_equal (fun x => nth_error x (length cs'))) in E1.
          rewrite <- app_assoc, (nth_error_app2 cs'), Nat.sub_diag in E1 by lia. cbn [nth_error app] in E1.
          rewrite (nth_error_app1 cs) in E1 by (unfold zlen in HL, LC; lia). apply nth_error_In in E1. exact E1. }
        rewrite Forall_forall in FC. apply FC in IN. lia.
      - match goal with H : length_at _ _ (_ ++ r') |- _ => destruct (length_at_fun _ _ _ _ _ H LA) as [-> _]; eapply HH; [apply H|assumption] end.
      - match goal with H : length_at _ _ (_ ++ r') |- _ => destruct (length_at_fun _ _ _ _ _ H LA) as [-> _]; eapply HH; [apply H|assumption] end. }
    split.
    + destruct (V1Model.decode W None q b) as [r' v|r' e|] eqn:D.
      * apply dec1_done in D; try assumption. destruct (NA _ _ _ D).
      * apply dec1_fail_W in D; try assumption. destruct D as [-> _]. eauto.
      * apply dec1_crash in D; try assumption. tauto.
    + destruct (V2Model.decode W ret q b) as [r' v|r' e|] eqn:D.
      * apply dec2_done in D; try assumption. destruct (NA _ _ _ D).
      * apply dec2_fail_W in D; try assumption. destruct D as [-> _]. eauto.
      * apply dec2_crash in D; try assumption. tauto.
  - intros -> Hx.
    assert (HH : huge_length q b) by (split; [exact Hq|]; exists ds, r; auto).
    split; [apply dec1_crash|apply dec2_crash]; auto.
Qed.
Lemma every_input1 q b : bytes_ok b -> zlen b < 2 ^ 63 ->
  (exists r v, accepts false q b r v) \/ (exists r, left1 q b r) \/ crashes q b.
Proof.
  intros Hb Hi. apply int_ok_64 in Hi. destruct (V1Model.decode 64 None q b) as [r v|r e|] eqn:E.
  - apply dec1_done in E; try assumption. eauto.
  - apply dec1_fail in E; try assumption. destruct E. eauto.
  - apply dec1_crash in E; try assumption. destruct E as [E|[E _]]; [auto|discriminate E].
Qed.
Lemma every_input2 q b : bytes_ok b -> zlen b < 2 ^ 63 ->
  (exists r v, accepts true q b r v) \/ (exists r, left2 q b r) \/ crashes q b.
Proof.
  intros Hb Hi. apply int_ok_64 in Hi. destruct (V2Model.decode 64 [] q b) as [r v|r e|] eqn:E.
  - apply dec2_done in E; try assumption. eauto.
  - apply dec2_fail in E; try assumption. destruct E. eauto.
  - apply dec2_crash in E; try assumption. destruct E as [E|[E _]]; [auto|discriminate E].
Qed.
Lemma panic_set W ret q b : bytes_ok b -> int_ok W b ->
  (V1Model.decode W None q b = Crash <-> crashes q b \/ (W = 32 /\ huge_length q b)) /\
  (V2Model.decode W ret q b = Crash <-> crashes q b \/ (W = 32 /\ huge_length q b)).
Proof. intros Hb Hi. split; [apply dec1_crash|apply dec2_crash]; assumption. Qed.
