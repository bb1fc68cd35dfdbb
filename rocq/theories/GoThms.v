(** The Go property lemmas in terms of the literal models. *)
From Verif Require Import Base Spec SpecProofs GoLoop GoIdeal GoSpec GoProps GoProps2 GoWidth BufSpec GoBuf.
From Verif Require V1Model V2Model V1Enc V2Enc V1Dec V2Dec.

Lemma int_ok_64 b : zlen b < 2 ^ 63 -> int_ok 64 b.
Proof. intros H. split; [auto|exact H]. Qed.
Lemma int_ok_app W a b : int_ok W (a ++ b) -> int_ok W b.
Proof. intros H. apply (int_ok_shorter _ _ _ H). rewrite zlen_app. pose proof (zlen_nonneg a). lia. Qed.

(** ** decoders in one place *)
Lemma dec1_done W q b r v : bytes_ok b -> int_ok W b ->
  V1Model.decode W None q b = Done r v <-> accepts false q b r v.
Proof.
  intros Hb Hi. rewrite V1Dec.decode_ideal by assumption. rewrite ideal1_W_done by assumption.
  apply (ideal1_iff q b (Done r v) Hb).
Qed.
Lemma ideal2_ret W d d' q b : ideal2 W d q b = ideal2 W d' q b.
Proof. destruct q; reflexivity. Qed.
Lemma dec2_done W ret q b r v : bytes_ok b -> int_ok W b ->
  V2Model.decode W ret q b = Done r v <-> accepts true q b r v.
Proof.
  intros Hb Hi. rewrite V2Dec.decode_ideal by assumption. rewrite ideal2_W_done by assumption.
  apply (ideal2_iff q b (Done r v) Hb).
Qed.
Lemma dec1_fail q b r e : bytes_ok b -> int_ok 64 b ->
  V1Model.decode 64 None q b = Fail r e <-> e = error_of q /\ left1 q b r.
Proof.
  intros Hb Hi. rewrite V1Dec.decode_ideal by assumption. apply (ideal1_iff q b (Fail r e) Hb).
Qed.
Lemma dec2_fail ret q b r e : bytes_ok b -> int_ok 64 b ->
  V2Model.decode 64 ret q b = Fail r e <-> e = error_of q /\ left2 q b r.
Proof.
  intros Hb Hi. rewrite V2Dec.decode_ideal by assumption. apply (ideal2_iff q b (Fail r e) Hb).
Qed.
Lemma dec1_crash W q b : bytes_ok b -> int_ok W b ->
  V1Model.decode W None q b = Crash <-> crashes q b \/ (W = 32 /\ huge_length q b).
Proof. intros Hb Hi. rewrite V1Dec.decode_ideal by assumption. apply ideal1_crash_W; assumption. Qed.
Lemma dec2_crash W ret q b : bytes_ok b -> int_ok W b ->
  V2Model.decode W ret q b = Crash <-> crashes q b \/ (W = 32 /\ huge_length q b).
Proof. intros Hb Hi. rewrite V2Dec.decode_ideal by assumption. apply ideal2_crash_W; assumption. Qed.

(** the destination of v1 Bytes *)
Definition with_dst (dst : option bytes) (o : outcome) : outcome :=
  match o with
  | Done r (VBytes p) => Done r (VBytes (bytes_result dst p))
  | o => o
  end.
Lemma ideal1_dst W dst b : ideal1 W dst RBytes b = with_dst dst (ideal1 W None RBytes b).
Proof.
  cbn [ideal1]. destruct b as [|c t]; [reflexivity|]. destruct (c =? 4); [|reflexivity].
  destruct (sub32 t) as [r n|r|]; try reflexivity. destruct (payload W r n); reflexivity.
Qed.
Lemma dec1_dst W dst b : bytes_ok b -> int_ok W b ->
  V1Model.decode W dst RBytes b = with_dst dst (V1Model.decode W None RBytes b).
Proof. intros Hb Hi. rewrite !V1Dec.decode_ideal by assumption. apply ideal1_dst. Qed.
Lemma dec1_nodst W dst q b : bytes_ok b -> int_ok W b -> q <> RBytes ->
  V1Model.decode W dst q b = V1Model.decode W None q b.
Proof. intros Hb Hi Hq. rewrite !V1Dec.decode_ideal by assumption. destruct q; try reflexivity; congruence. Qed.

(** ** C03-C05 *)
Lemma dec1_wire W v r : valid v -> bytes_ok r -> int_ok W (wire v ++ r) ->
  V1Model.decode W None (want v) (wire v ++ r) = Done r v.
Proof.
  intros Hv Hr Hi. apply dec1_done; [|exact Hi|].
  - apply bytes_ok_app. split; [apply wire_ok; exact Hv|exact Hr].
  - apply wire_accepts; exact Hv.
Qed.
Lemma dec2_wire W ret v r : valid v -> bytes_ok r -> int_ok W (wire v ++ r) ->
  V2Model.decode W ret (want v) (wire v ++ r) = Done r v.
Proof.
  intros Hv Hr Hi. apply dec2_done; [|exact Hi|].
  - apply bytes_ok_app. split; [apply wire_ok; exact Hv|exact Hr].
  - apply wire_accepts; exact Hv.
Qed.
Lemma read_all_wires W dec :
  (forall v r, valid v -> bytes_ok r -> int_ok W (wire v ++ r) -> dec (want v) (wire v ++ r) = Done r v) ->
  forall vs r, Forall valid vs -> bytes_ok r -> int_ok W (wires vs ++ r) ->
  read_all dec (map want vs) (wires vs ++ r) = Some (vs, r).
Proof.
  intros Hd. induction vs as [|v vs IH]; intros r Hv Hr Hi; [reflexivity|].
  inversion Hv; subst. rewrite wires_cons, <- app_assoc in *. cbn [map read_all].
  rewrite Hd; try assumption.
  - rewrite IH; try assumption; [reflexivity|]. apply (int_ok_app _ _ _ Hi).
  - apply bytes_ok_app. split; [apply wires_ok; assumption|exact Hr].
Qed.
Lemma read1_wires W vs r : Forall valid vs -> bytes_ok r -> int_ok W (wires vs ++ r) ->
  read_all (V1Model.decode W None) (map want vs) (wires vs ++ r) = Some (vs, r).
Proof. intros. apply (read_all_wires W); try assumption. intros. apply dec1_wire; assumption. Qed.
Lemma read2_wires W ret vs r : Forall valid vs -> bytes_ok r -> int_ok W (wires vs ++ r) ->
  read_all (V2Model.decode W ret) (map want vs) (wires vs ++ r) = Some (vs, r).
Proof. intros. apply (read_all_wires W); try assumption. intros. apply dec2_wire; assumption. Qed.

Lemma small_fits vs : small_bytes vs -> Forall V2Enc.fits2 vs.
Proof.
  intros H. apply Forall_forall. intros v Hv. destruct v; cbn [V2Enc.fits2]; auto.
Qed.
Lemma enc1 g b vs : V1Model.wf b -> Forall valid vs -> exists b',
  V1Model.encode_all g b vs = Ok b' /\ V1Model.wf b' /\
  V1Model.Bytes b' = V1Model.Bytes b ++ wires vs /\
  V1Model.Len b' = V1Model.Len b + zlen (wires vs).
Proof.
  intros Hw Hv. destruct (V1Enc.encode_all_ok g vs b Hw Hv) as (b' & E & W & B & _).
  exists b'. repeat split; try assumption; try apply W.
  pose proof (f_equal zlen B) as L. rewrite zlen_app, !V1Enc.Bytes_len in L by assumption. exact L.
Qed.
Lemma enc2 g b vs : V2Model.wf b -> Forall valid vs -> small_bytes vs -> exists b' l,
  V2Model.Bytes b = Ok l /\ V2Model.encode_all g b vs = Ok b' /\ V2Model.wf b' /\
  V2Model.Bytes b' = Ok (l ++ wires vs) /\
  V2Model.Len b' = V2Model.Len b + zlen (wires vs).
Proof.
  intros Hw Hv Hs. destruct (V2Enc.encode_all_ok g vs b Hw Hv (small_fits _ Hs)) as (b' & E & W & O & C & _).
  exists b', (V2Enc.content b). split; [apply V2Enc.Bytes_content; exact Hw|].
  split; [exact E|]. split; [exact W|]. split; [|exact O].
  rewrite V2Enc.Bytes_content by exact W. rewrite C. reflexivity.
Qed.
Lemma round1 W g b vs r : V1Model.wf b -> V1Model.Bytes b = [] -> Forall valid vs ->
  bytes_ok r -> int_ok W (wires vs ++ r) -> exists b',
  V1Model.encode_all g b vs = Ok b' /\
  read_all (V1Model.decode W None) (map want vs) (V1Model.Bytes b' ++ r) = Some (vs, r).
Proof.
  intros Hw He Hv Hr Hi. destruct (enc1 g b vs Hw Hv) as (b' & E & W' & B & _).
  exists b'. split; [exact E|]. rewrite B, He. apply read1_wires; assumption.
Qed.
Lemma round2 W g ret b vs r : V2Model.wf b -> V2Model.Bytes b = Ok [] -> Forall valid vs ->
  small_bytes vs -> bytes_ok r -> int_ok W (wires vs ++ r) -> exists b' l,
  V2Model.encode_all g b vs = Ok b' /\ V2Model.Bytes b' = Ok l /\
  read_all (V2Model.decode W ret) (map want vs) (l ++ r) = Some (vs, r).
Proof.
  intros Hw He Hv Hs Hr Hi. destruct (enc2 g b vs Hw Hv Hs) as (b' & l & L & E & W' & B & _).
  rewrite He in L. injection L as <-.
  exists b', (wires vs). split; [exact E|]. split; [exact B|]. apply read2_wires; assumption.
Qed.
Lemma interop W g1 g2 ret b1 b2 vs r :
  V1Model.wf b1 -> V1Model.Bytes b1 = [] -> V2Model.wf b2 -> V2Model.Bytes b2 = Ok [] ->
  Forall valid vs -> small_bytes vs -> bytes_ok r -> int_ok W (wires vs ++ r) ->
  exists b1' b2' l,
    V1Model.encode_all g1 b1 vs = Ok b1' /\ V2Model.encode_all g2 b2 vs = Ok b2' /\
    V1Model.Bytes b1' = l /\ V2Model.Bytes b2' = Ok l /\
    read_all (V1Model.decode W None) (map want vs) (l ++ r) = Some (vs, r) /\
    read_all (V2Model.decode W ret) (map want vs) (l ++ r) = Some (vs, r).
Proof.
  intros Hw1 He1 Hw2 He2 Hv Hs Hr Hi.
  destruct (enc1 g1 b1 vs Hw1 Hv) as (b1' & E1 & _ & B1 & _).
  destruct (enc2 g2 b2 vs Hw2 Hv Hs) as (b2' & l & L & E2 & _ & B2 & _).
  rewrite He2 in L. injection L as <-. rewrite He1 in B1. cbn [app] in *.
  exists b1', b2', (wires vs). repeat split; try assumption.
  - apply read1_wires; assumption.
  - apply read2_wires; assumption.
Qed.

(** ** C06 *)
Lemma varint_5 n : 2 ^ 28 <= n < 2 ^ 32 -> zlen (varint n) = 5 /\ Forall (fun c => 128 <= c) (ztake 4 (varint n)).
Proof.
  intros Hn.
  assert (H : forall k m, 128 ^ Z.of_nat k <= m < 128 ^ (Z.of_nat k + 1) -> forall j, (k <= j)%nat ->
     zlen (leb j m) = Z.of_nat k + 1 /\ Forall (fun c => 128 <= c) (firstn k (leb j m))).
  { induction k as [|k IH]; intros m Hm j Hj.
    - change (128 ^ Z.of_nat 0) with 1 in Hm. change (128 ^ (Z.of_nat 0 + 1)) with 128 in Hm.
      destruct j; cbn [leb]; [split; [reflexivity|constructor]|].
      destruct (Z.ltb_spec m 128); [split; [reflexivity|constructor]|lia].
    - destruct j as [|j]; [lia|]. cbn [leb].
      rewrite Nat2Z.inj_succ in *. replace (Z.succ (Z.of_nat k) + 1) with (Z.succ (Z.of_nat k + 1)) in Hm by lia.
      rewrite !Z.pow_succ_r in Hm by lia.
      pose proof (Z.pow_pos_nonneg 128 (Z.of_nat k) ltac:(lia) ltac:(lia)).
      destruct (Z.ltb_spec m 128); [lia|].
      destruct (IH (m / 128)) with (j := j) as [IL IF]; [lia|lia|].
      rewrite zlen_cons, IL. split; [lia|]. cbn [firstn]. constructor; [lia|exact IF]. }
  destruct (H 4%nat n) with (j := 9%nat) as [A B]; [|lia|].
  - change (128 ^ Z.of_nat 4) with (2 ^ 28). change (128 ^ (Z.of_nat 4 + 1)) with (2 ^ 35). lia.
  - split; [exact A|exact B].
Qed.
Definition bad_bytes (p : bytes) : bytes := 4 :: 10 :: ztake 4 (varint (zlen p)) ++ p.
Lemma bad_bytes_len p : 2 ^ 28 <= zlen p < 2 ^ 32 -> zlen (bad_bytes p) = zlen (wire (VBytes p)) - 1.
Proof.
  intros Hp. destruct (varint_5 _ Hp) as [L _]. unfold bad_bytes. cbn [wire].
  rewrite !zlen_cons, !zlen_app, zlen_ztake, L by lia. lia.
Qed.
Lemma bytes_boundary g b p : V2Model.wf b -> bytes_ok p -> zlen p < 2 ^ 32 -> exists b' l,
  V2Model.Bytes b = Ok l /\ V2Model.encodeBytes g b p = Ok b' /\
  (zlen p < 2 ^ 28 -> V2Model.Bytes b' = Ok (l ++ wire (VBytes p))) /\
  (2 ^ 28 <= zlen p ->
     V2Model.Bytes b' = Ok (l ++ 4 :: 10 :: ztake 4 (varint (zlen p)) ++ p) /\
     V2Model.Bytes b' <> Ok (l ++ wire (VBytes p)) /\
     V2Model.Len b' = V2Model.Len b + zlen (wire (VBytes p)) - 1).
Proof.
  intros Hw Hb Hp. pose proof (zlen_nonneg p). pose proof (V2Enc.Bytes_content b Hw) as HB.
  destruct (Z.ltb_spec (zlen p) (2 ^ 28)) as [Hs|Hs].
  - destruct (V2Enc.encodeBytes_ok g b p Hw Hs) as (b' & E & W & O & C & _).
    exists b', (V2Enc.content b). split; [exact HB|]. split; [exact E|]. split; [|intros Hc; lia].
    intros _. rewrite V2Enc.Bytes_content, C by exact W. reflexivity.
  - destruct (V2Enc.encodeBytes_bad g b p Hw ltac:(lia)) as (b' & E & W & O & C & _).
    exists b', (V2Enc.content b). split; [exact HB|]. split; [exact E|]. split; [intros Hc; lia|].
    intros _. rewrite V2Enc.Bytes_content, C by exact W.
    pose proof (bad_bytes_len p ltac:(lia)) as HL. unfold bad_bytes in HL.
    split; [reflexivity|]. split.
    + intros E'. injection E' as E'. apply app_inv_head in E'.
      pose proof (f_equal zlen E') as E2. cbn [wire] in *. lia.
    + unfold V2Model.Len. rewrite O, HL. lia.
Qed.
Lemma bad_bytes_not_decoded W ret p r : bytes_ok p -> bytes_ok r -> 2 ^ 28 <= zlen p < 2 ^ 32 ->
  int_ok W (bad_bytes p ++ r) ->
  V1Model.decode W None RBytes (bad_bytes p ++ r) <> Done r (VBytes p) /\
  V2Model.decode W ret RBytes (bad_bytes p ++ r) <> Done r (VBytes p).
Proof.
  intros Hp Hr Hl Hi. destruct (varint_5 _ Hl) as [LV FV].
  assert (LT : zlen (ztake 4 (varint (zlen p))) = 4) by (apply zlen_ztake; lia).
  assert (OK : bytes_ok (bad_bytes p ++ r)).
  { unfold bad_bytes. cbn [app]. rewrite <- app_assoc.
    repeat (apply bytes_ok_cons; split; [unfold isbyte; lia|]).
    rewrite !bytes_ok_app. split; [apply bytes_ok_ztake, varint_ok; lia|]. auto. }
  assert (HN : forall v2, ~ accepts v2 RBytes (bad_bytes p ++ r) r (VBytes p)).
  { intros v2 H. unfold bad_bytes in H. cbn [app] in H. rewrite <- app_assoc in H.
    inversion H; subst; try discriminate; try (rewrite zlen_nil in Hl; lia).
    match goal with HL : length_at _ _ _ |- _ => destruct HL as (u & E & Hv) end. injection E as <-. destruct Hv as (E & _ & cs & x & -> & _ & Hx).
      apply app_inv_tail in E. pose proof E as E3.
      rewrite E3 in FV. apply Forall_app in FV. destruct FV as [_ FV]. inversion FV; lia.
    }
  split; intros E.
  - apply dec1_done in E; try assumption. exact (HN _ E).
  - apply dec2_done in E; try assumption. exact (HN _ E).
Qed.
