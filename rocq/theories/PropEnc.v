(** Property theorems: Go encoders (C01, C02, C05-C10).  Specification: Spec.v, BufSpec.v. *)
From Verif Require Import Base Spec SpecProofs GoLoop GoSpec BufSpec GoProps2 GoThms GoThms2 GoBuf GoBuf2 GoThms3.
From Verif Require V1Model V2Model.

(** C01: any sequence of v1 encoder calls appends exactly the wire encodings. *)
Theorem c01_v1_encoder_appends_wire : forall g b vs, V1Model.wf b -> Forall valid vs ->
  exists b', V1Model.encode_all g b vs = Ok b' /\ V1Model.wf b' /\
    V1Model.Bytes b' = V1Model.Bytes b ++ wires vs /\
    V1Model.Len b' = V1Model.Len b + zlen (wires vs).
Proof. exact enc1. Qed.
Print Assumptions c01_v1_encoder_appends_wire.
Example c01_example : V1Model.wf (V1Model.mkbuf [] [1; 2; 3; 99] 3) /\
  Forall valid [VU16 300; VString [104; 105]; VI32 (-1); VNil] /\
  wires [VU16 300; VString [104; 105]; VI32 (-1); VNil] = [9; 172; 2; 5; 10; 2; 104; 105; 12; 1; 0].
Proof.
  split; [cbv; split; discriminate|]. split; [|reflexivity].
  repeat constructor; cbn; unfold isbyte; lia.
Qed.

(** C02: any sequence of v2 encoder calls appends exactly the wire encodings and never panics.
    [wf] (slice length = capacity, offset within) holds of every buffer the package makes. *)
Theorem c02_v2_encoder_appends_wire : forall g b vs, V2Model.wf b -> Forall valid vs -> small_bytes vs ->
  exists b' l, V2Model.Bytes b = Ok l /\ V2Model.encode_all g b vs = Ok b' /\ V2Model.wf b' /\
    V2Model.Bytes b' = Ok (l ++ wires vs) /\ V2Model.Len b' = V2Model.Len b + zlen (wires vs).
Proof. exact enc2. Qed.
Print Assumptions c02_v2_encoder_appends_wire.
Theorem c02_buffers_are_wf : forall n, 0 <= n ->
  V2Model.wf (V2Model.NewBufferSize n) /\ V2Model.Bytes (V2Model.NewBufferSize n) = Ok [].
Proof. exact NewBufferSize_ok. Qed.
Print Assumptions c02_buffers_are_wf.
(** every state reached from a new buffer by any history of calls is [wf]: see C22 *)
Example c02_example : V2Model.wf V2Model.NewBuffer /\ V2Model.Bytes V2Model.NewBuffer = Ok [] /\
  Forall valid [VU64 (2 ^ 64 - 1); VBytes [7]; VF32 1] /\ small_bytes [VU64 (2 ^ 64 - 1); VBytes [7]; VF32 1].
Proof.
  split; [cbv; repeat split; discriminate|]. split; [reflexivity|].
  split; [repeat constructor; cbn; unfold isbyte; lia|].
  intros p [H|[H|[H|[]]]]; try discriminate H. injection H as <-. reflexivity.
Qed.

(** C06: v2 Bytes is the wire encoding below 2^28 and one byte too short from there on. *)
Theorem c06_v2_bytes_boundary : forall g b p, V2Model.wf b -> bytes_ok p -> zlen p < 2 ^ 32 ->
  exists b' l, V2Model.Bytes b = Ok l /\ V2Model.encodeBytes g b p = Ok b' /\
    (zlen p < 2 ^ 28 -> V2Model.Bytes b' = Ok (l ++ wire (VBytes p))) /\
    (2 ^ 28 <= zlen p ->
       V2Model.Bytes b' = Ok (l ++ 4 :: 10 :: ztake 4 (varint (zlen p)) ++ p) /\
       V2Model.Bytes b' <> Ok (l ++ wire (VBytes p)) /\
       V2Model.Len b' = V2Model.Len b + zlen (wire (VBytes p)) - 1).
Proof. exact bytes_boundary. Qed.
Print Assumptions c06_v2_bytes_boundary.
(** ... and neither decoder reads that output back as the slice that was encoded *)
Theorem c06_v2_long_bytes_unreadable_refuted : forall W ret p r,
  bytes_ok p -> bytes_ok r -> 2 ^ 28 <= zlen p < 2 ^ 32 ->
  int_ok W ((4 :: 10 :: ztake 4 (varint (zlen p)) ++ p) ++ r) ->
  V1Model.decode W None RBytes ((4 :: 10 :: ztake 4 (varint (zlen p)) ++ p) ++ r) <> Done r (VBytes p) /\
  V2Model.decode W ret RBytes ((4 :: 10 :: ztake 4 (varint (zlen p)) ++ p) ++ r) <> Done r (VBytes p).
Proof. exact bad_bytes_not_decoded. Qed.
Print Assumptions c06_v2_long_bytes_unreadable_refuted.
(** strings and errors of the same length are right *)
Theorem c06_v2_strings_right : forall g b p, V2Model.wf b -> bytes_ok p -> zlen p < 2 ^ 32 ->
  exists b1 b2 l, V2Model.Bytes b = Ok l /\
    V2Model.encodeString g b p = Ok b1 /\ V2Model.Bytes b1 = Ok (l ++ wire (VString p)) /\
    V2Model.encodeError g b p = Ok b2 /\ V2Model.Bytes b2 = Ok (l ++ wire (VError p)).
Proof. exact strings_right. Qed.
Print Assumptions c06_v2_strings_right.
Example c06_example : exists p, bytes_ok p /\ 2 ^ 28 <= zlen p < 2 ^ 32.
Proof.
  exists (repeat 0 (Z.to_nat (2 ^ 28))). rewrite zlen_repeat, Z2Nat.id by lia. split; [|lia].
  apply Forall_forall. intros x Hx. apply repeat_spec in Hx. subst. unfold isbyte. lia.
Qed.

(** C07: sizes.  A varint has at most m digits iff the number is below 128^m; it is the shortest
    and the only shortest digit string for its number; its last digit is not zero. *)
Theorem c07_varint_size : forall n m, 0 <= n < 2 ^ 64 -> 0 < m -> zlen (varint n) <= m <-> n < 128 ^ m.
Proof. exact varint_size. Qed.
Print Assumptions c07_varint_size.
Theorem c07_varint_minimal : forall n ds, 0 <= n < 2 ^ 64 -> ds <> [] -> dval ds = n ->
  zlen (varint n) <= zlen ds.
Proof. exact varint_minimal. Qed.
Print Assumptions c07_varint_minimal.
Theorem c07_varint_unique : forall n k b ds r, 0 <= n < 2 ^ 64 -> vsplit k b ds r -> bytes_ok ds ->
  dval ds = n -> zlen ds = zlen (varint n) -> ds = varint n.
Proof. exact varint_unique. Qed.
Print Assumptions c07_varint_unique.
Theorem c07_varint_last_digit : forall n cs l, 0 <= n < 2 ^ 64 -> varint n = cs ++ [l] -> n <> 0 -> l <> 0.
Proof. exact varint_last. Qed.
Print Assumptions c07_varint_last_digit.
Theorem c07_size_bound : forall v, valid v -> zlen (wire v) <= max_size v.
Proof. exact wire_size. Qed.
Print Assumptions c07_size_bound.
Theorem c07_bound_reached : forall v, valid v ->
  (forall p, v = VBytes p \/ v = VString p \/ v = VError p -> 2 ^ 28 <= zlen p) ->
  exists v', valid v' /\ want v' = want v /\ zlen (wire v') = max_size v' /\ max_size v' = max_size v.
Proof. exact wire_size_reached. Qed.
Print Assumptions c07_bound_reached.
(** the constants v2 passes to Grow are these bounds *)
Theorem c07_v2_reservations : forall v,
  max_size v = match v with
  | VNil => V2Model.nilSize | VMap _ _ _ => V2Model.mapSize | VSlice _ _ => V2Model.sliceSize
  | VBytes p => V2Model.bytesSize + zlen p | VString p => V2Model.stringSize + zlen p
  | VError p => V2Model.errorSize + zlen p | VBool _ => V2Model.boolSize | VU8 _ => V2Model.uint8Size
  | VU16 _ => V2Model.uint16Size | VU32 _ | VI32 _ => V2Model.uint32Size
  | VU64 _ | VI64 _ => V2Model.uint64Size | VF32 _ => V2Model.float32Size | VF64 _ => V2Model.float64Size
  end.
Proof. exact reservations. Qed.
Print Assumptions c07_v2_reservations.
Example c07_example : zlen (wire (VU16 65535)) = 4 /\ zlen (wire (VU32 (2 ^ 32 - 1))) = 6 /\
  zlen (wire (VI64 (- 2 ^ 63))) = 11 /\ dval [128; 0] = 0 /\ varint 0 = [0].
Proof. repeat split. Qed.

(** C08: unique decodability. *)
Theorem c08_uniquely_decodable : forall vs vs', Forall valid vs -> Forall valid vs' ->
  wires vs = wires vs' -> vs = vs'.
Proof. exact wires_inj. Qed.
Print Assumptions c08_uniquely_decodable.
Theorem c08_prefix_free : forall v v' r r', valid v -> valid v' -> wire v ++ r = wire v' ++ r' -> v = v' /\ r = r'.
Proof. exact wire_inj. Qed.
Print Assumptions c08_prefix_free.
Example c08_example : valid (VU16 300) /\ valid (VU32 300) /\ wire (VU16 300) <> wire (VU32 300).
Proof. cbn; repeat split; try lia. discriminate. Qed.

(** C09: zig-zag is a bijection between the signed and the unsigned range of every width ... *)
Theorem c09_zigzag_bijection : forall w, 0 < w ->
  (forall n, - 2 ^ (w - 1) <= n < 2 ^ (w - 1) -> 0 <= zigzag n < 2 ^ w /\ unzigzag (zigzag n) = n) /\
  (forall u, 0 <= u < 2 ^ w -> - 2 ^ (w - 1) <= unzigzag u < 2 ^ (w - 1) /\ zigzag (unzigzag u) = u).
Proof. exact zigzag_bijection. Qed.
Print Assumptions c09_zigzag_bijection.
(** ... m bytes suffice exactly for magnitudes below 128^m / 2 ... *)
Theorem c09_small_is_short : forall n m, - 2 ^ 63 <= n < 2 ^ 63 -> 0 < m ->
  zlen (varint (zigzag n)) <= m <-> - (128 ^ m / 2) <= n < 128 ^ m / 2.
Proof. exact zigzag_size. Qed.
Print Assumptions c09_small_is_short.
(** ... both Go versions transmit every signed value unchanged ... *)
Theorem c09_signed_round_trip : forall W g1 g2 ret n r, - 2 ^ 63 <= n < 2 ^ 63 -> bytes_ok r ->
  forall v, v = VI64 n \/ (- 2 ^ 31 <= n < 2 ^ 31 /\ v = VI32 n) -> int_ok W (wire v ++ r) ->
  exists b1 b2 l, V1Model.encode g1 V1Model.NewBuffer v = Ok b1 /\ V1Model.Bytes b1 = l /\
    V2Model.encode g2 V2Model.NewBuffer v = Ok b2 /\ V2Model.Bytes b2 = Ok l /\
    V1Model.decode W None (want v) (l ++ r) = Done r v /\ V2Model.decode W ret (want v) (l ++ r) = Done r v.
Proof. exact signed_round_trip. Qed.
Print Assumptions c09_signed_round_trip.
(** ... and what the decoders return is always in the type's range (for every kind). *)
Theorem c09_decoded_in_range : forall W ret q b r v, bytes_ok b -> int_ok W b -> req_ok q ->
  V1Model.decode W None q b = Done r v \/ V2Model.decode W ret q b = Done r v -> valid v /\ want v = q.
Proof. exact decoded_in_range. Qed.
Print Assumptions c09_decoded_in_range.
Example c09_example : wire (VI32 (- 2 ^ 31)) = [12; 255; 255; 255; 255; 15] /\
  V2Model.decode 64 [] RI32 [12; 255; 255; 255; 255; 15] = Done [] (VI32 (- 2 ^ 31)) /\
  V1Model.decode 32 None RI32 [12; 255; 255; 255; 255; 15; 1] = Done [1] (VI32 (- 2 ^ 31)).
Proof. repeat split. Qed.

(** C10: floats are their bit pattern, and every bit pattern is accepted. *)
Theorem c10_float32 : forall W ret p r, zlen p = 4 -> bytes_ok (p ++ r) -> int_ok W (14 :: p ++ r) ->
  V1Model.decode W None RF32 (14 :: p ++ r) = Done r (VF32 (be_value p)) /\
  V2Model.decode W ret RF32 (14 :: p ++ r) = Done r (VF32 (be_value p)) /\
  wire (VF32 (be_value p)) = 14 :: p.
Proof. exact float32_all. Qed.
Print Assumptions c10_float32.
Theorem c10_float64 : forall W ret p r, zlen p = 8 -> bytes_ok (p ++ r) -> int_ok W (15 :: p ++ r) ->
  V1Model.decode W None RF64 (15 :: p ++ r) = Done r (VF64 (be_value p)) /\
  V2Model.decode W ret RF64 (15 :: p ++ r) = Done r (VF64 (be_value p)) /\
  wire (VF64 (be_value p)) = 15 :: p.
Proof. exact float64_all. Qed.
Print Assumptions c10_float64.
Theorem c10_round_trip : forall W ret v r, (exists n, v = VF32 n \/ v = VF64 n) -> valid v -> bytes_ok r ->
  int_ok W (wire v ++ r) ->
  V1Model.decode W None (want v) (wire v ++ r) = Done r v /\
  V2Model.decode W ret (want v) (wire v ++ r) = Done r v.
Proof. exact float_round_trip. Qed.
Print Assumptions c10_round_trip.
Example c10_example : V1Model.decode 64 None RF32 [14; 127; 192; 0; 1; 5] = Done [5] (VF32 (127 * 2 ^ 24 + 192 * 2 ^ 16 + 1)).
Proof. reflexivity. Qed.
