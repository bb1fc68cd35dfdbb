(** Property theorems: the Rust crate (C33-C37, C43, C51).  Specification: Spec.v, GoSpec.v,
    RustSpec.v, Utf8.v.  [RustModel.encode_all c vs] are encoder calls on cursor [c];
    [RustModel.decode rt q c] is the decoder call [q], [rt] the standard library's treatment of short
    reads and the pointer width. *)
From Verif Require Import Base Spec Utf8 GoSpec BufSpec RustModel RustSpec RustEnc RustThms2.
From Verif Require V1Model V2Model.

(** C33: the encoder writes exactly the wire encodings at the cursor. *)
Theorem c33_rust_encoder_appends_wire : forall l vs, Forall rust_valid vs ->
  encode_all (mkcur l (zlen l)) vs = Ok (mkcur (l ++ wires vs) (zlen (l ++ wires vs))).
Proof. exact enc_rust_end. Qed.
Print Assumptions c33_rust_encoder_appends_wire.
Theorem c33_rust_encoder_anywhere : forall c vs, 0 <= pos c -> Forall rust_valid vs -> vs <> [] ->
  encode_all c vs = Ok (mkcur (put_at (buf c) (pos c) (wires vs)) (pos c + zlen (wires vs))).
Proof. exact enc_rust. Qed.
Print Assumptions c33_rust_encoder_anywhere.
Example c33_example : Forall rust_valid [VMap 1 5 16; VString [195; 169]; VI64 (-3)] /\
  put_at [1; 2; 3; 4] 1 [8; 9] = [1; 8; 9; 4] /\ put_at [1] 3 [8] = [1; 0; 0; 8] /\
  encode_all (mkcur [1; 2; 3; 4] 1) [VU8 9] = Ok (mkcur [1; 8; 9; 4] 3).
Proof.
  split; [|repeat split]. repeat constructor; cbn; unfold rust_kind, isbyte; try lia.
  apply from_utf8_iff. reflexivity.
Qed.

(** C34: round trip; the cursor ends exactly behind the encoding. *)
Theorem c34_rust_round_trip : forall rt l vs r, Forall rust_valid vs ->
  bytes_ok (l ++ wires vs ++ r) -> int_ok (W rt) (l ++ wires vs ++ r) ->
  exists c, encode_all (mkcur l (zlen l)) vs = Ok c /\
    decode_all rt (map want vs) (mkcur (buf c ++ r) (zlen l)) = ROk vs (mkcur (buf c ++ r) (zlen (buf c))).
Proof. exact rust_round. Qed.
Print Assumptions c34_rust_round_trip.
Example c34_example :
  decode_all (mkrt false 64) [RMap 5 16; RString; RI64] (mkcur [2; 5; 16; 10; 1; 5; 10; 2; 195; 169; 13; 5; 77] 0)
  = ROk [VMap 1 5 16; VString [195; 169]; VI64 (-3)] (mkcur [2; 5; 16; 10; 1; 5; 10; 2; 195; 169; 13; 5; 77] 12).
Proof. reflexivity. Qed.

(** C35: exactly which error and which position a failed call leaves. *)
Theorem c35_rust_after_failure : forall rt q c e c', rust_req q -> cursor_ok rt c ->
  decode rt q c = RErr e c' <-> exists r, rfails rt q (rest c) r e /\ c' = at_rest c r.
Proof. exact dec_rust_err. Qed.
Print Assumptions c35_rust_after_failure.
(** a failed array or map probe does not restore the position *)
Theorem c35_probe_restores_refuted : forall rt,
  decode rt (RSlice 5) (mkcur [9; 3; 0] 0) = RErr InvalidU32 (mkcur [9; 3; 0] 1) /\
  decode rt (RMap 5 9) (mkcur [9; 3; 0] 0) = RErr InvalidMap (mkcur [9; 3; 0] 2) /\
  decode rt RError (mkcur [9; 3; 0] 0) = RErr InvalidError (mkcur [9; 3; 0] 0) /\
  decode rt RU16 (mkcur [10; 3; 0] 0) = RErr InvalidU32 (mkcur [10; 3; 0] 0).
Proof. intros rt. repeat split. Qed.
Print Assumptions c35_probe_restores_refuted.
Example c35_example : rfails (mkrt true 64) RU16 [9; 128; 128; 128; 5] [128; 5] InvalidU32 /\
  decode (mkrt true 64) RU16 (mkcur [9; 128; 128; 128; 5] 0) = RErr InvalidU32 (mkcur [9; 128; 128; 128; 5] 3) /\
  decode (mkrt true 64) RBytes (mkcur [4; 10; 3; 1] 0) = RErr InvalidBytes (mkcur [4; 10; 3; 1] 4) /\
  decode (mkrt false 64) RBytes (mkcur [4; 10; 3; 1] 0) = RErr InvalidBytes (mkcur [4; 10; 3; 1] 3).
Proof.
  split; [|repeat split].
  apply (F_long (mkrt true 64) RU16 [128; 128] 128 [5]); [exact I|reflexivity|repeat constructor; lia].
Qed.

(** C36: no panic on 64-bit targets, exact panic set, the cursor only moves forward. *)
Theorem c36_rust_no_panic_64 : forall rt q c, W rt = 64 -> rust_req q -> cursor_ok rt c -> decode rt q c <> RPanic.
Proof. exact dec_64_no_panic. Qed.
Print Assumptions c36_rust_no_panic_64.
Theorem c36_rust_panic_set : forall rt q c, rust_req q -> cursor_ok rt c ->
  decode rt q c = RPanic <-> rpanics rt q (rest c).
Proof. exact dec_rust_panic. Qed.
Print Assumptions c36_rust_panic_set.
Theorem c36_rust_success_advances : forall rt q c v c', rust_req q -> cursor_ok rt c -> decode rt q c = ROk v c' ->
  buf c' = buf c /\ pos c < pos c' <= zlen (buf c) /\ rest c = ztake (pos c' - pos c) (rest c) ++ rest c'.
Proof. exact dec_moves. Qed.
Print Assumptions c36_rust_success_advances.
Theorem c36_rust_failure_forward : forall rt q c e c', rust_req q -> cursor_ok rt c -> decode rt q c = RErr e c' ->
  buf c' = buf c /\ pos c <= pos c' <= zlen (buf c).
Proof. exact dec_err_forward. Qed.
Print Assumptions c36_rust_failure_forward.
Theorem c36_rust_any_sequence : forall rt q c, rust_req q -> cursor_ok rt c ->
  match decode rt q c with ROk _ c' | RErr _ c' => cursor_ok rt c' | RPanic => True end.
Proof. exact dec_keeps_ok. Qed.
Print Assumptions c36_rust_any_sequence.
Example c36_example : decode (mkrt true 32) RBytes (mkcur [4; 10; 128; 128; 128; 128; 8] 0) = RPanic /\
  decode (mkrt true 64) RBytes (mkcur [4; 10; 128; 128; 128; 128; 8] 0)
  = RErr InvalidBytes (mkcur [4; 10; 128; 128; 128; 128; 8] 7) /\
  cursor_ok (mkrt true 64) (mkcur [4; 10; 128; 128; 128; 128; 8] 0).
Proof.
  repeat split; cbn; try lia; try (cbv; discriminate); auto. repeat constructor; unfold isbyte; lia.
Qed.

(** C37: Go and Rust read each other's output. *)
Theorem c37_go_to_rust : forall rt g1 g2 b1 b2 vs r,
  V1Model.wf b1 -> V1Model.Bytes b1 = [] -> V2Model.wf b2 -> V2Model.Bytes b2 = Ok [] ->
  Forall rust_valid vs -> small_bytes vs -> bytes_ok r -> int_ok (W rt) (wires vs ++ r) ->
  exists b1' b2' l, V1Model.encode_all g1 b1 vs = Ok b1' /\ V1Model.Bytes b1' = l /\
    V2Model.encode_all g2 b2 vs = Ok b2' /\ V2Model.Bytes b2' = Ok l /\
    decode_all rt (map want vs) (mkcur (l ++ r) 0) = ROk vs (mkcur (l ++ r) (zlen l)).
Proof. exact go_to_rust. Qed.
Print Assumptions c37_go_to_rust.
Theorem c37_rust_to_go : forall W ret l vs r, Forall rust_valid vs -> bytes_ok r -> int_ok W (wires vs ++ r) ->
  exists c, encode_all (mkcur l (zlen l)) vs = Ok c /\
    read_all (V1Model.decode W None) (map want vs) (zdrop (zlen l) (buf c) ++ r) = Some (vs, r) /\
    read_all (V2Model.decode W ret) (map want vs) (zdrop (zlen l) (buf c) ++ r) = Some (vs, r).
Proof. exact rust_to_go. Qed.
Print Assumptions c37_rust_to_go.
(** Go text that is not UTF-8 is an error in Rust, after which decoding can continue behind it *)
Theorem c37_go_text_in_rust : forall rt l p r v, payload_ok p -> v = VString p \/ v = VError p ->
  cursor_ok rt (mkcur (l ++ wire v ++ r) (zlen l)) ->
  (utf8 p -> decode rt (want v) (mkcur (l ++ wire v ++ r) (zlen l)) =
     ROk v (mkcur (l ++ wire v ++ r) (zlen l + zlen (wire v)))) /\
  (~ utf8 p -> decode rt (want v) (mkcur (l ++ wire v ++ r) (zlen l)) =
     RErr (own_err (want v)) (mkcur (l ++ wire v ++ r) (zlen l + zlen (wire v)))).
Proof. exact go_text_iff. Qed.
Print Assumptions c37_go_text_in_rust.
Example c37_example : ~ utf8 [237; 160; 128] /\ utf8 [240; 159; 152; 128] /\
  wire (VString [237; 160; 128]) = [5; 10; 3; 237; 160; 128] /\
  decode (mkrt true 64) RString (mkcur [5; 10; 3; 237; 160; 128] 0) = RErr InvalidString (mkcur [5; 10; 3; 237; 160; 128] 6).
Proof.
  split; [intros H; apply from_utf8_iff in H; discriminate H|].
  split; [apply from_utf8_iff; reflexivity|split; reflexivity].
Qed.

(** C43: Rust and v1 accept the same input, with the same value and rest, except text that is not
    UTF-8; integers are treated alike by v1, v2 and Rust. *)
Theorem c43_rust_accepts_what_v1_accepts : forall rt W' q c, rust_req q -> cursor_ok rt c -> int_ok W' (rest c) ->
  (forall v, (exists c', decode rt q c = ROk v c') <->
             (exists r, V1Model.decode W' None q (rest c) = Done r v) /\ text_ok v) /\
  (forall v c', decode rt q c = ROk v c' -> V1Model.decode W' None q (rest c) = Done (rest c') v).
Proof. exact rust_v1_full. Qed.
Print Assumptions c43_rust_accepts_what_v1_accepts.
Theorem c43_integers_agree : forall rt W' ret q c v, is_int q -> cursor_ok rt c -> int_ok W' (rest c) ->
  ((exists c', decode rt q c = ROk v c' /\ V1Model.decode W' None q (rest c) = Done (rest c') v) <->
   exists r, V1Model.decode W' None q (rest c) = Done r v) /\
  V2Model.decode W' ret q (rest c) = V1Model.decode W' None q (rest c).
Proof. exact go_rust_ints. Qed.
Print Assumptions c43_integers_agree.
(** where Go returns an error or panics, Rust returns an error *)
Theorem c43_otherwise_rust_errs : forall rt W' q c,
  rust_req q -> W rt = 64 \/ ~ has_payload q -> cursor_ok rt c -> int_ok W' (rest c) ->
  (forall r v, V1Model.decode W' None q (rest c) <> Done r v) ->
  exists e c', decode rt q c = RErr e c'.
Proof. exact go_not_done_rust_err. Qed.
Print Assumptions c43_otherwise_rust_errs.
Example c43_example : V1Model.decode 64 None RU32 [10; 128; 129] = Crash /\
  decode (mkrt true 64) RU32 (mkcur [10; 128; 129] 0) = RErr InvalidU32 (mkcur [10; 128; 129] 3) /\
  V1Model.decode 64 None RU32 [10; 255; 255; 255; 255; 127; 3] = Done [3] (VU32 (2 ^ 32 - 1)) /\
  decode (mkrt true 64) RU32 (mkcur [10; 255; 255; 255; 255; 127; 3] 0)
  = ROk (VU32 (2 ^ 32 - 1)) (mkcur [10; 255; 255; 255; 255; 127; 3] 6).
Proof. repeat split. Qed.

(** C51: kinds and bytes. *)
Theorem c51_rust_kind_round_trip : forall k, kind_from (as_u8 k) = k.
Proof. exact kind_bytes. Qed.
Print Assumptions c51_rust_kind_round_trip.
Theorem c51_rust_kind_of_byte : forall n, isbyte n -> as_u8 (kind_from n) = if n <=? 15 then n else 16.
Proof. exact kind_numbers. Qed.
Print Assumptions c51_rust_kind_of_byte.
Example c51_example : kind_from 6 = KError /\ kind_from 200 = KUnknown /\ as_u8 KUnknown = 16.
Proof. repeat split. Qed.
