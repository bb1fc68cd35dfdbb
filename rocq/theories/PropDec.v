(** Property theorems: Go decoders (C03-C05, C11-C21, C31, C32).
    Specification: Spec.v, GoSpec.v.  [V1Model.decode W dst q b] and [V2Model.decode W ret q b] are
    the decoder call [q] on input [b] with [W]-bit ints and destination [dst]/[ret] for Bytes. *)
From Verif Require Import Base Spec SpecProofs GoLoop GoSpec BufSpec GoProps GoProps2 GoThms GoThms2 GoBuf2 GoThms3.
From Verif Require V1Model V2Model.

(** C03: v1 round trip. *)
Theorem c03_v1_round_trip : forall W g b vs r, V1Model.wf b -> V1Model.Bytes b = [] -> Forall valid vs ->
  bytes_ok r -> int_ok W (wires vs ++ r) ->
  exists b', V1Model.encode_all g b vs = Ok b' /\
    read_all (V1Model.decode W None) (map want vs) (V1Model.Bytes b' ++ r) = Some (vs, r).
Proof. exact round1. Qed.
Print Assumptions c03_v1_round_trip.
Example c03_example : V1Model.wf V1Model.NewBuffer /\ V1Model.Bytes V1Model.NewBuffer = [] /\
  int_ok 64 (wires [VMap 2 5 9; VString [97]; VU16 3] ++ [1; 2]) /\
  read_all (V1Model.decode 64 None) [RMap 5 9; RString; RU16]
    [2; 5; 9; 10; 2; 5; 10; 1; 97; 9; 3; 1; 2] = Some ([VMap 2 5 9; VString [97]; VU16 3], [1; 2]).
Proof. repeat split; try (cbv; discriminate); auto. Qed.

(** C04: v2 round trip. *)
Theorem c04_v2_round_trip : forall W g ret b vs r, V2Model.wf b -> V2Model.Bytes b = Ok [] ->
  Forall valid vs -> small_bytes vs -> bytes_ok r -> int_ok W (wires vs ++ r) ->
  exists b' l, V2Model.encode_all g b vs = Ok b' /\ V2Model.Bytes b' = Ok l /\
    read_all (V2Model.decode W ret) (map want vs) (l ++ r) = Some (vs, r).
Proof. exact round2. Qed.
Print Assumptions c04_v2_round_trip.
Example c04_example : V2Model.wf V2Model.NewBuffer /\ V2Model.Bytes V2Model.NewBuffer = Ok [] /\
  read_all (V2Model.decode 64 [1; 1]) [RMap 5 9; RString; RU16]
    [2; 5; 9; 10; 2; 5; 10; 1; 97; 9; 3; 1; 2] = Some ([VMap 2 5 9; VString [97]; VU16 3], [1; 2]).
Proof. repeat split; cbv; discriminate. Qed.

(** C05: the two versions write the same bytes and read each other's output. *)
Theorem c05_v1_v2_interoperate : forall W g1 g2 ret b1 b2 vs r,
  V1Model.wf b1 -> V1Model.Bytes b1 = [] -> V2Model.wf b2 -> V2Model.Bytes b2 = Ok [] ->
  Forall valid vs -> small_bytes vs -> bytes_ok r -> int_ok W (wires vs ++ r) ->
  exists b1' b2' l,
    V1Model.encode_all g1 b1 vs = Ok b1' /\ V2Model.encode_all g2 b2 vs = Ok b2' /\
    V1Model.Bytes b1' = l /\ V2Model.Bytes b2' = Ok l /\
    read_all (V1Model.decode W None) (map want vs) (l ++ r) = Some (vs, r) /\
    read_all (V2Model.decode W ret) (map want vs) (l ++ r) = Some (vs, r).
Proof. exact interop. Qed.
Print Assumptions c05_v1_v2_interoperate.

(** C11: wrong kind. *)
Theorem c11_v1_wrong_kind : forall W dst q b, bytes_ok b -> int_ok W b -> (forall t, b <> header q ++ t) ->
  V1Model.decode W dst q b = Fail b (error_of q).
Proof. exact dec1_kind. Qed.
Print Assumptions c11_v1_wrong_kind.
Theorem c11_v2_wrong_kind : forall W ret q b, bytes_ok b -> int_ok W b -> (forall t, b <> header q ++ t) ->
  V2Model.decode W ret q b = Fail b (error_of q).
Proof. exact dec2_kind. Qed.
Print Assumptions c11_v2_wrong_kind.
Example c11_example : (forall t, [10; 5] <> header RU16 ++ t) /\ (forall t, [] <> header RNil ++ t) /\
  (forall t, [1; 9; 10; 0] <> header (RSlice 10) ++ t).
Proof. repeat split; intros t; cbn; discriminate. Qed.

(** C12, C13: exactly when a decode call panics. *)
Theorem c12_v1_panics_iff_truncated_varint : forall q b, bytes_ok b -> zlen b < 2 ^ 63 ->
  V1Model.decode 64 None q b = Crash <-> crashes q b.
Proof. exact crash1_64. Qed.
Print Assumptions c12_v1_panics_iff_truncated_varint.
Theorem c13_v2_panics_iff_truncated_varint : forall ret q b, bytes_ok b -> zlen b < 2 ^ 63 ->
  V2Model.decode 64 ret q b = Crash <-> crashes q b.
Proof. exact crash2_64. Qed.
Print Assumptions c13_v2_panics_iff_truncated_varint.
(** so neither decoder can be fed untrusted input *)
Theorem c12_never_panics_refuted : exists b, bytes_ok b /\
  V1Model.decode 64 None RU16 b = Crash /\ V2Model.decode 64 [] RU16 b = Crash /\
  V1Model.decode 64 None RBytes (4 :: 10 :: tl b) = Crash /\
  V2Model.decode 64 [] RBytes (4 :: 10 :: tl b) = Crash.
Proof. exact never_panics_refuted. Qed.
Print Assumptions c12_never_panics_refuted.
Example c12_example : crashes RU64 [11; 255; 128] /\ ~ crashes RU64 [11] /\
  crashes (RMap 5 9) [2; 5; 9; 10; 129] /\ ~ crashes RU16 [9; 128; 128; 128].
Proof.
  split; [exists [255; 128]; split; [reflexivity|]; split; [discriminate|]; split; [reflexivity|repeat constructor; lia]|].
  split; [intros (t & E & H & _); cbn in E; injection E as <-; apply H; reflexivity|].
  split; [exists [129]; split; [reflexivity|]; split; [discriminate|]; split; [reflexivity|repeat constructor; lia]|].
  intros (t & E & _ & H & _). cbn in E. injection E as <-. cbv in H. discriminate H.
Qed.

(** C14: the remaining input is a suffix; progress. *)
Theorem c14_rest_is_suffix : forall W ret q b r, bytes_ok b -> int_ok W b ->
  rest_of (V1Model.decode W None q b) = Some r \/ rest_of (V2Model.decode W ret q b) = Some r ->
  exists c, b = c ++ r.
Proof. exact suffix_both. Qed.
Print Assumptions c14_rest_is_suffix.
Theorem c14_v1_progress : forall W q b r v, bytes_ok b -> int_ok W b ->
  V1Model.decode W None q b = Done r v -> zlen r < zlen b.
Proof. exact dec1_progress. Qed.
Print Assumptions c14_v1_progress.
Theorem c14_v2_progress : forall W ret q b r v, bytes_ok b -> int_ok W b ->
  V2Model.decode W ret q b = Done r v -> (r = b <-> q = RBytes /\ overlong b) /\
  (r = b -> v = VBytes []) /\ (r <> b -> zlen r < zlen b).
Proof. exact progress_v2. Qed.
Print Assumptions c14_v2_progress.
(** the exception is real: v2 succeeds on every such input without consuming anything *)
Theorem c14_v2_no_progress_refuted : forall W ret b, bytes_ok b -> int_ok W b -> overlong b ->
  V2Model.decode W ret RBytes b = Done b (VBytes []).
Proof. exact dec2_overlong. Qed.
Print Assumptions c14_v2_no_progress_refuted.
Example c14_example : overlong [4; 10; 128; 128; 128; 128; 128; 7] /\
  V1Model.decode 64 None RBytes [4; 10; 128; 128; 128; 128; 128; 7] = Fail [10; 128; 128; 128; 128; 128; 7] EBytes.
Proof.
  split; [|reflexivity]. exists [128; 128; 128; 128; 128], [7]. repeat split. repeat constructor; lia.
Qed.

(** C15: what follows does not matter. *)
Theorem c15_v1_extension : forall W q b x r v, bytes_ok (b ++ x) -> int_ok W (b ++ x) ->
  V1Model.decode W None q b = Done r v -> V1Model.decode W None q (b ++ x) = Done (r ++ x) v.
Proof. exact dec1_app. Qed.
Print Assumptions c15_v1_extension.
Theorem c15_v2_extension : forall W ret q b x r v, bytes_ok (b ++ x) -> int_ok W (b ++ x) ->
  V2Model.decode W ret q b = Done r v -> V2Model.decode W ret q (b ++ x) = Done (r ++ x) v.
Proof. exact dec2_app. Qed.
Print Assumptions c15_v2_extension.
Theorem c15_v1_value_is_in_consumed : forall W q b r v, bytes_ok b -> int_ok W b ->
  V1Model.decode W None q b = Done r v ->
  exists c, b = c ++ r /\ forall r', bytes_ok r' -> int_ok W (c ++ r') ->
    V1Model.decode W None q (c ++ r') = Done r' v.
Proof. exact dec1_local. Qed.
Print Assumptions c15_v1_value_is_in_consumed.
Theorem c15_v2_value_is_in_consumed : forall W ret q b r v, bytes_ok b -> int_ok W b ->
  V2Model.decode W ret q b = Done r v -> ~ (q = RBytes /\ overlong b) ->
  exists c, b = c ++ r /\ forall r', bytes_ok r' -> int_ok W (c ++ r') ->
    V2Model.decode W ret q (c ++ r') = Done r' v.
Proof. exact dec2_local. Qed.
Print Assumptions c15_v2_value_is_in_consumed.
Example c15_example : V2Model.decode 64 [] RString [5; 10; 1; 65] = Done [] (VString [65]) /\
  V2Model.decode 64 [] RString ([5; 10; 1; 65] ++ [3]) = Done [3] (VString [65]).
Proof. split; reflexivity. Qed.

(** C16: what a failed call leaves behind, exactly. *)
Theorem c16_v1_after_failure : forall q b r e, bytes_ok b -> zlen b < 2 ^ 63 ->
  V1Model.decode 64 None q b = Fail r e <-> e = error_of q /\ left1 q b r.
Proof. exact fail1_64. Qed.
Print Assumptions c16_v1_after_failure.
Theorem c16_v2_after_failure : forall ret q b r e, bytes_ok b -> zlen b < 2 ^ 63 ->
  V2Model.decode 64 ret q b = Fail r e <-> e = error_of q /\ left2 q b r.
Proof. exact fail2_64. Qed.
Print Assumptions c16_v2_after_failure.
Theorem c16_v1_scalars_atomic : forall W q b r e, bytes_ok b -> int_ok W b -> scalar_req q ->
  V1Model.decode W None q b = Fail r e -> r = b.
Proof. exact dec1_scalar_atomic. Qed.
Print Assumptions c16_v1_scalars_atomic.
Theorem c16_v2_scalars_and_bytes_atomic : forall W ret q b r e, bytes_ok b -> int_ok W b ->
  scalar_req q \/ q = RBytes -> V2Model.decode W ret q b = Fail r e -> r = b.
Proof. exact dec2_scalar_atomic. Qed.
Print Assumptions c16_v2_scalars_and_bytes_atomic.
(** the other calls are not atomic *)
Theorem c16_atomic_refuted :
  V1Model.decode 64 None RString [5; 10; 3; 97] = Fail [97] EString /\
  V2Model.decode 64 [] RString [5; 10; 3; 97] = Fail [97] EString /\
  V1Model.decode 64 None (RSlice 5) [1; 5; 7] = Fail [7] ESlice /\
  V2Model.decode 64 [] (RMap 5 9) [2; 5; 9; 7] = Fail [7] EMap /\
  V1Model.decode 64 None RBytes [4; 10; 3; 97] = Fail [97] EBytes /\
  V2Model.decode 64 [] RError [6; 5; 10; 9] = Fail [] EError.
Proof. repeat split. Qed.
Print Assumptions c16_atomic_refuted.
(** the three cases partition the inputs *)
Theorem c16_v1_every_input : forall q b, bytes_ok b -> zlen b < 2 ^ 63 ->
  (exists r v, accepts false q b r v) \/ (exists r, left1 q b r) \/ crashes q b.
Proof. exact every_input1. Qed.
Print Assumptions c16_v1_every_input.
Theorem c16_v2_every_input : forall q b, bytes_ok b -> zlen b < 2 ^ 63 ->
  (exists r v, accepts true q b r v) \/ (exists r, left2 q b r) \/ crashes q b.
Proof. exact every_input2. Qed.
Print Assumptions c16_v2_every_input.

(** C17: strict prefixes of encodings are rejected. *)
Theorem c17_truncated_never_accepted : forall W ret v p s r v', valid v -> wire v = p ++ s -> s <> [] ->
  int_ok W p ->
  V1Model.decode W None (want v) p <> Done r v' /\ V2Model.decode W ret (want v) p <> Done r v'.
Proof. exact prefix_rejected_go. Qed.
Print Assumptions c17_truncated_never_accepted.
Example c17_example : wire (VBytes [1; 2]) = [4; 10; 2; 1] ++ [2] /\ valid (VBytes [1; 2]).
Proof. split; [reflexivity|]. cbn. split; [repeat constructor; unfold isbyte; lia|reflexivity]. Qed.

(** C18: integers: any varint terminated within the maximum number of digits, reduced. *)
Theorem c18_v1_integers : forall W q t r v, bytes_ok (header q ++ t) -> int_ok W (header q ++ t) ->
  int_value q 0 <> None ->
  V1Model.decode W None q (header q ++ t) = Done r v <->
  exists ds, vsplit (digits q) t ds r /\ int_value q (dval ds) = Some v.
Proof. exact dec1_int. Qed.
Print Assumptions c18_v1_integers.
Theorem c18_v2_integers : forall W ret q t r v, bytes_ok (header q ++ t) -> int_ok W (header q ++ t) ->
  int_value q 0 <> None ->
  V2Model.decode W ret q (header q ++ t) = Done r v <->
  exists ds, vsplit (digits q) t ds r /\ int_value q (dval ds) = Some v.
Proof. exact dec2_int. Qed.
Print Assumptions c18_v2_integers.
Theorem c18_v1_v2_agree : forall W ret q b, bytes_ok b -> int_ok W b -> scalar_req q -> q <> RBool ->
  V1Model.decode W None q b = V2Model.decode W ret q b.
Proof. exact dec_agree. Qed.
Print Assumptions c18_v1_v2_agree.
Example c18_example : V2Model.decode 64 [] RU16 [9; 255; 255; 127] = Done [] (VU16 65535) /\
  dval [255; 255; 127] = 2097151 /\ V1Model.decode 64 None RU32 [10; 133; 128; 0; 9] = Done [9] (VU32 5).
Proof. repeat split. Qed.

(** C19: the destination of v1 Bytes. *)
Theorem c19_v1_destination : forall W dst b r p, bytes_ok b -> int_ok W b ->
  V1Model.decode W None RBytes b = Done r (VBytes p) ->
  V1Model.decode W (Some dst) RBytes b =
  Done r (VBytes (if zlen dst <=? zlen p then p else p ++ zdrop (zlen p) dst)).
Proof. exact dst1. Qed.
Print Assumptions c19_v1_destination.
Theorem c19_v1_exact_iff : forall W dst b r p, bytes_ok b -> int_ok W b ->
  V1Model.decode W None RBytes b = Done r (VBytes p) ->
  V1Model.decode W (Some dst) RBytes b = Done r (VBytes p) <-> zlen dst <= zlen p.
Proof. exact dst1_exact. Qed.
Print Assumptions c19_v1_exact_iff.
Theorem c19_v1_failure_independent : forall W dst b, bytes_ok b -> int_ok W b ->
  (forall r v, V1Model.decode W None RBytes b <> Done r v) ->
  V1Model.decode W (Some dst) RBytes b = V1Model.decode W None RBytes b.
Proof. exact dst1_nofail. Qed.
Print Assumptions c19_v1_failure_independent.
Theorem c19_payload_refuted : V1Model.decode 64 (Some [9; 9; 9]) RBytes [4; 10; 1; 7] = Done [] (VBytes [7; 9; 9]).
Proof. reflexivity. Qed.
Print Assumptions c19_payload_refuted.

(** C20: the destination of v2 Bytes never shows in the result; its memory is overwritten with the
    payload exactly when the payload fits its capacity. *)
Theorem c20_v2_destination : forall W ret q b, bytes_ok b -> int_ok W b ->
  V2Model.decode W ret q b = V2Model.decode W [] q b.
Proof. exact ret2_any. Qed.
Print Assumptions c20_v2_destination.
Theorem c20_v2_destination_memory : forall W ret b r p m,
  V2Model.decodeBytes W ret b = Ok (r, (p, m), None) ->
  m = (if zlen p <=? zlen ret then p ++ zdrop (zlen p) ret else ret).
Proof. exact ret2_memory. Qed.
Print Assumptions c20_v2_destination_memory.
Example c20_example : V2Model.decodeBytes 64 [9; 9; 9] [4; 10; 2; 7; 8; 1] = Ok ([1], ([7; 8], [7; 8; 9]), None) /\
  V2Model.decodeBytes 64 [9] [4; 10; 2; 7; 8; 1] = Ok ([1], ([7; 8], [9]), None).
Proof. split; reflexivity. Qed.

(** C21: booleans. *)
Theorem c21_v1_bool : forall W b r v, bytes_ok b -> int_ok W b ->
  V1Model.decode W None RBool b = Done r v <-> exists x, b = 7 :: x :: r /\ v = VBool (x =? 1).
Proof. exact bool1. Qed.
Print Assumptions c21_v1_bool.
Theorem c21_v2_bool : forall W ret b r v, bytes_ok b -> int_ok W b ->
  V2Model.decode W ret RBool b = Done r v <-> exists t, v = VBool t /\ b = wire (VBool t) ++ r.
Proof. exact bool2. Qed.
Print Assumptions c21_v2_bool.
Example c21_example : V1Model.decode 64 None RBool [7; 2] = Done [] (VBool false) /\
  V2Model.decode 64 [] RBool [7; 2] = Fail [7; 2] EBool.
Proof. split; reflexivity. Qed.

(** C31: errors. *)
Theorem c31_error_round_trip : forall W ret m r, payload_ok m -> bytes_ok r -> int_ok W (wire (VError m) ++ r) ->
  V1Model.decode W None RError (wire (VError m) ++ r) = Done r (VError m) /\
  V2Model.decode W ret RError (wire (VError m) ++ r) = Done r (VError m).
Proof. exact error_round_trip. Qed.
Print Assumptions c31_error_round_trip.
Theorem c31_error_is : forall e1 e2, V2Model.Error_Is e1 (Some e2) = Ok true <-> e1 = e2.
Proof. exact error_is. Qed.
Print Assumptions c31_error_is.
Theorem c31_error_is_not : forall e1 e2, V2Model.Error_Is e1 (Some e2) = Ok false <-> e1 <> e2.
Proof. exact error_is_false. Qed.
Print Assumptions c31_error_is_not.
Example c31_example : V2Model.Error_Is [98; 111] (Some [98; 111]) = Ok true /\
  V2Model.Error_Is [98] (Some [98; 111]) = Ok false /\ V2Model.Error_Is [98] None = Panic.
Proof. repeat split. Qed.

(** C32: a length field that exceeds the input, by int width. *)
Theorem c32_length_check : forall W ret q b ds r, bytes_ok b -> int_ok W b -> has_payload q ->
  b = lead q ++ ds ++ r -> vsplit 5 (ds ++ r) ds r -> zlen r < dval ds mod 2 ^ 32 ->
  (W = 64 \/ dval ds mod 2 ^ 32 <= 2 ^ 31 ->
     (exists r', V1Model.decode W None q b = Fail r' (error_of q)) /\
     (exists r', V2Model.decode W ret q b = Fail r' (error_of q))) /\
  (W = 32 -> 2 ^ 31 < dval ds mod 2 ^ 32 ->
     V1Model.decode W None q b = Crash /\ V2Model.decode W ret q b = Crash).
Proof. exact too_long. Qed.
Print Assumptions c32_length_check.
Theorem c32_payload_within_input : forall W ret q b r v, bytes_ok b -> int_ok W b ->
  V1Model.decode W None q b = Done r v \/ V2Model.decode W ret q b = Done r v ->
  zlen (payload_of v) <= zlen b.
Proof. exact payload_bounds. Qed.
Print Assumptions c32_payload_within_input.
Theorem c32_panic_set : forall W ret q b, bytes_ok b -> int_ok W b ->
  (V1Model.decode W None q b = Crash <-> crashes q b \/ (W = 32 /\ huge_length q b)) /\
  (V2Model.decode W ret q b = Crash <-> crashes q b \/ (W = 32 /\ huge_length q b)).
Proof. exact panic_set. Qed.
Print Assumptions c32_panic_set.
Example c32_example : V1Model.decode 32 None RBytes [4; 10; 255; 255; 255; 255; 15] = Crash /\
  V2Model.decode 32 [] RString [5; 10; 129; 128; 128; 128; 8] = Crash /\
  V2Model.decode 64 [] RString [5; 10; 129; 128; 128; 128; 8] = Fail [] EString /\
  V1Model.decode 32 None RBytes [4; 10; 128; 128; 128; 128; 8] = Fail [] EBytes.
Proof. repeat split. Qed.

(** C55: exactly which inputs succeed, with what value and what remains (any int width, every kind). *)
Theorem c55_v1_success_iff : forall W q b r v, bytes_ok b -> int_ok W b ->
  V1Model.decode W None q b = Done r v <-> accepts false q b r v.
Proof. exact dec1_done. Qed.
Print Assumptions c55_v1_success_iff.
Theorem c55_v2_success_iff : forall W ret q b r v, bytes_ok b -> int_ok W b ->
  V2Model.decode W ret q b = Done r v <-> accepts true q b r v.
Proof. exact dec2_done. Qed.
Print Assumptions c55_v2_success_iff.
Example c55_example : accepts false RString [5; 10; 129; 0; 65; 9] [9] (VString [65]) /\
  accepts true (RMap 5 9) [2; 5; 9; 10; 3] [] (VMap 3 5 9).
Proof.
  split.
  - apply (A_string false _ [129; 0] [65]); [|reflexivity].
    eexists. split; [reflexivity|]. split; [reflexivity|]. split; [cbv; discriminate|].
    exists [129], 0. repeat split. repeat constructor; lia.
  - apply (A_map true 5 9 _ [3]). eexists. split; [reflexivity|]. split; [reflexivity|].
    split; [cbv; discriminate|]. exists [], 3. repeat split. constructor.
Qed.
