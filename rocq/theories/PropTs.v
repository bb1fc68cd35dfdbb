(** Property theorems: the TypeScript encoder and decoder (C38-C42, C52-C54).  Specification: Spec.v,
    TsSpec.v, Utf8.v.  [ts_encode_all e vs s] are encoder calls on [s], [ts_decode e q d] is the
    decoder call [q]; [e] is the engine's treatment of NaN bits. *)
From Verif Require Import Base Spec Utf8 GoSpec RustSpec TsModel TsSpec TsThms TsThms2 TsThms3 TsThms4 TsThms5 TsThms6 TsThms7 TsThms8.
From Verif Require V1Model V2Model RustModel.

Definition eng : engine := {| nan32 := fun _ => 0x7fc00000; nan64 := fun _ => 0x7ff8000000000000 |}.
Example eng_ok : engine_ok eng.
Proof. split; intros b H; (split; [reflexivity|cbn; lia]). Qed.

(** C38: as long as every write fits, [bytes] is what was there followed by the wire encodings. *)
Theorem c38_ts_encoder_appends_wire : forall e vs s b, engine_ok e -> Forall js_ok vs -> holds s b ->
  fits (room_of s) (pos s) (flat_map (parts e) vs) = true ->
  exists s' w, ts_encode_all e vs s = EOk s' /\ holds s' (b ++ twires e vs) /\
    bytes_view s' = Ok w /\ view_content s' w = b ++ twires e vs.
Proof. exact ts_encodes. Qed.
Print Assumptions c38_ts_encoder_appends_wire.
(** a buffer 7 bytes longer than the output is enough *)
Theorem c38_ts_enough_room : forall e vs m, engine_ok e -> Forall js_ok vs ->
  zlen (twires e vs) + 7 <= zlen m ->
  exists s' w, ts_encode_all e vs (newEncoder (Some (m, 0, zlen m))) = EOk s' /\ holds s' (twires e vs) /\
    bytes_view s' = Ok w /\ view_content s' w = twires e vs.
Proof. exact ts_roomy. Qed.
Print Assumptions c38_ts_enough_room.
(** values that are not too large fit any buffer, with any number of reallocations *)
Theorem c38_ts_modest_values : forall e n vs s b, engine_ok e -> Forall js_ok vs -> Forall (modest e n) vs ->
  holds s b -> 9 <= n <= zlen (mem s) ->
  exists s' w, ts_encode_all e vs s = EOk s' /\ holds s' (b ++ twires e vs) /\
    bytes_view s' = Ok w /\ view_content s' w = b ++ twires e vs.
Proof. exact ts_modest. Qed.
Print Assumptions c38_ts_modest_values.
Theorem c38_ts_to_go : forall W ret e vs ws s r, engine_ok e -> Forall js_ok vs ->
  map (value_of e) vs = map Some ws -> holds s [] ->
  fits (room_of s) (pos s) (flat_map (parts e) vs) = true -> bytes_ok r -> int_ok W (wires ws ++ r) ->
  exists s' w, ts_encode_all e vs s = EOk s' /\ bytes_view s' = Ok w /\
    read_all (V1Model.decode W None) (map want ws) (view_content s' w ++ r) = Some (ws, r) /\
    read_all (V2Model.decode W ret) (map want ws) (view_content s' w ++ r) = Some (ws, r).
Proof. exact ts_to_go. Qed.
Print Assumptions c38_ts_to_go.
Example c38_example : holds (newEncoder None) [] /\ holds (newEncoder (Some ([1; 2], 0, 2))) [] /\
  (let vs := [JU64 (2 ^ 55); JError [104; 233]; JArray 3 5] in
   Forall js_ok vs /\ Forall (modest eng 512) vs /\
   fits (room_of (newEncoder None)) 0 (flat_map (parts eng) vs) = true /\
   twires eng [JError [104; 233]; JArray 3 5] = [6; 5; 10; 3; 104; 195; 169; 1; 5; 10; 3]).
Proof.
  split; [exact default_holds|]. split; [exact (new_holds [1; 2])|]. cbn zeta.
  repeat split; repeat constructor; cbn; unfold isbyte; lia.
Qed.

(** C39: a call appends the right bytes iff they fit (in every state with an ArrayBuffer of at least
    three bytes) ... *)
Theorem c39_ts_encode_iff_fits : forall e vs v s b, engine_ok e -> Forall js_ok vs -> js_ok v -> holds s b ->
  3 <= zlen (mem s) -> fits (room_of s) (pos s) (flat_map (parts e) vs) = true ->
  ((exists s', ts_encode_all e (vs ++ [v]) s = EOk s' /\ holds s' (b ++ twires e (vs ++ [v]))) <->
   fits (room_of s) (pos s) (flat_map (parts e) (vs ++ [v])) = true).
Proof. exact ts_sequence_iff. Qed.
Print Assumptions c39_ts_encode_iff_fits.
(** ... otherwise it throws, or silently counts bytes it did not store. *)
Theorem c39_ts_misfit : forall e v s b, engine_ok e -> js_ok v -> holds s b -> 3 <= zlen (mem s) ->
  fits (room_of s) (pos s) (parts e v) = false ->
  (~ silent v /\ exists s', ts_encode e v s = EThrow s') \/
  (silent v /\ exists s', ts_encode e v s = EOk s' /\ blen s' < pos s').
Proof. exact encode_misfit. Qed.
Print Assumptions c39_ts_misfit.
(** For every buffer there are valid calls none of which throws and after which [bytes] is wrong. *)
Theorem c39_ts_wrong_output_refuted : forall e m, engine_ok e -> 1 <= zlen m ->
  exists vs s', Forall js_ok vs /\ ts_encode_all e vs (newEncoder (Some (m, 0, zlen m))) = EOk s' /\
    exists w, bytes_view s' = Ok w /\ view_content s' w <> twires e vs.
Proof.
  intros e m He Hm. destruct (bad_calls_run e m He Hm) as (s' & E & H). exists (bad_calls (zlen m)), s'.
  split; [apply bad_calls_ok|]. split; [exact E|]. destruct (bytes_holds s' _ H) as (w & Hw & Hc).
  exists w. split; [exact Hw|]. rewrite Hc. intros X. apply (bad_calls_wire e (zlen m)). symmetry. exact X.
Qed.
Print Assumptions c39_ts_wrong_output_refuted.
Theorem c39_ts_empty_buffer : forall e, exists s',
  ts_encode_all e [JNull] (newEncoder (Some ([], 0, 0))) = EOk s' /\ bytes_view s' = Panic.
Proof. exact empty_buffer. Qed.
Print Assumptions c39_ts_empty_buffer.
(** over a view that does not start its ArrayBuffer, [bytes] shows what precedes the view *)
Theorem c39_ts_offset_view : forall e m off len, 1 <= off -> 1 <= len -> off + len <= zlen m ->
  exists s' w, ts_encode e JNull (newEncoder (Some (m, off, len))) = EOk s' /\
    bytes_view s' = Ok w /\ view_content s' w = ztake 1 m.
Proof. exact offset_view. Qed.
Print Assumptions c39_ts_offset_view.
(** a new encoder takes a first string of at most 1020 bytes *)
Theorem c39_ts_first_string : forall e u, engine_ok e -> js_string u -> zlen (text_encode u) < 2 ^ 32 ->
  ((exists s', ts_encode e (JString u) (newEncoder None) = EOk s') <-> zlen (text_encode u) <= 1020) /\
  (1020 < zlen (text_encode u) -> exists s', ts_encode e (JString u) (newEncoder None) = EThrow s').
Proof. exact default_string. Qed.
Print Assumptions c39_ts_first_string.
Example c39_example :
  (exists s', ts_encode_all eng [JU16 65535; JNull] (newEncoder (Some ([0; 0; 0], 0, 3))) = EOk s' /\
     holds s' [9; 255; 255; 0; 0]) /\
  twires eng [JU16 65535; JNull] = [9; 255; 255; 3; 0] /\
  js_string (repeat 97 1020) /\ zlen (text_encode (repeat 97 1020)) = 1020 /\
  zlen (text_encode (repeat 97 1021)) = 1021.
Proof.
  split; [eexists; split; [reflexivity|]; unfold holds; vm_compute; repeat split; discriminate|].
  split; [reflexivity|]. split; [|split; vm_compute; reflexivity].
  apply Forall_forall. intros x Hx. apply repeat_spec in Hx. subst. lia.
Qed.

(** C40: what was written is read back as [read_back], and the decoder stands behind it. *)
Theorem c40_ts_reads_valid : forall e v r d, valid v -> dec_ok d -> ahead d = wire v ++ r ->
  ts_decode e (want v) d = DOk (from_wire e v) (moved (zlen (wire v)) d) /\
  ahead (moved (zlen (wire v)) d) = r.
Proof. exact ts_decode_wire. Qed.
Print Assumptions c40_ts_reads_valid.
Theorem c40_ts_round_trip : forall e vs qs r d, engine_ok e -> Forall js_ok vs ->
  map jwant vs = map Some qs -> dec_ok d -> ahead d = twires e vs ++ r ->
  ts_read_all e qs d = DOk (map (read_back e) vs) (moved (zlen (twires e vs)) d) /\
  ahead (moved (zlen (twires e vs)) d) = r.
Proof. exact ts_reads_all. Qed.
Print Assumptions c40_ts_round_trip.
(** which values come back unchanged ... *)
Theorem c40_ts_unchanged : forall e v, engine_ok e -> js_ok v -> unchanged v -> read_back e v = v.
Proof. exact same_back. Qed.
Print Assumptions c40_ts_unchanged.
(** ... and that no others do, but for the bits of a NaN, which stays a NaN *)
Theorem c40_ts_changed : forall e v, js_ok v -> (forall b, v <> JF32 b) -> (forall b, v <> JF64 b) ->
  read_back e v = v -> unchanged v.
Proof. exact changed_back. Qed.
Print Assumptions c40_ts_changed.
Theorem c40_ts_nan : forall e b, engine_ok e ->
  (isnan32 b = true -> exists c, read_back e (JF32 b) = JF32 c /\ isnan32 c = true) /\
  (isnan64 b = true -> exists c, read_back e (JF64 b) = JF64 c /\ isnan64 c = true).
Proof. exact nan_back. Qed.
Print Assumptions c40_ts_nan.
Theorem c40_ts_any : forall e r d, dec_ok d -> ahead d = twire e JAny ++ r ->
  td_any d = DOk JAny (moved 1 d) /\ ahead (moved 1 d) = r.
Proof. exact any_round_trip. Qed.
Print Assumptions c40_ts_any.
(** values lost by the round trip *)
Theorem c40_ts_uint16_refuted : exists n, 0 <= n < 2 ^ 16 /\
  ts_decode eng RU16 (newDecoder (twire eng (JU16 n)) 0 (zlen (twire eng (JU16 n)))) =
  DOk (JU16 (n - 16128)) (moved 4 (newDecoder (twire eng (JU16 n)) 0 (zlen (twire eng (JU16 n))))).
Proof. exists 65535. split; [lia|]. reflexivity. Qed.
Print Assumptions c40_ts_uint16_refuted.
Theorem c40_ts_bom_refuted : exists u, wellformed u /\
  ts_decode eng RString (newDecoder (twire eng (JString u)) 0 (zlen (twire eng (JString u)))) =
  DOk (JString []) (moved 6 (newDecoder (twire eng (JString u)) 0 (zlen (twire eng (JString u))))).
Proof.
  exists [0xFEFF]. split; [|reflexivity]. exists [0xFEFF]. split; [|reflexivity].
  constructor; [unfold scalar_value; lia|constructor].
Qed.
Print Assumptions c40_ts_bom_refuted.
Example c40_example : dec_ok (newDecoder [1; 2; 3] 1 2) /\ ahead (newDecoder [1; 2; 3] 1 2) = [2; 3] /\
  behind (newDecoder [1; 2; 3; 4] 1 2) = [4] /\
  unchanged (JString [0xD83D; 0xDE00]) /\ ~ unchanged (JString [0xD83D]) /\
  read_back eng (JString [0xD83D]) = JString [0xFFFD].
Proof.
  split; [unfold dec_ok; cbn; repeat split; try lia; repeat constructor; unfold isbyte; lia|].
  split; [reflexivity|]. split; [reflexivity|]. split; [|split].
  - split; [|discriminate]. exists [0x1F600]. split; [|reflexivity]. constructor; [unfold scalar_value; lia|constructor].
  - intros [W _]. apply (TsText.wellformed_repaired [0xD83D]) in W. discriminate W.
  - reflexivity.
Qed.

(** C41: a strict prefix of a valid encoding that contains its kind bytes is read as a value, without
    an exception; the remaining length turns negative and any further call throws. *)
Theorem c41_ts_truncated_succeeds : forall e v t s d, valid v ->
  wire v = kind_bytes (want v) ++ t ++ s -> s <> [] -> view_size (want v) = 0 ->
  dec_ok d -> dpos d <= dblen d -> ahead d = kind_bytes (want v) ++ t ->
  exists d', ts_decode e (want v) d = DOk (cut_value v (zlen t)) d' /\ ts_length d' < 0 /\ ahead d' = [].
Proof. exact truncated_succeeds. Qed.
Print Assumptions c41_ts_truncated_succeeds.
Theorem c41_ts_truncated_kinds : forall e v p s d, valid v -> wire v = p ++ s ->
  zlen p < zlen (kind_bytes (want v)) -> dec_ok d -> ahead d = p ->
  exists er d', ts_decode e (want v) d = DThrow (Invalid er) d'.
Proof. exact truncated_kinds. Qed.
Print Assumptions c41_ts_truncated_kinds.
(** uint8 and floats look beyond the decoder's view *)
Theorem c41_ts_truncated_views : forall e v t s d, valid v -> wire v = kind_bytes (want v) ++ t ++ s ->
  0 < view_size (want v) -> dec_ok d -> ahead d = kind_bytes (want v) ++ t ->
  (zlen (t ++ behind d) < view_size (want v) -> ts_decode e (want v) d = DThrow RangeError (moved 1 d)) /\
  (forall p r, t ++ behind d = p ++ r -> zlen p = view_size (want v) ->
     ts_decode e (want v) d = DOk (match want v with
       | RU8 => JU8 (be_value p) | RF32 => JF32 (js32 e (be_value p)) | _ => JF64 (js64 e (be_value p)) end)
       (moved (1 + view_size (want v)) d)).
Proof. exact truncated_views. Qed.
Print Assumptions c41_ts_truncated_views.
Theorem c41_ts_nothing_left : forall e q d, dec_ok d -> ahead d = [] ->
  ts_decode e q d = DThrow (Invalid (error_of q)) d.
Proof. exact nothing_left. Qed.
Print Assumptions c41_ts_nothing_left.
Example c41_example :
  wire (VI32 (-100)) = kind_bytes RI32 ++ [199] ++ [1] /\ cut_value (VI32 (-100)) 1 = JI32 71 /\
  wire (VBytes [7; 8; 9]) = kind_bytes RBytes ++ [3; 7] ++ [8; 9] /\ cut_value (VBytes [7; 8; 9]) 2 = JBytes [7] /\
  ts_decode eng RU8 (newDecoder [8; 99] 0 1) = DOk (JU8 99) (mkdec [8; 99] 0 1 2).
Proof. repeat split. Qed.

(** C42: all decoders agree. *)
Theorem c42_all_decoders_agree : forall W ret rt e v r l, engine_ok e -> rust_valid v -> ts_faithful v ->
  bytes_ok (l ++ wire v ++ r) -> int_ok W (l ++ wire v ++ r) -> int_ok (RustModel.W rt) (l ++ wire v ++ r) ->
  V1Model.decode W None (want v) (wire v ++ r) = Done r v /\
  V2Model.decode W ret (want v) (wire v ++ r) = Done r v /\
  RustModel.decode rt (want v) (RustModel.mkcur (l ++ wire v ++ r) (zlen l)) =
    RustModel.ROk v (RustModel.mkcur (l ++ wire v ++ r) (zlen l + zlen (wire v))) /\
  exists j, ts_decode e (want v) (mkdec (l ++ wire v ++ r) 0 (zlen (l ++ wire v ++ r)) (zlen l)) =
    DOk j (mkdec (l ++ wire v ++ r) 0 (zlen (l ++ wire v ++ r)) (zlen l + zlen (wire v))) /\ value_of e j = Some v.
Proof. exact four_decoders. Qed.
Print Assumptions c42_all_decoders_agree.
(** the exceptions are exact, but for the bits of a NaN *)
Theorem c42_ts_disagrees_otherwise : forall e v, valid v -> (forall b, v <> VF32 b) -> (forall b, v <> VF64 b) ->
  value_of e (from_wire e v) = Some v -> ts_faithful v.
Proof. exact unfaithful. Qed.
Print Assumptions c42_ts_disagrees_otherwise.
Example c42_example : rust_valid (VString [240; 159; 152; 128]) /\ ts_faithful (VString [240; 159; 152; 128]) /\
  ts_faithful (VU16 16383) /\ ts_faithful (VU16 16512) /\ ~ ts_faithful (VU16 16384).
Proof.
  assert (U : utf8 [240; 159; 152; 128]) by (apply from_utf8_iff; reflexivity).
  split; [|split; [|split; [|split]]].
  - split; [|split; [exact I|exact U]]. split; [repeat constructor; unfold isbyte; lia|vm_compute; reflexivity].
  - split; [exact U|discriminate].
  - left. reflexivity.
  - right. reflexivity.
  - intros [H|H]; vm_compute in H; discriminate.
Qed.

(** C52: what [bytes] returned keeps its contents, whatever is encoded afterwards, even by calls that
    throw, and however often the buffer is replaced. *)
Theorem c52_ts_bytes_stable : forall e m off len vs vs' s s' w,
  0 <= off -> 0 <= len -> off + len <= zlen m ->
  ts_encode_all e vs (newEncoder (Some (m, off, len))) = EOk s \/
  ts_encode_all e vs (newEncoder (Some (m, off, len))) = EThrow s ->
  bytes_view s = Ok w -> ts_encode_all e vs' s = EOk s' \/ ts_encode_all e vs' s = EThrow s' ->
  view_content s' w = view_content s w.
Proof. exact ts_bytes_stable. Qed.
Print Assumptions c52_ts_bytes_stable.
Example c52_example : exists s w s' w', ts_encode_all eng [JU8 7] (newEncoder (Some ([0; 0; 0], 0, 3))) = EOk s /\
  bytes_view s = Ok w /\ view_content s w = [8; 7] /\
  ts_encode_all eng [JU8 9] s = EOk s' /\ bytes_view s' = Ok w' /\ fst w <> fst w' /\ view_content s' w = [8; 7] /\
  view_content s' w' = [8; 7; 8; 9].
Proof. do 4 eexists. repeat split; try reflexivity. discriminate. Qed.

(** C53: the decoder's behaviour on any input, in any position, is exactly the relation [treads] /
    [tfails] of TsSpec.v. *)
Theorem c53_ts_decoder_exact : forall e q d, dec_ok d ->
  (forall v d', ts_decode e q d = DOk v d' <->
     exists n, d' = moved n d /\ treads e q (ahead d) (behind d) v n) /\
  (forall er d', ts_decode e q d = DThrow er d' <->
     exists n, d' = moved n d /\ tfails q (ahead d) (behind d) er n).
Proof. exact ts_exact. Qed.
Print Assumptions c53_ts_decoder_exact.
Theorem c53_ts_strings_wellformed : forall p, bytes_ok p -> wellformed (text_decode p).
Proof. exact text_decode_wellformed. Qed.
Print Assumptions c53_ts_strings_wellformed.
Theorem c53_ts_any_exact : forall d, dec_ok d -> (forall r, ahead d <> 3 :: r) ->
  td_any d = DThrow (Invalid ENotNil) d.
Proof. exact any_exact. Qed.
Print Assumptions c53_ts_any_exact.
Example c53_example : treads eng RU32 [10; 128; 128; 128; 128; 128; 1] [] (JU32 0) 6 /\
  tfails RError [6; 4] [] (Invalid EError) 2 /\ text_decode [255; 104] = [0xFFFD; 104].
Proof.
  split; [|split; [|reflexivity]].
  - apply (T_u32 eng _ [] 0 5 false). apply (D_long 5 [128; 128; 128; 128; 128] [1]); [reflexivity|repeat constructor; lia].
  - apply (X_kind RError [(6, EError)] 5 EError [(10, EU32)] [4] []); [reflexivity|discriminate].
Qed.

(** C54: arguments outside the range of the method wrap or corrupt the output, silently. *)
Theorem c54_ts_uint8_wraps : forall e n s b, holds s b -> 2 <= blen s - pos s -> engine_ok e ->
  exists s', ts_encode e (JU8 n) s = EOk s' /\ holds s' (b ++ [8; n mod 256]).
Proof. exact uint8_wraps. Qed.
Print Assumptions c54_ts_uint8_wraps.
Theorem c54_ts_uint32_wraps : forall e n s b, holds s b -> 6 <= blen s - pos s ->
  (0 <= n -> exists ds s', ts_encode e (JU32 n) s = EOk s' /\ holds s' (b ++ 10 :: ds) /\
     vsplit 5 ds ds [] /\ dval ds = n mod 2 ^ 32) /\
  (n < 0 -> exists s', ts_encode e (JU32 n) s = EOk s' /\ holds s' (b ++ [10; n mod 256])).
Proof.
  intros e n s b Hs Hr. destruct (number_wraps n 10 5 s b Hs Hr) as (A & B & _); [lia|unfold isbyte; lia|].
  split; [exact A|exact B].
Qed.
Print Assumptions c54_ts_uint32_wraps.
Theorem c54_ts_uint16_wraps : forall e n s b, holds s b -> 6 <= blen s - pos s ->
  (0 <= n -> exists ds s', ts_encode e (JU16 n) s = EOk s' /\ holds s' (b ++ 9 :: ds) /\
     vsplit 5 ds ds [] /\ dval ds = n mod 2 ^ 32) /\
  (n < 0 -> exists s', ts_encode e (JU16 n) s = EOk s' /\ holds s' (b ++ [9; n mod 256])).
Proof.
  intros e n s b Hs Hr. destruct (number_wraps n 9 3 s b Hs Hr) as (A & B & _); [lia|unfold isbyte; lia|].
  split; [exact A|exact B].
Qed.
Print Assumptions c54_ts_uint16_wraps.
Theorem c54_ts_int32_wraps : forall e n s b, holds s b -> 6 <= blen s - pos s ->
  exists ds s', ts_encode e (JI32 n) s = EOk s' /\ holds s' (b ++ 12 :: ds) /\
     vsplit 5 ds ds [] /\ dval ds = zigzag n mod 2 ^ 32.
Proof.
  intros e n s b Hs Hr. destruct (number_wraps n 12 5 s b Hs Hr) as (_ & _ & C); [lia|unfold isbyte; lia|exact C].
Qed.
Print Assumptions c54_ts_int32_wraps.
(** bigints of any size are written in full *)
Theorem c54_ts_bigints : forall e n s b, holds s b -> 9 <= blen s - pos s ->
  (0 <= n -> exists ds, leb128 n ds /\ (1 + zlen ds <= blen s - pos s ->
     exists s', ts_encode e (JU64 n) s = EOk s' /\ holds s' (b ++ 11 :: ds))) /\
  (n < 0 -> exists s', ts_encode e (JU64 n) s = EOk s' /\ holds s' (b ++ [11; n mod 256])) /\
  (exists ds, leb128 (zigzag n) ds /\ (1 + zlen ds <= blen s - pos s ->
     exists s', ts_encode e (JI64 n) s = EOk s' /\ holds s' (b ++ 13 :: ds))).
Proof.
  intros e n s b Hs Hr. destruct (bigint_any n 11 s b Hs Hr) as (A & B & _); [unfold isbyte; lia|].
  destruct (bigint_any n 13 s b Hs Hr) as (_ & _ & C); [unfold isbyte; lia|]. split; [exact A|split; [exact B|exact C]].
Qed.
Print Assumptions c54_ts_bigints.
Example c54_example : exists s' w, ts_encode_all eng [JU32 (-1); JU32 5; JU32 (2 ^ 32 + 3)] (newEncoder None) = EOk s' /\
  bytes_view s' = Ok w /\ view_content s' w = [10; 255; 10; 5; 10; 131; 0].
Proof. do 2 eexists. split; [reflexivity|]. split; [reflexivity|]. vm_compute. reflexivity. Qed.
