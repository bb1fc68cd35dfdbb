(** Property theorems: the C bindings (C44, C45, C56).  Specification: Spec.v, GoSpec.v, RustSpec.v, CSpec.v.
    [c_encode status encoder arg world] and [c_decode rt a status decoder ask world] are calls of the
    polyglot_encode_* and polyglot_decode_* functions ([a]: the address of what is allocated). *)
From Verif Require Import Base Spec Utf8 GoSpec RustModel RustSpec CModel CSpec CThms.

(** C44: an encode call with acceptable arguments passes and appends exactly the value's encoding to
    its own encoder; nothing else changes. *)
Theorem c44_encode_pass : forall s h l a w, encs w h = Some (mkcur l (zlen l)) -> fine a ->
  exists w', c_encode (Some s) (Some h) a w = CDone SPass CVoid w' /\
    encs w' h = Some (mkcur (l ++ wire (meaning a)) (zlen (l ++ wire (meaning a)))) /\ only_enc h w w'.
Proof. exact p_encode_pass. Qed.
Print Assumptions c44_encode_pass.
(** otherwise: NULL data is reported, text that is not UTF-8 fails, in both cases without effect; a
    NULL or unterminated string, or a size beyond the memory, is undefined *)
Theorem c44_encode_refused : forall s h l a w, encs w h = Some (mkcur l (zlen l)) -> carg_ok a ->
  (null_data a -> c_encode (Some s) (Some h) a w = CDone SNullPointer CVoid w) /\
  (~ null_data a -> defined a -> ~ good_text a -> c_encode (Some s) (Some h) a w = CDone SFail CVoid w) /\
  (~ defined a -> c_encode (Some s) (Some h) a w = CUndef).
Proof. exact p_encode_refused. Qed.
Print Assumptions c44_encode_refused.
(** NULL handles *)
Theorem c44_null_handle : forall s a w rt x q, c_encode (Some s) None a w = CDone SNullPointer CVoid w /\
  (q <> QNone -> c_decode rt x (Some s) None q w = CDone SNullPointer (nothing_returned q) w).
Proof. exact p_null. Qed.
Print Assumptions c44_null_handle.
Theorem c44_null_status : forall e a w rt x d q, c_encode None e a w = CAbort /\ c_decode rt x None d q w = CAbort.
Proof. exact p_null_status. Qed.
Print Assumptions c44_null_status.
(** the exception: polyglot_decode_none dereferences a NULL decoder *)
Theorem c44_null_decode_none_refuted : forall rt x s w, c_decode rt x (Some s) None QNone w = CUndef.
Proof. exact dec_null_none. Qed.
Print Assumptions c44_null_decode_none_refuted.
(** Every other decode call does what the Rust decoder does, plus C's view of text. *)
Theorem c44_decode_follows_rust : forall rt a s d c q w, decs w d = Some c -> cursor_ok rt c -> q <> QNone ->
  (forall v c', decode rt (asked q) c = ROk v c' -> c_text v -> exists w',
     c_decode rt a (Some s) (Some d) q w = CDone SPass (returned a v) w' /\
     decs w' d = Some c' /\ delivered a v w' /\ only_dec_at d a w w') /\
  (forall v c', decode rt (asked q) c = ROk v c' -> ~ c_text v -> exists w',
     c_decode rt a (Some s) (Some d) q w = CDone SFail (CPtr None) w' /\ decs w' d = Some c' /\ only_dec d w w') /\
  (forall e c', decode rt (asked q) c = RErr e c' -> exists w',
     c_decode rt a (Some s) (Some d) q w = CDone SFail (nothing_returned q) w' /\ decs w' d = Some c' /\ only_dec d w w') /\
  (decode rt (asked q) c = RPanic -> c_decode rt a (Some s) (Some d) q w = CAbort).
Proof. exact p_decode. Qed.
Print Assumptions c44_decode_follows_rust.
(** in terms of the input alone: Pass exactly on the encodings of the requested kind whose text is UTF-8
    without NUL *)
Theorem c44_decode_pass_iff : forall rt a s d c q w, decs w d = Some c -> cursor_ok rt c -> q <> QNone ->
  (exists r w', c_decode rt a (Some s) (Some d) q w = CDone SPass r w') <->
  (exists t v, accepts false (asked q) (rest c) t v /\ text_ok v /\ c_text v).
Proof. exact p_decode_pass_iff. Qed.
Print Assumptions c44_decode_pass_iff.
(** the exception: polyglot_decode_none answers whether a Nil byte is next and consumes it, and never
    sets the status *)
Theorem c44_decode_none : forall rt a s d c w, decs w d = Some c -> cursor_ok rt c ->
  exists w', c_decode rt a (Some s) (Some d) QNone w =
      CDone s (CTruth (match rest c with x :: _ => x =? 0 | [] => false end)) w' /\ only_dec d w w' /\
    decs w' d = Some (mkcur (buf c) (pos c + match rest c with x :: _ => if x =? 0 then 1 else 0 | [] => 0 end)).
Proof. exact p_none. Qed.
Print Assumptions c44_decode_none.
(** what one call wrote, the matching call reads back *)
Theorem c44_round_trip : forall rt x s h s' d l r w w1 a, encs w h = Some (mkcur l (zlen l)) -> fine a ->
  c_encode (Some s) (Some h) a w = CDone SPass CVoid w1 ->
  bytes_ok (l ++ wire (meaning a) ++ r) -> int_ok (W rt) (l ++ wire (meaning a) ++ r) ->
  (exists c, encs w1 h = Some c /\ buf c = l ++ wire (meaning a)) /\
  (forall u, decs u d = Some (mkcur (l ++ wire (meaning a) ++ r) (zlen l)) -> exists u',
    c_decode rt x (Some s') (Some d) (ask a) u =
      CDone (match a with ANone => s' | _ => SPass end) (returned x (meaning a)) u' /\
    delivered x (meaning a) u' /\
    decs u' d = Some (mkcur (l ++ wire (meaning a) ++ r) (zlen (l ++ wire (meaning a))))).
Proof. exact p_round_trip. Qed.
Print Assumptions c44_round_trip.
(** Whole programs: after any sequence of defined calls on any number of handles, each encoder holds the
    encodings of the values passed to it with status Pass, in order, and each decoder is where the Rust
    decoder would be after the requests made to it. *)
Theorem c44_any_program : forall rt tr w, runs rt nothing_yet tr w -> Forall (call_ok rt) tr ->
  (forall h, encs w h = match enc_log tr h with Some l => Some (mkcur l (zlen l)) | None => None end) /\
  (forall d, decs w d = dec_log rt tr d).
Proof. exact p_history. Qed.
Print Assumptions c44_any_program.
Theorem c44_any_program_encode : forall rt tr1 h a s r tr2 w,
  runs rt nothing_yet (tr1 ++ (Encode (Some h) a, s, r) :: tr2) w ->
  Forall (call_ok rt) (tr1 ++ (Encode (Some h) a, s, r) :: tr2) ->
  s = SPass <-> (fine a /\ enc_log tr1 h <> None).
Proof. exact p_history_encode. Qed.
Print Assumptions c44_any_program_encode.
Theorem c44_any_program_decode : forall rt tr1 d q s r tr2 w,
  runs rt nothing_yet (tr1 ++ (Decode (Some d) q, s, r) :: tr2) w ->
  Forall (call_ok rt) (tr1 ++ (Decode (Some d) q, s, r) :: tr2) -> q <> QNone ->
  exists c, dec_log rt tr1 d = Some c /\ cursor_ok rt c /\ decode rt (asked q) c <> RPanic /\ s <> SNullPointer /\
    (s = SPass <-> exists v c', decode rt (asked q) c = ROk v c' /\ c_text v) /\
    (s <> SPass -> r = nothing_returned q) /\
    (forall v c', decode rt (asked q) c = ROk v c' -> c_text v -> exists a, r = returned a v).
Proof. exact p_history_decode. Qed.
Print Assumptions c44_any_program_decode.
(** a program: encode "hi" and 300, ask for the size, export, decode, free *)
Definition demo : trace :=
  [ (NewEncoder, SPass, CPtr (Some 7%nat));
    (Encode (Some 7%nat) (AString (Some [104; 105; 0; 99])), SPass, CVoid);
    (Encode (Some 7%nat) (AString (Some [255; 0])), SFail, CVoid);
    (Encode (Some 7%nat) (ABytes None 3), SNullPointer, CVoid);
    (Encode (Some 7%nat) (AU16 300), SPass, CVoid);
    (EncoderSize (Some 7%nat), SPass, CNum 8);
    (EncoderBuffer (Some 7%nat) (Some [1; 1; 1; 1; 1; 1; 1; 1; 1]) 8, SPass, CMem [5; 10; 2; 104; 105; 9; 172; 2; 1]);
    (NewDecoder (Some [5; 10; 2; 104; 105; 9; 172; 2; 1]) 8, SPass, CPtr (Some 9%nat));
    (Decode (Some 9%nat) QBytes, SFail, CPtr None);
    (Decode (Some 9%nat) QString, SPass, CPtr (Some 10%nat));
    (Decode (Some 9%nat) QU16, SPass, CNum 300);
    (FreeString (Some 10%nat), SPass, CVoid); (FreeEncoder (Some 7%nat), SPass, CVoid) ].
Example c44_example : (exists w, runs (mkrt true 64) nothing_yet demo w) /\ Forall (call_ok (mkrt true 64)) demo /\
  enc_log (firstn 8 demo) 7 = Some [5; 10; 2; 104; 105; 9; 172; 2] /\
  dec_log (mkrt true 64) demo 9 = Some (mkcur [5; 10; 2; 104; 105; 9; 172; 2] 8) /\
  fine (AString (Some [104; 105; 0; 99])) /\ ~ good_text (AString (Some [255; 0])).
Proof.
  split; [|split; [|split; [reflexivity|split; [reflexivity|split]]]].
  - eexists. unfold demo.
    eapply (Runs_cons _ _ 7 _ SPass); [repeat split|reflexivity|].
    eapply (Runs_cons _ _ 8 _ SPass); [repeat split|reflexivity|].
    eapply (Runs_cons _ _ 8 _ SPass); [repeat split|reflexivity|].
    eapply (Runs_cons _ _ 8 _ SPass); [repeat split|reflexivity|].
    eapply (Runs_cons _ _ 8 _ SPass); [repeat split|reflexivity|].
    eapply (Runs_cons _ _ 8 _ SPass); [repeat split|reflexivity|].
    eapply (Runs_cons _ _ 8 _ SPass); [repeat split|reflexivity|].
    eapply (Runs_cons _ _ 9 _ SPass); [repeat split|reflexivity|].
    eapply (Runs_cons _ _ 10 _ SPass); [repeat split|reflexivity|].
    eapply (Runs_cons _ _ 10 _ SPass); [repeat split|reflexivity|].
    eapply (Runs_cons _ _ 11 _ SPass); [repeat split|reflexivity|].
    eapply (Runs_cons _ _ 11 _ SPass); [repeat split|reflexivity|].
    eapply (Runs_cons _ _ 11 _ SPass); [repeat split|reflexivity|].
    apply Runs_nil.
  - repeat (apply Forall_cons || apply Forall_nil); cbn; try exact I; try lia.
    all: try (intros p E; injection E as <-; split; [repeat constructor; unfold isbyte; lia|reflexivity]).
    all: try (split; [lia|intros p E; discriminate E]).
    split; [repeat constructor; unfold isbyte; lia|]. split; [split; [left; reflexivity|reflexivity]|lia].
  - split; [|split; [intros []|split]].
    + intros p E; injection E as <-; split; [repeat constructor; unfold isbyte; lia|reflexivity].
    + exists [104; 105; 0; 99]. cbn. auto.
    + cbn. apply from_utf8_iff. reflexivity.
  - cbn. intros H. apply from_utf8_iff in H. discriminate H.
Qed.

(** C45: exporting an encoding below 4 GiB: with too small a size nothing is written and the call fails;
    otherwise the whole encoding, and only that, is written. *)
Theorem c45_buffer_exact : forall s e c m n w, encs w e = Some c -> zlen (buf c) < 2 ^ 32 ->
  (n < zlen (buf c) -> polyglot_encoder_buffer (Some s) (Some e) (Some m) n w = CDone SFail (CMem m) w) /\
  (zlen (buf c) <= n <= zlen m ->
     polyglot_encoder_buffer (Some s) (Some e) (Some m) n w =
     CDone SPass (CMem (buf c ++ zdrop (zlen (buf c)) m)) w) /\
  (zlen (buf c) <= n -> zlen m < n -> polyglot_encoder_buffer (Some s) (Some e) (Some m) n w = CUndef).
Proof. exact p_buffer. Qed.
Print Assumptions c45_buffer_exact.
(** at any point of any program: what is exported is the log *)
Theorem c45_any_program_buffer : forall rt tr1 h m n s r tr2 w,
  runs rt nothing_yet (tr1 ++ (EncoderBuffer (Some h) (Some m) n, s, r) :: tr2) w ->
  Forall (call_ok rt) (tr1 ++ (EncoderBuffer (Some h) (Some m) n, s, r) :: tr2) ->
  exists l, enc_log tr1 h = Some l /\
    (zlen l < 2 ^ 32 ->
     (s = SPass <-> zlen l <= n) /\ s <> SNullPointer /\
     r = CMem (if zlen l <=? n then l ++ zdrop (zlen l) m else m)).
Proof. exact p_history_buffer. Qed.
Print Assumptions c45_any_program_buffer.
Theorem c45_any_program_size : forall rt tr1 h s r tr2 w,
  runs rt nothing_yet (tr1 ++ (EncoderSize (Some h), s, r) :: tr2) w ->
  Forall (call_ok rt) (tr1 ++ (EncoderSize (Some h), s, r) :: tr2) ->
  exists l, enc_log tr1 h = Some l /\ r = CNum (zlen l mod 2 ^ 32).
Proof. exact p_history_size. Qed.
Print Assumptions c45_any_program_size.
(** for an encoding of 4 GiB or more the size wraps and the check passes although nothing fits *)
Theorem c45_four_gib_refuted :
  (exists c, zlen (buf c) = 2 ^ 32) /\
  forall s e c w, encs w e = Some c -> zlen (buf c) = 2 ^ 32 ->
  polyglot_encoder_size (Some s) (Some e) w = CDone s (CNum 0) w /\
  polyglot_encoder_buffer (Some s) (Some e) (Some []) 0 w = CDone SPass (CMem []) w.
Proof. split; [exact huge_exists|exact p_buffer_huge]. Qed.
Print Assumptions c45_four_gib_refuted.
Example c45_example :
  let w := set_enc nothing_yet 3 (Some (mkcur [8; 7] 2)) in
  polyglot_encoder_buffer (Some SFail) (Some 3%nat) (Some [1; 1; 1]) 1 w = CDone SFail (CMem [1; 1; 1]) w /\
  polyglot_encoder_buffer (Some SFail) (Some 3%nat) (Some [1; 1; 1]) 3 w = CDone SPass (CMem [8; 7; 1]) w /\
  polyglot_encoder_buffer (Some SFail) (Some 3%nat) (Some [1; 1; 1]) 4 w = CUndef.
Proof. repeat split. Qed.

(** C56: results of decode calls keep their contents until they are freed, whatever else is called; *)
Theorem c56_results_stable : forall rt w tr w', runs rt w tr w' -> forall b p,
  (blobs w b = Some p -> (forall s r, ~ In (FreeBytes (Some b), s, r) tr) -> blobs w' b = Some p) /\
  (strs w b = Some p -> (forall s r, ~ In (FreeString (Some b), s, r) tr) -> strs w' b = Some p).
Proof. exact p_results_stable. Qed.
Print Assumptions c56_results_stable.
(** a string can be freed, once; *)
Theorem c56_free_string : forall a p s w, strs w a = Some p ->
  exists w', polyglot_free_decode_string (Some a) s w = CDone s CVoid w' /\ strs w' a = None /\
     same_but a (strs w) (strs w') /\ encs w' = encs w /\ decs w' = decs w /\ blobs w' = blobs w /\
     polyglot_free_decode_string (Some a) s w' = CUndef.
Proof. exact p_free_string. Qed.
Print Assumptions c56_free_string.
(** freeing bytes is undefined unless there is exactly one byte. *)
Theorem c56_free_bytes : forall b p s w, blobs w b = Some p ->
  (polyglot_free_decode_bytes (Some b) s w <> CUndef <-> zlen p = 1) /\
  (zlen p = 1 -> exists w', polyglot_free_decode_bytes (Some b) s w = CDone s CVoid w' /\ blobs w' b = None /\
     same_but b (blobs w) (blobs w') /\ encs w' = encs w /\ decs w' = decs w /\ strs w' = strs w).
Proof. exact p_free_bytes. Qed.
Print Assumptions c56_free_bytes.
(** a text with an interior NUL: reported as failed, but consumed *)
Theorem c56_interior_nul_refuted :
  let w := set_dec nothing_yet 3 (Some (mkcur [5; 10; 2; 0; 65; 8; 9] 0)) in
  exists w', c_decode (mkrt true 64) 4 (Some SPass) (Some 3%nat) QString w = CDone SFail (CPtr None) w' /\
    decs w' 3 = Some (mkcur [5; 10; 2; 0; 65; 8; 9] 5).
Proof. eexists. split; reflexivity. Qed.
Print Assumptions c56_interior_nul_refuted.
Example c56_example :
  let w := set_blob (set_blob nothing_yet 3 (Some [1; 2])) 4 (Some [1]) in
  polyglot_free_decode_bytes (Some 3%nat) SPass w = CUndef /\
  polyglot_free_decode_bytes (Some 4%nat) SPass w = CDone SPass CVoid (set_blob w 4 None).
Proof. repeat split. Qed.
