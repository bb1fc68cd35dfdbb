(** C86, C87: memory shared with the arguments and results of the Go packages. *)
From Verif Require Import Base Spec BufSpec AliasModel AliasSpec AliasThms AliasThms2 AliasThms3.
From Verif Require V1Model V2Model.

(** C86: a client may feed a buffer slices of its own Bytes(), taken at any earlier moment since
    the last Reset, with any encoding, writing and reallocation in between. *)
Theorem c86_v1_own_contents : forall g l b, V1Model.wf b ->
  own_ok_all log1 forget1 (fun _ => ok1) (2 ^ 32) (V1Model.Bytes b, []) l ->
  exists b' hs, acts1 g (b, []) l = Ok (b', hs) /\
    (V1Model.Bytes b', map (cells (arrays1 b')) hs) = fold_left (own_log log1 forget1) l (V1Model.Bytes b, []).
Proof. exact acts1_log. Qed.
Print Assumptions c86_v1_own_contents.
Theorem c86_v2_own_contents : forall g l b p, V2Model.wf b -> V2Model.Bytes b = Ok p ->
  own_ok_all log2 forget2 ok2 (2 ^ 28) (p, []) l ->
  exists b' hs q ss, acts2 g (b, []) l = Ok (b', hs) /\ V2Model.Bytes b' = Ok q /\ map (cells (arrays2 b')) hs = ss /\
    (q, ss) = fold_left (own_log log2 forget2) l (p, []).
Proof. exact acts2_log. Qed.
Print Assumptions c86_v2_own_contents.
(** After a Reset it may not: encoding the slice the buffer held before, the header is stored over
    the front of the slice before the slice is read ... *)
Theorem c86_v1_after_reset_refuted : forall g b, V1Model.wf b -> V1Model.Len b < 2 ^ 32 ->
  V1Model.Len b + 7 <= zlen (V1Model.arr b) ->
  exists b', encodeBytes1 g (V1Model.Reset b) (mkreg (length (V1Model.old b)) 0 (V1Model.Len b)) = Ok b' /\
    V1Model.Bytes b' = hdr (V1Model.Len b) ++
      ztake (V1Model.Len b) (hdr (V1Model.Len b) ++ zdrop (zlen (hdr (V1Model.Len b))) (V1Model.Bytes b)).
Proof. exact after_reset1. Qed.
Print Assumptions c86_v1_after_reset_refuted.
Theorem c86_v2_after_reset_refuted : forall g b l, V2Model.wf b -> V2Model.Bytes b = Ok l -> zlen l < 2 ^ 28 ->
  zlen l + 7 <= V2Model.Cap b ->
  exists b', encodeBytes2 g (V2Model.Reset b) (mkreg (length (V2Model.old b)) 0 (zlen l)) = Ok b' /\
    V2Model.Bytes b' = Ok (hdr (zlen l) ++ ztake (zlen l) (hdr (zlen l) ++ zdrop (zlen (hdr (zlen l))) l)).
Proof. exact after_reset2. Qed.
Print Assumptions c86_v2_after_reset_refuted.
(** ... which is never the encoding of the slice, unless that happens to start with 4 *)
Theorem c86_after_reset_is_wrong : forall l c t, zlen l < 2 ^ 32 -> l = c :: t -> c <> 4 ->
  hdr (zlen l) ++ ztake (zlen l) (hdr (zlen l) ++ zdrop (zlen (hdr (zlen l))) l) <> wire (VBytes l).
Proof. exact reset_corrupts. Qed.
Print Assumptions c86_after_reset_is_wrong.
(** a nested message: encode, keep a slice of it, go on, embed the slice *)
Example c86_example :
  let l := [ROp (V2Model.OEncode (VU8 7)); RTake 0 2; ROp (V2Model.OGrow 4000); RBytes 0; RTake 1 6; RWrite 1; ROp V2Model.OReset; ROp (V2Model.OWrite [1; 2]); RTake 0 1; RBytes 0] in
  V2Model.wf (V2Model.NewBufferSize 8) /\ V2Model.Bytes (V2Model.NewBufferSize 8) = Ok [] /\
  own_ok_all log2 forget2 ok2 (2 ^ 28) ([], []) l /\
  fold_left (own_log log2 forget2) (firstn 6 l) ([], []) = ([8; 7; 4; 10; 2; 8; 7; 7; 4; 10; 2; 8], [[8; 7]; [7; 4; 10; 2; 8]]) /\
  fold_left (own_log log2 forget2) l ([], []) = ([1; 2; 4; 10; 1; 1], [[1]]).
Proof.
  cbv zeta. split; [cbv; intuition discriminate|]. split; [reflexivity|]. split; [|split; reflexivity].
  cbn. unfold zlen; cbn. repeat split; try lia; try discriminate.
Qed.
Example c86_reset_example : exists b',
  encodeBytes2 (fun _ _ => []) (V2Model.Reset (V2Model.mkbuf [] (repeat 1 20) 20 3)) (mkreg 0 0 3) = Ok b' /\
  V2Model.Bytes b' = Ok [4; 10; 3; 4; 10; 3].
Proof. eexists; split; reflexivity. Qed.

(** C87: decoding byte slices into destinations that share no memory with the input or with each
    other: any sequence of calls succeeds or fails as on byte strings; at the end all results read
    as they should, the input and everything else is unchanged, and the results are independent of
    the input and of each other. *)
Theorem c87_v1_calls : forall W sp h d cs, sound h d -> bytes_ok (content h d) -> int_ok W (content h d) ->
  (forall s, In s (dests cs) -> sound h s) -> apart d cs ->
  match read_calls (V1Model.decode W) h cs (content h d) with
  | None => steps (step1 W sp) h d cs = None
  | Some (ws, r) => exists h' d' vs, steps (step1 W sp) h d cs = Some (h', d', vs) /\ content h' d' = r /\
      map (final h') vs = ws /\ content h' d = content h d /\ preserved cs h h' /\ independent cs h h' vs
  end.
Proof.
  intros W sp h d cs H1 H2 H3 H4 H5. pose proof (calls1 W sp h d cs H1 H2 H3 H4 H5) as C.
  destruct (read_calls _ h cs (content h d)) as [[ws r]|]; [|exact C]. destruct C as (h' & d' & vs & E & R & F & G).
  exists h', d', vs. repeat (split; [assumption|]). split; [apply G|]. split; [exact (good_preserved _ _ _ _ _ _ G)|exact (good_unaffected _ _ _ _ _ _ G)].
Qed.
Print Assumptions c87_v1_calls.
Theorem c87_v2_calls : forall W sp h d cs, sound h d -> bytes_ok (content h d) -> int_ok W (content h d) ->
  (forall s, In s (dests cs) -> sound h s) -> apart d cs ->
  match read_all (V2Model.decode W []) (map req cs) (content h d) with
  | None => steps (step2 W sp) h d cs = None
  | Some (ws, r) => exists h' d' vs, steps (step2 W sp) h d cs = Some (h', d', vs) /\ content h' d' = r /\
      map (final h') vs = ws /\ content h' d = content h d /\ preserved cs h h' /\ independent cs h h' vs
  end.
Proof.
  intros W sp h d cs H1 H2 H3 H4 H5. pose proof (calls2 W sp h d cs H1 H2 H3 H4 H5) as C.
  destruct (read_all _ (map req cs) (content h d)) as [[ws r]|]; [|exact C]. destruct C as (h' & d' & vs & E & R & F & G).
  exists h', d', vs. repeat (split; [assumption|]). split; [apply G|]. split; [exact (good_preserved _ _ _ _ _ _ G)|exact (good_unaffected _ _ _ _ _ _ G)].
Qed.
Print Assumptions c87_v2_calls.
(** a single result is right even if the destination overlaps the input *)
Theorem c87_v1_in_place : forall W sp h d dst r p, (forall s, dst = Some s -> sound h s) ->
  bytes_ok (content h d) -> int_ok W (content h d) ->
  V1Model.decode W (option_map (content h) dst) Spec.RBytes (content h d) = Done r (VBytes p) ->
  exists h' d' s, step1 W sp h d (CBytes dst) = HDone h' d' (HSlice s) /\ ocontent h' s = p.
Proof. exact in_place1. Qed.
Print Assumptions c87_v1_in_place.
Theorem c87_v2_in_place : forall W sp h d dst r p, (forall s, dst = Some s -> sound h s) ->
  bytes_ok (content h d) -> int_ok W (content h d) ->
  V2Model.decode W [] Spec.RBytes (content h d) = Done r (VBytes p) ->
  exists h' d' s, step2 W sp h d (CBytes dst) = HDone h' d' (HSlice s) /\ ocontent h' s = p.
Proof. exact in_place2. Qed.
Print Assumptions c87_v2_in_place.
(** but what has not been read yet is then lost: Bytes [1; 2] into the memory of the byte behind it *)
Theorem c87_overlap_refuted : forall W sp, W = 64 \/ W = 32 ->
  let h := [[4; 10; 2; 1; 2; 8; 9]] in let d := mkslice 0 0 7 7 in
  read_all (V2Model.decode W []) [Spec.RBytes; RU8] (content h d) = Some ([VBytes [1; 2]; VU8 9], []) /\
  steps (step2 W sp) h d [CBytes (Some (mkslice 0 4 0 3)); CRead RU8] = None /\
  steps (step1 W sp) h d [CBytes (Some (mkslice 0 4 0 3)); CRead RU8] = None.
Proof. intros W sp [-> | ->]; repeat split; reflexivity. Qed.
Print Assumptions c87_overlap_refuted.
(** and a result passed as destination again (as generated v2 code does with the fields of a struct
    that is decoded into twice) is overwritten *)
Theorem c87_v2_reuse_overwrites : forall W sp h d t r p, sound h t -> bytes_ok (content h d) -> int_ok W (content h d) ->
  V2Model.decode W [] Spec.RBytes (content h d) = Done r (VBytes p) -> zlen p <= scap t ->
  exists h' d' u, step2 W sp h d (CBytes (Some t)) = HDone h' d' (HSlice (Some u)) /\ content h' u = p /\
    content h' t = ztake (slen t) (p ++ zdrop (zlen p) (content h t)).
Proof. exact reuse2. Qed.
Print Assumptions c87_v2_reuse_overwrites.
(** two byte slices and a number, one with a nil destination, one into an array of its own, next to
    memory that is not touched *)
Example c87_example :
  let h := [[4; 10; 2; 1; 2; 4; 10; 1; 3; 8; 9]; [70; 71; 72]] in let d := mkslice 0 0 11 11 in
  let cs := [CBytes None; CBytes (Some (mkslice 1 0 1 2)); CRead RU8] in
  sound h d /\ (forall s, In s (dests cs) -> sound h s) /\ apart d cs /\
  steps (step2 64 (fun _ => [0])) h d cs =
    Some ([[4; 10; 2; 1; 2; 4; 10; 1; 3; 8; 9]; [3; 71; 72]; [1; 2; 0]], mkslice 0 11 0 0,
          [HSlice (Some (mkslice 2 0 2 3)); HSlice (Some (mkslice 1 0 1 2)); HValue (VU8 9)]).
Proof.
  cbv zeta. split; [repeat split; cbn; lia|]. split.
  - intros s [<-|[]]. repeat split; cbn; lia.
  - split; [|reflexivity]. split.
    + intros s a i [<-|[]] [O _] [S _]. cbn in O, S. congruence.
    + intros [|i] [|j] s t a k Hi Hj _ _; cbn in Hi, Hj; try reflexivity; try (destruct i; discriminate Hi); destruct j; discriminate Hj.
Qed.
