(** Property theorems: Go buffers (C22-C27).  Specification: BufSpec.v (the byte log). *)
From Verif Require Import Base Spec SpecProofs BufSpec GoBuf GoBuf2 GoThms3 GoBuf3.
From Verif Require V1Model V2Model.

(** C22: under any history a v2 Buffer is a byte log. *)
Theorem c22_v2_buffer_is_a_log : forall g ops b l, V2Model.wf b -> V2Model.Bytes b = Ok l -> ok2_all l ops ->
  exists b', V2Model.run g b ops = Ok b' /\ V2Model.wf b' /\
    V2Model.Bytes b' = Ok (fold_left log2 ops l) /\ V2Model.Len b' = zlen (fold_left log2 ops l) /\
    V2Model.Cap b <= V2Model.Cap b'.
Proof. exact run2_api. Qed.
Print Assumptions c22_v2_buffer_is_a_log.
Theorem c22_new_buffer : forall n, 0 <= n ->
  V2Model.wf (V2Model.NewBufferSize n) /\ V2Model.Bytes (V2Model.NewBufferSize n) = Ok [].
Proof. exact NewBufferSize_ok. Qed.
Print Assumptions c22_new_buffer.
Example c22_example : ok2_all [] [V2Model.OWrite [1; 2; 3]; V2Model.OMove (-1); V2Model.OEncode (VU8 9);
    V2Model.OGrow 1000; V2Model.OReset; V2Model.OEncode VNil] /\
  fold_left log2 [V2Model.OWrite [1; 2; 3]; V2Model.OMove (-1); V2Model.OEncode (VU8 9)] [] = [1; 2; 8; 9].
Proof. cbn. repeat split; try lia; intros p H; discriminate H. Qed.

(** C23: Grow. *)
Theorem c23_grow : forall g b n, V2Model.wf b -> 0 <= n -> exists b', V2Model.Grow g b n = Ok b' /\
  V2Model.wf b' /\ V2Model.Bytes b' = V2Model.Bytes b /\ V2Model.Len b' = V2Model.Len b /\
  n <= V2Model.Cap b' - V2Model.Len b' /\ V2Model.Cap b <= V2Model.Cap b' /\
  (n <= V2Model.Cap b - V2Model.Len b -> b' = b) /\
  (V2Model.Cap b - V2Model.Len b < n -> n <= V2Model.Cap b -> 2 * V2Model.Cap b <= V2Model.Cap b') /\
  (V2Model.Cap b < n -> n + V2Model.Cap b <= V2Model.Cap b').
Proof. exact Grow_api. Qed.
Print Assumptions c23_grow.
Example c23_example : exists b, V2Model.Grow (fun _ _ => [7]) (V2Model.mkbuf [] [1; 2; 3] 3 3) 2 = Ok b /\
  V2Model.Cap b = 7 /\ V2Model.Bytes b = Ok [1; 2; 3].
Proof. eexists; repeat split. Qed.

(** C24: a slice shorter than its capacity. *)
Theorem c24_short_slice : forall g b v l, V2Model.Bytes b = Ok l -> V2Model.blen b <= V2Model.Cap b ->
  valid v -> small v ->
  (V2Model.Cap b - V2Model.Len b < max_size v ->
     exists b', V2Model.encode g b v = Ok b' /\ V2Model.Bytes b' = Ok (l ++ wire v)) /\
  (max_size v <= V2Model.Cap b - V2Model.Len b ->
     V2Model.blen b < V2Model.Len b + (zlen (wire v) - zlen (payload_of v)) ->
     V2Model.encode g b v = Panic) /\
  (max_size v <= V2Model.Cap b - V2Model.Len b ->
     V2Model.Len b + (zlen (wire v) - zlen (payload_of v)) <= V2Model.blen b ->
     exists b', V2Model.encode g b v = Ok b' /\
       V2Model.Bytes b' = Ok (l ++ ztake (V2Model.blen b - V2Model.Len b) (wire v))).
Proof. exact loose_encode. Qed.
Print Assumptions c24_short_slice.
Theorem c24_full_slice : forall p, V2Model.wf (V2Model.NewBufferFromBytes p []) /\
  V2Model.Bytes (V2Model.NewBufferFromBytes p []) = Ok [].
Proof. exact NewBufferFromBytes_ok. Qed.
Print Assumptions c24_full_slice.
Theorem c24_write_is_safe : forall g b p l, V2Model.Bytes b = Ok l ->
  exists b', V2Model.Write g b p = Ok b' /\ V2Model.Bytes b' = Ok (l ++ p).
Proof. exact loose_write_api. Qed.
Print Assumptions c24_write_is_safe.
Theorem c24_contract_refuted : forall g,
  V2Model.encode g (V2Model.NewBufferFromBytes [] [0; 0; 0; 0]) VNil = Panic /\
  (exists b, V2Model.encode g (V2Model.NewBufferFromBytes [0; 0; 0; 0] (repeat 0 20)) (VBytes [1; 2; 3]) = Ok b /\
     V2Model.Bytes b = Ok [4; 10; 3; 1]).
Proof. exact from_bytes_refuted. Qed.
Print Assumptions c24_contract_refuted.

(** C25: MoveOffset. *)
Theorem c25_bytes_panics_iff : forall b, V2Model.Bytes b = Panic <-> V2Model.Len b < 0 \/ V2Model.Cap b < V2Model.Len b.
Proof. exact Bytes_panic. Qed.
Print Assumptions c25_bytes_panics_iff.
Theorem c25_move_back : forall b l k, V2Model.Bytes b = Ok l -> 0 <= k <= zlen l ->
  V2Model.Bytes (V2Model.MoveOffset b (- k)) = Ok (ztake (zlen l - k) l).
Proof. exact move_back. Qed.
Print Assumptions c25_move_back.
Theorem c25_move_forward : forall b l k, V2Model.Bytes b = Ok l -> 0 <= k ->
  V2Model.Len b + k <= V2Model.Cap b ->
  exists q, zlen q = k /\ V2Model.Bytes (V2Model.MoveOffset b k) = Ok (l ++ q).
Proof. exact move_forward. Qed.
Print Assumptions c25_move_forward.
(** moving back and forth restores the buffer: nothing is erased *)
Theorem c25_move_inverse : forall b k, V2Model.MoveOffset (V2Model.MoveOffset b k) (- k) = b.
Proof. exact move_move. Qed.
Print Assumptions c25_move_inverse.
Theorem c25_encode_after_move_back : forall g b l k v, V2Model.wf b -> V2Model.Bytes b = Ok l ->
  0 <= k <= zlen l -> valid v -> small v ->
  exists b', V2Model.encode g (V2Model.MoveOffset b (- k)) v = Ok b' /\
    V2Model.Bytes b' = Ok (ztake (zlen l - k) l ++ wire v).
Proof. exact move_then_encode_api. Qed.
Print Assumptions c25_encode_after_move_back.
Example c25_example : V2Model.Bytes (V2Model.MoveOffset (V2Model.mkbuf [] [1; 2; 3; 4] 4 3) (-1)) = Ok [1; 2] /\
  V2Model.Bytes (V2Model.MoveOffset (V2Model.mkbuf [] [1; 2; 3; 4] 4 3) 1) = Ok [1; 2; 3; 4] /\
  V2Model.Bytes (V2Model.MoveOffset (V2Model.mkbuf [] [1; 2; 3; 4] 4 3) 2) = Panic.
Proof. repeat split. Qed.

(** C26: slices handed out by v2 Bytes() survive appending. *)
Theorem c26_v2_views_stable : forall g ops b l, V2Model.wf b -> V2Model.Bytes b = Ok l -> ok2_all l ops ->
  Forall appends2 ops ->
  exists b', V2Model.run g b ops = Ok b' /\ V2Model.read_view b' (V2Model.view b) = l.
Proof. exact view2_api. Qed.
Print Assumptions c26_v2_views_stable.
(** ... but not a Reset followed by a write that fits *)
Theorem c26_v2_reset_overwrites_refuted : forall g b p, V2Model.wf b -> zlen p <= V2Model.Cap b ->
  V2Model.Len b <= zlen p ->
  exists b', V2Model.Write g (V2Model.Reset b) p = Ok b' /\
    V2Model.read_view b' (V2Model.view b) = ztake (V2Model.Len b) p.
Proof. exact view2_reset. Qed.
Print Assumptions c26_v2_reset_overwrites_refuted.
Example c26_example : Forall appends2 [V2Model.OWrite [1; 2; 3]; V2Model.OGrow 4000; V2Model.OEncode (VU64 77)].
Proof. repeat constructor. Qed.

(** C27: slices handed out by v1 Bytes() survive appending. *)
Theorem c27_v1_views_stable : forall g ops b, V1Model.wf b -> Forall ok1 ops -> Forall appends1 ops ->
  exists b', V1Model.run g b ops = Ok b' /\ V1Model.read_view b' (V1Model.view b) = V1Model.Bytes b.
Proof. exact view1_api. Qed.
Print Assumptions c27_v1_views_stable.
Theorem c27_v1_buffer_is_a_log : forall g ops b, V1Model.wf b -> Forall ok1 ops ->
  exists b', V1Model.run g b ops = Ok b' /\ V1Model.wf b' /\
    V1Model.Bytes b' = fold_left log1 ops (V1Model.Bytes b).
Proof. exact run1_api. Qed.
Print Assumptions c27_v1_buffer_is_a_log.
Theorem c27_v1_reset_overwrites : forall g b p, V1Model.wf b -> zlen p <= zlen (V1Model.arr b) ->
  V1Model.len b <= zlen p ->
  V1Model.read_view (V1Model.Write g (V1Model.Reset b) p) (V1Model.view b) = ztake (V1Model.len b) p.
Proof. exact view1_reset. Qed.
Print Assumptions c27_v1_reset_overwrites.
Example c27_example : V1Model.wf V1Model.NewBuffer /\
  Forall ok1 [V1Model.OWrite [1]; V1Model.OEncode (VU32 5); V1Model.OReset; V1Model.OEncode VNil].
Proof. split; [cbv; split; discriminate|repeat constructor; cbn; lia]. Qed.
