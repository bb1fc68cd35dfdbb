(** Lemmas in the exact form of the Go buffer property theorems. *)
From Verif Require Import Base Spec SpecProofs BufSpec GoBuf GoBuf2.
From Verif Require V1Model V2Model V1Enc V2Enc.

Lemma NewBufferFromBytes_ok p : V2Model.wf (V2Model.NewBufferFromBytes p []) /\
  V2Model.Bytes (V2Model.NewBufferFromBytes p []) = Ok [].
Proof.
  destruct (NewBufferFromBytes_wf p) as [W C]. split; [exact W|].
  rewrite V2Enc.Bytes_content by exact W. rewrite C. reflexivity.
Qed.
Lemma loose_write_api g b p l : V2Model.Bytes b = Ok l ->
  exists b', V2Model.Write g b p = Ok b' /\ V2Model.Bytes b' = Ok (l ++ p).
Proof.
  intros E. assert (H : 0 <= V2Model.off b <= V2Model.Cap b /\ l = V2Enc.content b).
  { unfold V2Model.Bytes in E. destruct (Z.ltb_spec (V2Model.off b) 0); [discriminate E|].
    destruct (Z.ltb_spec (V2Model.Cap b) (V2Model.off b)); [discriminate E|]. cbn [orb] in E.
    injection E as <-. split; [lia|reflexivity]. }
  destruct H as [H ->]. apply loose_write. exact H.
Qed.
Lemma from_bytes_refuted g :
  V2Model.encode g (V2Model.NewBufferFromBytes [] [0; 0; 0; 0]) VNil = Panic /\
  (exists b, V2Model.encode g (V2Model.NewBufferFromBytes [0; 0; 0; 0] (repeat 0 20)) (VBytes [1; 2; 3]) = Ok b /\
     V2Model.Bytes b = Ok [4; 10; 3; 1]).
Proof. split; [reflexivity|]. eexists; split; reflexivity. Qed.
Lemma move_then_encode_api g b l k v : V2Model.wf b -> V2Model.Bytes b = Ok l ->
  0 <= k <= zlen l -> valid v -> small v ->
  exists b', V2Model.encode g (V2Model.MoveOffset b (- k)) v = Ok b' /\
    V2Model.Bytes b' = Ok (ztake (zlen l - k) l ++ wire v).
Proof. intros Hw E Hk Hv Hs. apply move_then_encode; try assumption. apply small_fits2. exact Hs. Qed.
Lemma view1_api g ops b : V1Model.wf b -> Forall ok1 ops -> Forall appends1 ops ->
  exists b', V1Model.run g b ops = Ok b' /\ V1Model.read_view b' (V1Model.view b) = V1Model.Bytes b.
Proof.
  intros Hw Ho Ha. destruct (run1_ok g ops b Hw Ho) as (b' & R & W & B & S).
  exists b'. split; [exact R|]. apply view1_stable. apply S. exact Ha.
Qed.
Lemma run1_api g ops b : V1Model.wf b -> Forall ok1 ops ->
  exists b', V1Model.run g b ops = Ok b' /\ V1Model.wf b' /\
    V1Model.Bytes b' = fold_left log1 ops (V1Model.Bytes b).
Proof.
  intros Hw Ho. destruct (run1_ok g ops b Hw Ho) as (b' & R & W & B & S). eauto.
Qed.
