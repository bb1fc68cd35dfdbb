(** Property theorems: the pools (C28-C30).  [buf_steps empty_pool tr s]: from an empty pool, the calls in
    [tr] - by any threads, in any interleaving - lead to state [s].  Specification: PoolSpec.v. *)
From Verif Require Import Base Spec BufSpec GoThms3 PoolModel PoolSpec PoolBuf.
From Verif Require V1Model V2Model.
Import V2Model.

(** C28: Get hands out an empty buffer, whatever the owners did with it (including calls that
    panicked, MoveOffset out of range, and buffers they made themselves). *)
Theorem c28_get_is_empty : forall tr t a x s, orderly nothing (tr ++ [EGet t a x]) ->
  buf_steps empty_pool (tr ++ [EGet t a x]) s ->
  exists b, heap s a = Some b /\ Bytes b = Ok [] /\ Len b = 0.
Proof. exact pool_get_empty. Qed.
Print Assumptions c28_get_is_empty.
(** ... and fit for encoding ([wf] is what C02 and C22 start from) unless someone Put a buffer made
    from a slice with spare capacity (C24). *)
Theorem c28_get_is_fit : forall tr t a x s, orderly nothing (tr ++ [EGet t a x]) -> Forall makes_full tr ->
  buf_steps empty_pool (tr ++ [EGet t a x]) s ->
  exists b, heap s a = Some b /\ wf b /\ Bytes b = Ok [].
Proof. exact pool_get_fit. Qed.
Print Assumptions c28_get_is_fit.
(** Every buffer lying in the pool is empty, and none lies there twice. *)
Theorem c28_pooled_buffers_are_empty : forall tr s, orderly nothing tr -> buf_steps empty_pool tr s ->
  NoDup (free s) /\ forall a, In a (free s) -> exists b, heap s a = Some b /\ Bytes b = Ok [].
Proof. exact pool_idle. Qed.
Print Assumptions c28_pooled_buffers_are_empty.
(** Put(nil) is ignored. *)
Theorem c28_put_nil : forall s t s', buf_steps s [EPutNil t] s' -> s' = s.
Proof. intros s t s' H. inversion H; subst. inversion H3; subst. inversion H5; subst. reflexivity. Qed.
Print Assumptions c28_put_nil.
(** a client that writes after Put breaks it *)
Theorem c28_use_after_put_refuted : exists tr s b,
  buf_steps empty_pool (tr ++ [EGet 2%nat 0%nat tt]) s /\ heap s 0%nat = Some b /\ Bytes b = Ok [7].
Proof.
  exists [EGet 1%nat 0%nat tt; EClear 1%nat 0%nat; EPut 1%nat 0%nat; EOp 1%nat 0%nat (OWrite [7])].
  eexists. eexists. split; [|split].
  - cbn [app]. eapply Steps_cons; [apply S_get_new; reflexivity|].
    eapply Steps_cons; [apply S_clear; reflexivity|].
    eapply Steps_cons; [apply (S_put _ _ _ _ _ 1%nat 0%nat [] []); reflexivity|].
    eapply Steps_cons; [eapply S_op; [reflexivity|apply (B_ok _ _ (fun _ _ => [])); reflexivity]|].
    eapply Steps_cons; [eapply (S_get_pool _ _ _ _ _ _ _ _ _ [] []); reflexivity|]. apply Steps_nil.
  - reflexivity.
  - reflexivity.
Qed.
Print Assumptions c28_use_after_put_refuted.
(** the hypotheses are met: a buffer is used, moved out of range, returned and handed out again *)
Example c28_example : exists tr s, orderly nothing (tr ++ [EGet 2%nat 0%nat tt]) /\ Forall makes_full tr /\
  buf_steps empty_pool (tr ++ [EGet 2%nat 0%nat tt]) s /\ In (EOp 1%nat 0%nat (OMove 9999)) tr.
Proof.
  exists [EGet 1%nat 0%nat tt; EOp 1%nat 0%nat (OWrite [7]); EOp 1%nat 0%nat (OMove 9999); EClear 1%nat 0%nat; EPut 1%nat 0%nat].
  eexists. split; [cbn; repeat split; try discriminate|]. split; [repeat constructor|]. split; [|cbn; tauto].
  cbn [app]. eapply Steps_cons; [apply S_get_new; reflexivity|].
  eapply Steps_cons; [eapply S_op; [reflexivity|apply (B_ok _ _ (fun _ _ => [])); reflexivity]|].
  eapply Steps_cons; [eapply S_op; [reflexivity|apply (B_ok _ _ (fun _ _ => [])); reflexivity]|].
  eapply Steps_cons; [eapply S_clear; reflexivity|].
  eapply Steps_cons; [apply (S_put _ _ _ _ _ 1%nat 0%nat [] []); reflexivity|].
  eapply Steps_cons; [eapply (S_get_pool _ _ _ _ _ _ _ _ _ [] []); reflexivity|]. apply Steps_nil.
Qed.

(** C29: a checked-out buffer belongs to one client, is not in the pool, and contains exactly what
    that client's own calls since Get have put into it. *)
Theorem c29_clients_do_not_interfere : forall tr s,
  orderly nothing tr -> Forall makes_full tr -> buf_steps empty_pool tr s ->
  (forall t t' a, histories tr t a <> None -> histories tr t' a <> None -> t = t') /\
  (forall t a x ps, histories tr t a = Some (x, ps) -> ~ In a (free s)) /\
  (forall t a x ps, histories tr t a = Some (x, ps) ->
     ok2_all [] ps -> (forall b, x = inr b -> Bytes b = Ok []) ->
     exists b, heap s a = Some b /\ wf b /\ Bytes b = Ok (fold_left log2 ps [])).
Proof. exact pool_private. Qed.
Print Assumptions c29_clients_do_not_interfere.
(** Putting a buffer twice breaks it: two clients get the same buffer *)
Theorem c29_double_put_refuted : exists tr s b,
  buf_steps empty_pool (tr ++ [EGet 2%nat 0%nat tt; EGet 3%nat 0%nat tt; EOp 3%nat 0%nat (OWrite [7])]) s /\
  heap s 0%nat = Some b /\ Bytes b = Ok [7].
Proof.
  exists [EGet 1%nat 0%nat tt; EClear 1%nat 0%nat; EPut 1%nat 0%nat; EClear 1%nat 0%nat; EPut 1%nat 0%nat].
  eexists. eexists. split; [|split].
  - cbn [app]. eapply Steps_cons; [apply S_get_new; reflexivity|].
    eapply Steps_cons; [eapply S_clear; reflexivity|].
    eapply Steps_cons; [apply (S_put _ _ _ _ _ 1%nat 0%nat [] []); reflexivity|].
    eapply Steps_cons; [eapply S_clear; reflexivity|].
    eapply Steps_cons; [apply (S_put _ _ _ _ _ 1%nat 0%nat [] []); reflexivity|].
    eapply Steps_cons; [eapply (S_get_pool _ _ _ _ _ _ _ _ _ [] [0%nat]); reflexivity|].
    eapply Steps_cons; [eapply (S_get_pool _ _ _ _ _ _ _ _ _ [] []); reflexivity|].
    eapply Steps_cons; [eapply S_op; [reflexivity|apply (B_ok _ _ (fun _ _ => [])); reflexivity]|]. apply Steps_nil.
  - reflexivity.
  - reflexivity.
Qed.
Print Assumptions c29_double_put_refuted.
(** two clients at work at the same time, one of them with a recycled buffer *)
Example c29_example : exists tr s, orderly nothing tr /\ Forall makes_full tr /\ buf_steps empty_pool tr s /\
  histories tr 2%nat 0%nat = Some (inl tt, [OEncode (VU8 5); OWrite [9]]) /\
  histories tr 3%nat 1%nat = Some (inl tt, [OWrite [4]]) /\ ok2_all [] [OEncode (VU8 5); OWrite [9]] /\
  fold_left log2 [OEncode (VU8 5); OWrite [9]] [] = [8; 5; 9].
Proof.
  exists [EGet 1%nat 0%nat tt; EOp 1%nat 0%nat (OWrite [1; 2]); EClear 1%nat 0%nat; EPut 1%nat 0%nat;
     EGet 2%nat 0%nat tt; EGet 3%nat 1%nat tt; EOp 2%nat 0%nat (OEncode (VU8 5)); EOp 3%nat 1%nat (OWrite [4]);
     EOp 2%nat 0%nat (OWrite [9])].
  eexists. split; [cbn; repeat split; try discriminate|]. split; [repeat constructor|].
  split; [|split; [reflexivity|split; [reflexivity|split; [cbn; repeat split; try lia; try discriminate|reflexivity]]]].
  eapply Steps_cons; [apply S_get_new; reflexivity|].
  eapply Steps_cons; [eapply S_op; [reflexivity|apply (B_ok _ _ (fun _ _ => [])); reflexivity]|].
  eapply Steps_cons; [eapply S_clear; reflexivity|].
  eapply Steps_cons; [apply (S_put _ _ _ _ _ 1%nat 0%nat [] []); reflexivity|].
  eapply Steps_cons; [eapply (S_get_pool _ _ _ _ _ _ _ _ _ [] []); reflexivity|].
  eapply Steps_cons; [apply S_get_new; reflexivity|].
  eapply Steps_cons; [eapply S_op; [reflexivity|apply (B_ok _ _ (fun _ _ => [])); reflexivity]|].
  eapply Steps_cons; [eapply S_op; [reflexivity|apply (B_ok _ _ (fun _ _ => [])); reflexivity]|].
  eapply Steps_cons; [eapply S_op; [reflexivity|apply (B_ok _ _ (fun _ _ => [])); reflexivity]|]. apply Steps_nil.
Qed.

(** C30: the v1 decoder pool. *)
(** GetDecoder(b) is positioned at the start of b - even if clients misbehaved before *)
Theorem c30_get_decoder_starts_at_input : forall W tr t a b s,
  dec_steps W empty_pool (tr ++ [EGet t a b]) s -> heap s a = Some b.
Proof. exact dec_get_start. Qed.
Print Assumptions c30_get_decoder_starts_at_input.
(** each decoder has one owner; every call returns what it returns on the owner's own input, and
    what is left is the owner's input less what its own calls consumed *)
Theorem c30_decoders_are_private : forall W tr s, orderly nothing tr -> dec_steps W empty_pool tr s ->
  (forall t t' a, histories tr t a <> None -> histories tr t' a <> None -> t = t') /\
  (forall t a x ps, histories tr t a = Some (x, ps) ->
     ~ In a (free s) /\ own_outcomes W (input_of x) ps /\ heap s a = Some (reading (input_of x) ps)).
Proof. exact decoder_private. Qed.
Print Assumptions c30_decoders_are_private.
(** a decoder lying in the pool holds no client's input any more, and none lies there twice *)
Theorem c30_pooled_decoders_hold_nothing : forall W tr s, orderly nothing tr -> dec_steps W empty_pool tr s ->
  NoDup (free s) /\ forall a, In a (free s) -> heap s a = Some [].
Proof. exact decoders_idle. Qed.
Print Assumptions c30_pooled_decoders_hold_nothing.
(** returning a decoder twice: client 2, which got a decoder for [8; 5], reads client 3's input *)
Theorem c30_double_return_refuted : exists tr s,
  dec_steps 64 empty_pool (tr ++ [EGet 2%nat 0%nat [8; 5]; EGet 3%nat 0%nat [8; 9];
     EOp 2%nat 0%nat (RU8, Done [] (VU8 9))]) s.
Proof.
  exists [EGet 1%nat 0%nat [0]; EClear 1%nat 0%nat; EPut 1%nat 0%nat; EClear 1%nat 0%nat; EPut 1%nat 0%nat].
  eexists. cbn [app]. eapply Steps_cons; [apply S_get_new; reflexivity|].
  eapply Steps_cons; [eapply S_clear; reflexivity|].
  eapply Steps_cons; [apply (S_put _ _ _ _ _ 1%nat 0%nat [] []); reflexivity|].
  eapply Steps_cons; [eapply S_clear; reflexivity|].
  eapply Steps_cons; [apply (S_put _ _ _ _ _ 1%nat 0%nat [] []); reflexivity|].
  eapply Steps_cons; [eapply (S_get_pool _ _ _ _ _ _ _ _ _ [] [0%nat]); reflexivity|].
  eapply Steps_cons; [eapply (S_get_pool _ _ _ _ _ _ _ _ _ [] []); reflexivity|].
  eapply Steps_cons; [eapply S_op; [reflexivity|apply D_op; reflexivity]|]. apply Steps_nil.
Qed.
Print Assumptions c30_double_return_refuted.
Example c30_example : exists tr s, orderly nothing tr /\ dec_steps 64 empty_pool tr s /\
  histories tr 2%nat 0%nat = Some (inl [8; 5; 0], [(RU8, Done [0] (VU8 5))]) /\
  reading [8; 5; 0] [(RU8, Done [0] (VU8 5))] = [0].
Proof.
  exists [EGet 1%nat 0%nat [0]; EClear 1%nat 0%nat; EPut 1%nat 0%nat; EGet 2%nat 0%nat [8; 5; 0];
     EOp 2%nat 0%nat (RU8, Done [0] (VU8 5))].
  eexists. split; [cbn; repeat split; try discriminate|]. split; [|split; reflexivity].
  eapply Steps_cons; [apply S_get_new; reflexivity|].
  eapply Steps_cons; [eapply S_clear; reflexivity|].
  eapply Steps_cons; [apply (S_put _ _ _ _ _ 1%nat 0%nat [] []); reflexivity|].
  eapply Steps_cons; [eapply (S_get_pool _ _ _ _ _ _ _ _ _ [] []); reflexivity|].
  eapply Steps_cons; [eapply S_op; [reflexivity|apply D_op; reflexivity]|]. apply Steps_nil.
Qed.
