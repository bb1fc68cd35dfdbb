(** Property theorems: what a v2 buffer costs (C79).  Specification: CostSpec.v, BufSpec.v. *)
From Verif Require Import Base Spec BufSpec CostSpec GoCost.
From Verif Require V2Model.

(** C79: every reallocation at least doubles the capacity, so their number is logarithmic and all
    the arrays ever abandoned fit into the last one, whatever the allocator does. *)
Theorem c79_reallocations : forall g ops b l, V2Model.wf b -> V2Model.Bytes b = Ok l -> ok2_all l ops ->
  exists b' dropped, V2Model.run g b ops = Ok b' /\ V2Model.Bytes b' = Ok (fold_left log2 ops l) /\
    V2Model.old b' = V2Model.old b ++ dropped /\
    2 ^ Z.of_nat (length dropped) * V2Model.Cap b <= V2Model.Cap b' /\
    (dropped <> [] -> 2 ^ (Z.of_nat (length dropped) - 1) <= V2Model.Cap b') /\
    block_bytes dropped + V2Model.Cap b <= V2Model.Cap b'.
Proof. exact cost_api. Qed.
Print Assumptions c79_reallocations.
(** ... the capacity stays below twice the most room ever asked for, if the allocator does not round up *)
Theorem c79_capacity_bound : forall g w s ops b l b', 0 <= w -> 0 <= s -> spare_at_most w s g ->
  V2Model.wf b -> V2Model.Bytes b = Ok l -> ok2_all l ops -> V2Model.run g b ops = Ok b' ->
  V2Model.Cap b' <= Z.max (V2Model.Cap b) (2 * (1 + w) * peak l ops + s).
Proof. exact capacity_api. Qed.
Print Assumptions c79_capacity_bound.
(** ... so writing costs memory linear in the bytes written, abandoned arrays included *)
Theorem c79_writing_is_linear : forall g w s ops b l b', 0 <= w -> 0 <= s -> spare_at_most w s g ->
  V2Model.wf b -> V2Model.Bytes b = Ok l -> ok2_all l ops -> Forall writes ops -> V2Model.run g b ops = Ok b' ->
  exists dropped, V2Model.old b' = V2Model.old b ++ dropped /\
    V2Model.Cap b' <= Z.max (V2Model.Cap b) (2 * (1 + w) * (V2Model.Len b' + 9) + s) /\
    V2Model.Cap b' + block_bytes dropped <= 2 * Z.max (V2Model.Cap b) (2 * (1 + w) * (V2Model.Len b' + 9) + s).
Proof. exact linear_api. Qed.
Print Assumptions c79_writing_is_linear.
(** ... memory is allocated exactly when more room is asked for than there is *)
Theorem c79_allocates_iff : forall g ops b l b', V2Model.wf b -> V2Model.Bytes b = Ok l -> ok2_all l ops ->
  V2Model.run g b ops = Ok b' ->
  (V2Model.old b' = V2Model.old b <-> peak l ops <= V2Model.Cap b) /\
  (V2Model.old b' = V2Model.old b -> V2Model.Cap b' = V2Model.Cap b) /\ peak l ops <= V2Model.Cap b'.
Proof. exact no_alloc_api. Qed.
Print Assumptions c79_allocates_iff.
(** ... and a buffer that is Reset and used again for the same calls allocates nothing *)
Theorem c79_reuse_allocates_nothing : forall g g' ops b b1, V2Model.wf b -> V2Model.Bytes b = Ok [] ->
  ok2_all [] ops -> V2Model.run g b ops = Ok b1 ->
  exists b2, V2Model.run g' (V2Model.Reset b1) ops = Ok b2 /\ V2Model.Bytes b2 = V2Model.Bytes b1 /\
    V2Model.old b2 = V2Model.old b1 /\ V2Model.Cap b2 = V2Model.Cap b1.
Proof. exact reuse_api. Qed.
Print Assumptions c79_reuse_allocates_nothing.
Example c79_example : exists b', V2Model.run (fun _ _ => []) (V2Model.NewBufferSize 2)
    [V2Model.OWrite [1; 2]; V2Model.OEncode (VU8 3); V2Model.OEncode (VU64 4)] = Ok b' /\
  length (V2Model.old b') = 2%nat /\ V2Model.Cap b' = 15 /\ block_bytes (V2Model.old b') = 6 /\
  peak [] [V2Model.OWrite [1; 2]; V2Model.OEncode (VU8 3); V2Model.OEncode (VU64 4)] = 15.
Proof. eexists; split; [vm_compute; reflexivity|]. repeat split. Qed.
Example c79_example_allocator : spare_at_most 1 7 (fun _ n => repeat 0 (Z.to_nat (n / 4))).
Proof. intros i n Hn. rewrite zlen_repeat. pose proof (Z.div_le_upper_bound n 4 n). lia. Qed.
