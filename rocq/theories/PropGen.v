(** Properties C46-C49 and C57-C59: generated Go code. *)
From Coq Require Import String.
From Verif Require Import Base Spec GoSpec BufSpec GenTables GenModel GenSpec.
From Verif Require Import SpecProofs GenLemmas GenFields GenThms GenThms2 GenThms3 GenTerm2 GenTerm4 GenTerm5 GenTab.
From Verif Require V1Model V2Model.

(** A recursive schema:
      message 0 { int32 a; repeated string b; message1 c; map<string, message1> d; }
      message 1 { bytes x; repeated message0 y; message0 z; } *)
Definition ex_schema : schema :=
  [[One (Scalar KInt32); Many (Scalar KString); One (Msg 1); MapOf KString (Msg 1)];
   [One (Scalar KBytes); Many (Msg 0); One (Msg 0)]].
Definition ex_leaf : list gval := [GPrim (VI32 7); GList []; GMsg None; GMap (Some [])].
Definition ex_inner : list gval := [GPrim (VBytes [1; 2]); GList [GMsg (Some ex_leaf)]; GMsg None].
Definition ex_value : list gval :=
  [GPrim (VI32 (-1)); GList [GPrim (VString [104]); GPrim (VString [])]; GMsg (Some ex_inner);
   GMap (Some [(VString [107], GMsg (Some ex_inner))])].
(** without nils *)
Definition ex_full : list gval :=
  [GPrim (VI32 5); GList [GPrim (VString [104])];
   GMsg (Some [GPrim (VBytes [1]); GList []; GMsg (Some [GPrim (VI32 0); GList []; GMsg None; GMap (Some [])])]);
   GMap (Some [])].
Ltac by_compute := repeat (first [reflexivity | exact I | constructor | lia | discriminate | intro]).

(** C58: the generated Encode appends exactly the documented layout, in both versions; nil
    messages are one Nil byte.  Buffers may already hold other data. *)
Theorem c58_v1_layout : forall g S b m xs, compiles S = true -> struct_type S xs m -> V1Model.wf b ->
  exists b', Encode1 g S b m (Some xs) = Some (Ok b') /\ V1Model.wf b' /\
    V1Model.Bytes b' = V1Model.Bytes b ++ layout S (GMsg (Some xs)) (One (Msg m)).
Proof. exact encode1_layout. Qed.
Print Assumptions c58_v1_layout.
Theorem c58_v2_layout : forall g S b m xs, compiles S = true -> struct_type S xs m -> V2Model.wf b ->
  small_bytes (prims (GMsg (Some xs))) ->
  exists b' l, V2Model.Bytes b = Ok l /\ Encode2 g S b m (Some xs) = Some (Ok b') /\ V2Model.wf b' /\
    V2Model.Bytes b' = Ok (l ++ layout S (GMsg (Some xs)) (One (Msg m))).
Proof. exact encode2_layout. Qed.
Print Assumptions c58_v2_layout.
Theorem c58_nil : forall g1 g2 S b1 b2 m, V1Model.wf b1 -> V2Model.wf b2 ->
  exists b1' b2' l, Encode1 g1 S b1 m None = Some (Ok b1') /\ V1Model.Bytes b1' = V1Model.Bytes b1 ++ [0] /\
    V2Model.Bytes b2 = Ok l /\ Encode2 g2 S b2 m None = Some (Ok b2') /\ V2Model.Bytes b2' = Ok (l ++ [0]).
Proof. exact encode_nil. Qed.
Print Assumptions c58_nil.
Example c58_example : compiles ex_schema = true /\ struct_type ex_schema ex_value 0 /\
  small_bytes (prims (GMsg (Some ex_value))) /\
  layout ex_schema (GMsg (Some ex_leaf)) (One (Msg 0)) = [12; 14; 1; 5; 10; 0; 0; 2; 5; 3; 10; 0] /\
  layout ex_schema (GMsg (Some ex_inner)) (One (Msg 1)) =
    [4; 10; 2; 1; 2] ++ [1; 3; 10; 1] ++ [12; 14; 1; 5; 10; 0; 0; 2; 5; 3; 10; 0] ++ [0].
Proof.
  split; [reflexivity|]. split.
  - vm_compute. repeat split; repeat constructor; try discriminate; intros [].
  - split; [|split; reflexivity]. intros p Hp. cbn in Hp.
    repeat (destruct Hp as [Hp|Hp]; [try discriminate Hp; injection Hp as <-; reflexivity|]). contradiction.
Qed.

(** C46: round trip.  Version 2, into a fresh struct: any message that is readable (C47) and has
    no nil slice elements, map values or maps comes back, and what follows it is left. *)
Theorem c46_v2_round_trip : forall W g S b l m xs r fuel, compiles S = true -> struct_type S xs m ->
  readable S (GMsg (Some xs)) (One (Msg m)) -> tidy false (GMsg (Some xs)) -> small_bytes (prims (GMsg (Some xs))) ->
  V2Model.wf b -> V2Model.Bytes b = Ok l -> bytes_ok r -> (depth (GMsg (Some xs)) <= fuel)%nat ->
  exists b' out s, Encode2 g S b m (Some xs) = Some (Ok b') /\ V2Model.Bytes b' = Ok (l ++ out) /\
    New true S fuel m = GDone [] s /\
    (int_ok W (out ++ r) -> Decode2 W S fuel m (Some s) (out ++ r) = Some (GDone r xs)).
Proof.
  intros W g S b l m xs r fuel HC HT HR HTi HS HW HB Hr HF.
  destruct (encode2_layout g S b m xs HC HT HW HS) as (b' & l' & E1 & E2 & _ & E3).
  rewrite HB in E1. injection E1 as <-. exists b', (layout S (GMsg (Some xs)) (One (Msg m))), (zero_struct S m).
  split; [exact E2|]. split; [exact E3|]. split; [apply New_v2; apply ht_msg in HT; apply HT|]. intros Hi.
  destruct (decode2_fresh W S m xs r fuel HC HT HR HTi Hr Hi HF) as (s & Es & Ds).
  rewrite New_v2 in Es by (apply ht_msg in HT; apply HT). injection Es as <-. exact Ds.
Qed.
Print Assumptions c46_v2_round_trip.
Example c46_example : struct_type ex_schema ex_value 0 /\ readable ex_schema (GMsg (Some ex_value)) (One (Msg 0)) /\
  tidy false (GMsg (Some ex_value)) /\ depth (GMsg (Some ex_value)) = 4%nat /\
  exists r, Decode2 64 ex_schema 4 0 (Some (zero_struct ex_schema 0)) (layout ex_schema (GMsg (Some ex_value)) (One (Msg 0)) ++ [42]) = Some (GDone r ex_value).
Proof.
  split; [apply c58_example|]. split; [|split; [|split; [reflexivity|eexists; vm_compute; reflexivity]]].
  - apply plain_readable; [|apply c58_example]. intros [|[|m]] fs H; try (injection H as <-; reflexivity). destruct m; discriminate H.
  - cbn. repeat split.
Qed.
(** Without nils, decoding into any struct, however used before, gives the message: both versions *)
Theorem c46_v2_reuse : forall W S m xs old r fuel, compiles S = true ->
  struct_type S xs m -> readable S (GMsg (Some xs)) (One (Msg m)) -> no_nil (GMsg (Some xs)) -> struct_type S old m ->
  bytes_ok r -> int_ok W (layout S (GMsg (Some xs)) (One (Msg m)) ++ r) -> (depth (GMsg (Some xs)) <= fuel)%nat ->
  Decode2 W S fuel m (Some old) (layout S (GMsg (Some xs)) (One (Msg m)) ++ r) = Some (GDone r xs).
Proof. exact decode2_reuse. Qed.
Print Assumptions c46_v2_reuse.
Theorem c46_v1_reuse : forall W S K m xs old r fuel, compiles S = true -> new_ok S K ->
  struct_type S xs m -> readable S (GMsg (Some xs)) (One (Msg m)) -> no_nil (GMsg (Some xs)) -> struct_type S old m ->
  bytes_ok r -> int_ok W (layout S (GMsg (Some xs)) (One (Msg m)) ++ r) -> (depth (GMsg (Some xs)) + K <= fuel)%nat ->
  Decode1 W S fuel m (Some old) (layout S (GMsg (Some xs)) (One (Msg m)) ++ r) = Some (GDone r xs).
Proof. exact decode1_reuse. Qed.
Print Assumptions c46_v1_reuse.
(** In general (nils allowed): the exact contents of the struct afterwards *)
Theorem c46_v2_exact : forall W S m xs old r fuel, compiles S = true ->
  struct_type S xs m -> readable S (GMsg (Some xs)) (One (Msg m)) -> struct_type S old m ->
  bytes_ok r -> int_ok W (layout S (GMsg (Some xs)) (One (Msg m)) ++ r) -> (depth (GMsg (Some xs)) <= fuel)%nat ->
  exists y, Decode2 W S fuel m (Some old) (layout S (GMsg (Some xs)) (One (Msg m)) ++ r) = Some (GDone r y) /\
    GMsg (Some y) = overlay true S (zero_struct S) false (GMsg (Some xs)) (One (Msg m)) (GMsg (Some old)).
Proof. exact decode2_exact. Qed.
Print Assumptions c46_v2_exact.
Theorem c46_v1_exact : forall W S K m xs old r fuel, compiles S = true -> new_ok S K ->
  struct_type S xs m -> readable S (GMsg (Some xs)) (One (Msg m)) -> struct_type S old m ->
  bytes_ok r -> int_ok W (layout S (GMsg (Some xs)) (One (Msg m)) ++ r) -> (depth (GMsg (Some xs)) + K <= fuel)%nat ->
  exists y, Decode1 W S fuel m (Some old) (layout S (GMsg (Some xs)) (One (Msg m)) ++ r) = Some (GDone r y) /\
    GMsg (Some y) = overlay false S (blank1 S K) false (GMsg (Some xs)) (One (Msg m)) (GMsg (Some old)).
Proof. exact decode1_exact. Qed.
Print Assumptions c46_v1_exact.
(** A condition on the schema alone: every message type has a scalar or a repeated field. *)
Theorem c46_plain_schemas_readable : forall S,
  (forall m fs, nth_error S m = Some fs -> existsb plain_field fs = true) ->
  forall x f, has_type S x f -> readable S x f.
Proof. exact plain_readable. Qed.
Print Assumptions c46_plain_schemas_readable.
(** an acyclic schema (message 0 { int32; message1 }, message 1 { string }) for version 1 *)
Definition ex_acyclic : schema := [[One (Scalar KInt32); One (Msg 1)]; [One (Scalar KString)]].
Example c46_v1_example : compiles ex_acyclic = true /\ new_ok ex_acyclic 2 /\
  let xs := [GPrim (VI32 3); GMsg (Some [GPrim (VString [65])])] in
  struct_type ex_acyclic xs 0 /\ readable ex_acyclic (GMsg (Some xs)) (One (Msg 0)) /\ no_nil (GMsg (Some xs)) /\
  Decode1 64 ex_acyclic 4 0 (Some [GPrim (VI32 9); GMsg None]) (layout ex_acyclic (GMsg (Some xs)) (One (Msg 0))) = Some (GDone [] xs).
Proof.
  assert (HT : struct_type ex_acyclic [GPrim (VI32 3); GMsg (Some [GPrim (VString [65])])] 0)
    by (vm_compute; repeat split; repeat constructor; try discriminate).
  split; [reflexivity|]. split.
  - intros [|[|m]] L; try (do 2 eexists; reflexivity). cbn in L. lia.
  - cbv zeta. split; [exact HT|]. split; [|split; [cbn; auto|vm_compute; reflexivity]].
    apply plain_readable; [|exact HT]. intros [|[|m]] fs H; try (injection H as <-; reflexivity). destruct m; discriminate H.
Qed.
(** What the conditions exclude really happens.  Version 2: a nil sub-message leaves the old one in
    a reused struct; a nil slice element comes back as an empty message; a nil map as an empty one.
    Version 1: a nil sub-message comes back as an empty one even in a fresh struct. *)
Definition ex_pair : schema := [[One (Scalar KBool); One (Msg 1)]; [One (Scalar KInt32)]].
Theorem c46_v2_stale_message_refuted : let xs := [GPrim (VBool true); GMsg None] in
  let old := [GPrim (VBool false); GMsg (Some [GPrim (VI32 5)])] in
  struct_type ex_pair xs 0 /\ struct_type ex_pair old 0 /\ readable ex_pair (GMsg (Some xs)) (One (Msg 0)) /\
  Decode2 64 ex_pair 9 0 (Some old) (layout ex_pair (GMsg (Some xs)) (One (Msg 0))) =
    Some (GDone [] [GPrim (VBool true); GMsg (Some [GPrim (VI32 5)])]).
Proof.
  cbv zeta. split; [vm_compute; repeat split; lia|]. split; [vm_compute; repeat split; lia || discriminate|].
  split; [|vm_compute; reflexivity]. vm_compute. auto.
Qed.
Print Assumptions c46_v2_stale_message_refuted.
Theorem c46_v2_nil_element_refuted : let xs := [GList [GMsg None]; GMap None] in
  let S := [[Many (Msg 1); MapOf KString (Msg 1)]; [One (Scalar KInt32)]] in
  struct_type S xs 0 /\ readable S (GMsg (Some xs)) (One (Msg 0)) /\
  Decode2 64 S 9 0 (Some (zero_struct S 0)) (layout S (GMsg (Some xs)) (One (Msg 0))) =
    Some (GDone [] [GList [GMsg (Some [GPrim (VI32 0)])]; GMap (Some [])]).
Proof.
  cbv zeta. split; [vm_compute; repeat split; lia|]. split; [vm_compute; auto|vm_compute; reflexivity].
Qed.
Print Assumptions c46_v2_nil_element_refuted.
Theorem c46_v1_nil_message_refuted : let xs := [GPrim (VBool true); GMsg None] in
  exists s, New false ex_pair 9 0 = GDone [] s /\
  Decode1 64 ex_pair 9 0 (Some s) (layout ex_pair (GMsg (Some xs)) (One (Msg 0))) =
    Some (GDone [] [GPrim (VBool true); GMsg (Some [GPrim (VI32 0)])]).
Proof. cbv zeta. eexists. split; [reflexivity|vm_compute; reflexivity]. Qed.
Print Assumptions c46_v1_nil_message_refuted.

(** C47: what [readable] is for.  A message whose parts are readable starts with a byte other than
    Nil exactly if it is anchored: it has a scalar or repeated field, or its first message/map
    field is a map or not nil. *)
Theorem c47_first_byte : forall S m xs, compiles S = true -> struct_type S xs m ->
  Forall2 (readable S) xs (fields_of S m) ->
  (anchored S m xs <-> exists c r, layout S (GMsg (Some xs)) (One (Msg m)) = c :: r /\ c <> 0).
Proof. exact first_byte. Qed.
Print Assumptions c47_first_byte.
(** An unanchored message is taken for a nil one: the decoder takes one Nil byte and stops,
    leaving the struct as it was and the rest of the message in the input (an empty message type
    has no encoding at all and takes the Nil byte of whatever follows it). *)
Theorem c47_unanchored_is_dropped : forall W S m xs old r fuel, struct_type S xs m -> ~ anchored S m xs -> bytes_ok r ->
  (fields_of S m = [] -> exists t, r = 0 :: t) ->
  exists rest, layout S (GMsg (Some xs)) (One (Msg m)) ++ r = 0 :: rest /\
    Decode1 W S (Datatypes.S fuel) m (Some old) (layout S (GMsg (Some xs)) (One (Msg m)) ++ r) = Some (GDone rest old) /\
    Decode2 W S (Datatypes.S fuel) m (Some old) (layout S (GMsg (Some xs)) (One (Msg m)) ++ r) = Some (GDone rest old).
Proof. exact unanchored_decode. Qed.
Print Assumptions c47_unanchored_is_dropped.
(** Readable, tidy messages are told apart by their encodings, whatever follows. *)
Theorem c47_injective : forall S m xs ys r r', compiles S = true -> struct_type S xs m -> struct_type S ys m ->
  readable S (GMsg (Some xs)) (One (Msg m)) -> readable S (GMsg (Some ys)) (One (Msg m)) ->
  tidy false (GMsg (Some xs)) -> tidy false (GMsg (Some ys)) -> bytes_ok r -> bytes_ok r' ->
  zlen (layout S (GMsg (Some xs)) (One (Msg m)) ++ r) < 2 ^ 63 ->
  layout S (GMsg (Some xs)) (One (Msg m)) ++ r = layout S (GMsg (Some ys)) (One (Msg m)) ++ r' -> xs = ys /\ r = r'.
Proof. exact layout_inj. Qed.
Print Assumptions c47_injective.
(** message 0 { message1 q; int32 n }, message 1 { message2 r }, message 2 { int32 }: q = nil and
    q = {r = nil} have the same encoding. *)
Definition ex_ambiguous : schema := [[One (Msg 1); One (Scalar KInt32)]; [One (Msg 2)]; [One (Scalar KInt32)]].
Theorem c47_ambiguous_refuted :
  let xs := [GMsg None; GPrim (VI32 1)] in let ys := [GMsg (Some [GMsg None]); GPrim (VI32 1)] in
  compiles ex_ambiguous = true /\ struct_type ex_ambiguous xs 0 /\ struct_type ex_ambiguous ys 0 /\ xs <> ys /\
  readable ex_ambiguous (GMsg (Some xs)) (One (Msg 0)) /\ ~ readable ex_ambiguous (GMsg (Some ys)) (One (Msg 0)) /\
  layout ex_ambiguous (GMsg (Some xs)) (One (Msg 0)) = layout ex_ambiguous (GMsg (Some ys)) (One (Msg 0)).
Proof.
  cbv zeta. split; [reflexivity|]. split; [vm_compute; repeat split; lia || discriminate|].
  split; [vm_compute; repeat split; lia || discriminate|]. split; [discriminate|].
  split; [vm_compute; auto|]. split; [|reflexivity].
  cbn. intros (_ & (H & _) & _). destruct H as [H|[(y & H)|(y & H)]]; discriminate H.
Qed.
Print Assumptions c47_ambiguous_refuted.
(** ... and a message with such a field and another one behind it is misread without an error:
    { q = {r = nil, s = {1}} } with message 1 { message2 r; message2 s } *)
Theorem c47_misread_refuted :
  let S := [[One (Scalar KBool); One (Msg 1); One (Msg 2)]; [One (Msg 2); One (Msg 2)]; [One (Scalar KInt32)]] in
  let leaf n := GMsg (Some [GPrim (VI32 n)]) in
  let xs := [GPrim (VBool true); GMsg (Some [GMsg None; leaf 1]); leaf 2] in
  compiles S = true /\ struct_type S xs 0 /\ tidy false (GMsg (Some xs)) /\
  Decode2 64 S 9 0 (Some (zero_struct S 0)) (layout S (GMsg (Some xs)) (One (Msg 0))) =
    Some (GDone (wire (VI32 2)) [GPrim (VBool true); GMsg None; leaf 1]).
Proof.
  cbv zeta. split; [reflexivity|]. split; [vm_compute; repeat split; lia || discriminate|]. split; [cbn; tauto|].
  vm_compute. reflexivity.
Qed.
Print Assumptions c47_misread_refuted.

(** C59: whatever the input, a decoder returns a well-typed message and a rest of the input, an
    error, or panics where the library panics (C13); a result does not depend on how much stack
    is left. *)
Theorem c59_typed_result : forall W S fuel m x b, compiles S = true -> (m < length S)%nat -> struct_type S x m ->
  bytes_ok b -> int_ok W b ->
  (exists y, Decode1 W S fuel m (Some x) b = Some y /\ (y = GDeep \/ returns S m b y)) /\
  (exists y, Decode2 W S fuel m (Some x) b = Some y /\ (y = GDeep \/ returns S m b y)).
Proof. exact typed_result. Qed.
Print Assumptions c59_typed_result.
Theorem c59_stack_monotone : forall W S fuel fuel' m x b, (fuel <= fuel')%nat ->
  (Decode1 W S fuel m x b <> Some GDeep -> Decode1 W S fuel' m x b = Decode1 W S fuel m x b) /\
  (Decode2 W S fuel m x b <> Some GDeep -> Decode2 W S fuel' m x b = Decode2 W S fuel m x b).
Proof. exact stack_monotone. Qed.
Print Assumptions c59_stack_monotone.
Example c59_example : returns ex_schema 0 [12; 2; 0] (GErr EI32) /\ struct_type ex_schema (zero_struct ex_schema 0) 0 /\
  Decode2 64 ex_schema 1 0 (Some (zero_struct ex_schema 0)) [5] = Some (GErr EI32) /\
  Decode2 64 ex_schema 1 0 (Some (zero_struct ex_schema 0)) [0; 9] = Some (GDone [9] (zero_struct ex_schema 0)).
Proof. split; [exact I|]. split; [apply zero_struct_type; [reflexivity|cbn; lia]|]. split; reflexivity. Qed.

(** C48: termination, version 2.  Decoding terminates on every input for every message type iff no
    message type can reach itself through first fields without consuming input; the stack needed
    is linear in the input length. *)
Theorem c48_terminates_iff : forall W S, compiles S = true -> W = 64 \/ W = 32 ->
  (forall m, (m < length S)%nat -> well_founded_at true S m) <->
  (forall m x b, (m < length S)%nat -> struct_type S x m -> bytes_ok b -> int_ok W b ->
     exists fuel, Decode2 W S fuel m (Some x) b <> Some GDeep).
Proof. exact terminates_iff. Qed.
Print Assumptions c48_terminates_iff.
Theorem c48_v2_linear_stack : forall W S, compiles S = true -> (forall m, (m < length S)%nat -> well_founded_at true S m) ->
  exists R, forall m x b fuel, (m < length S)%nat -> struct_type S x m -> bytes_ok b -> int_ok W b ->
    ((length b + 1) * R <= fuel)%nat ->
    exists y, Decode2 W S fuel m (Some x) b = Some y /\ returns S m b y.
Proof. exact terminates2. Qed.
Print Assumptions c48_v2_linear_stack.
(** otherwise seven bytes exhaust any stack *)
Theorem c48_v2_overflow_refuted : forall W S m x fuel, compiles S = true -> W = 64 \/ W = 32 -> (m < length S)%nat ->
  struct_type S x m -> ~ well_founded_at true S m ->
  Decode2 W S fuel m (Some x) bad_input = Some GDeep.
Proof. exact overflows. Qed.
Print Assumptions c48_v2_overflow_refuted.
(** version 1, which has to build the sub-messages first *)
Theorem c48_v1_linear_stack : forall W S, compiles S = true -> (forall m, (m < length S)%nat -> Acc (fun b a => creates S a b) m) ->
  exists R K, forall m x b fuel, (m < length S)%nat -> struct_type S x m -> bytes_ok b -> int_ok W b ->
    ((length b + 1) * R + K <= fuel)%nat ->
    exists y, Decode1 W S fuel m (Some x) b = Some y /\ returns S m b y.
Proof. exact terminates1. Qed.
Print Assumptions c48_v1_linear_stack.
(** and only then does it terminate on every input: a recursive chain of singular message fields is
    enough to exhaust every stack with a suitable short input, even if no message is nested in the input
    (schemas with fewer than 2^26 fields, so that the input is shorter than the longest Go slice) *)
Theorem c48_v1_terminates_iff : forall W S, compiles S = true -> W = 64 \/ W = 32 -> zlen (concat S) < 2 ^ 26 ->
  (forall m, (m < length S)%nat -> Acc (fun b a => creates S a b) m) <->
  (forall m x b, (m < length S)%nat -> struct_type S x m -> bytes_ok b -> int_ok W b ->
     exists fuel, Decode1 W S fuel m (Some x) b <> Some GDeep).
Proof. exact terminates1_iff. Qed.
Print Assumptions c48_v1_terminates_iff.
Theorem c48_v1_terminates_pointwise : forall W S m, compiles S = true -> W = 64 \/ W = 32 -> zlen (concat S) < 2 ^ 26 -> (m < length S)%nat ->
  (forall x b, struct_type S x m -> bytes_ok b -> int_ok W b -> exists fuel, Decode1 W S fuel m (Some x) b <> Some GDeep) ->
  Acc (fun b a => creates S a b) m.
Proof. intros W S m HC HW HN L. exact (terminates1_conv W S HC HW HN m L). Qed.
Print Assumptions c48_v1_terminates_pointwise.
(** message A { message E {} E e; A a; int32 n }: the int32 alone overflows the stack *)
Example c48_v1_example : let S := [[One (Msg 1); One (Msg 0); One (Scalar KInt32)]; []] in
  compiles S = true /\ zlen (concat S) < 2 ^ 26 /\ struct_type S [GMsg None; GMsg None; GPrim (VI32 0)] 0 /\
  Decode1 64 S 200 0 (Some [GMsg None; GMsg None; GPrim (VI32 0)]) [12; 0; 1] = Some GDeep /\
  Decode2 64 S 200 0 (Some [GMsg None; GMsg None; GPrim (VI32 0)]) [12; 0; 1] = Some (GErr EI32).
Proof. cbv zeta. split; [reflexivity|]. split; [reflexivity|]. split; [cbn; repeat split; (lia || exact I)|]. split; vm_compute; reflexivity. Qed.
(** the recursive example schema is fine in version 2 (message 0 starts with an int32, message 1
    has a repeated field) *)
Example c48_example : compiles ex_schema = true /\ forall m, (m < length ex_schema)%nat -> well_founded_at true ex_schema m.
Proof.
  split; [reflexivity|]. intros [|[|m]] L; [| |cbn in L; lia]; constructor; intros b (H & _).
  - destruct (H (Many (Scalar KString)) (or_intror (or_introl eq_refl))) as [C _]. discriminate C.
  - destruct (H (Many (Msg 0)) (or_intror (or_introl eq_refl))) as [C _]. discriminate C.
Qed.
(** message A { bytes x; A a } is not *)
Example c48_overflow_example : let S := [[One (Scalar KBytes); One (Msg 0)]] in
  compiles S = true /\ struct_type S [GPrim (VBytes []); GMsg None] 0 /\ ~ well_founded_at true S 0 /\
  Decode2 64 S 100 0 (Some [GPrim (VBytes []); GMsg None]) bad_input = Some GDeep.
Proof.
  cbv zeta. split; [reflexivity|]. split; [vm_compute; repeat split; lia || constructor|]. split; [|vm_compute; reflexivity].
  intros A. assert (E : left_edge true [[One (Scalar KBytes); One (Msg 0)]] 0 0).
  { split.
    - intros f [<-|[<-|[]]]; cbn; auto. split; [reflexivity|discriminate].
    - exists [One (Scalar KBytes)], []. split; [reflexivity|]. intros f [<-|[]]; discriminate. }
  unfold well_founded_at in A. revert A E. generalize [[One (Scalar KBytes); One (Msg 0)]]. generalize 0%nat. clear.
  intros n S0 A. induction A as [k _ IH]. intros E. exact (IH k E E).
Qed.

(** C57: version 1's NewM() returns iff the singular message fields reachable from M are acyclic;
    otherwise it exhausts every stack. *)
Theorem c57_new_terminates_iff : forall S m, compiles S = true -> (m < length S)%nat ->
  ((exists fuel q s, New false S fuel m = GDone q s) <-> Acc (fun b a => creates S a b) m).
Proof. exact new_terminates. Qed.
Print Assumptions c57_new_terminates_iff.
Theorem c57_new_overflows_refuted : forall S m, compiles S = true -> (m < length S)%nat ->
  ~ Acc (fun b a => creates S a b) m -> forall fuel, New false S fuel m = GDeep.
Proof. exact new_overflows. Qed.
Print Assumptions c57_new_overflows_refuted.
Theorem c57_all_new_return : forall S, compiles S = true -> (forall m, (m < length S)%nat -> Acc (fun b a => creates S a b) m) ->
  exists K, new_ok S K.
Proof. exact new_ok_exists. Qed.
Print Assumptions c57_all_new_return.
Example c57_example : New false ex_acyclic 2 0 = GDone [] [GPrim (VI32 0); GMsg (Some [GPrim (VString [])])] /\
  New false ex_schema 1000 0 = GDeep /\ creates ex_schema 0 1 /\ creates ex_schema 1 0.
Proof.
  split; [reflexivity|]. split; [vm_compute; reflexivity|].
  split; cbn; auto.
Qed.

(** C49: the look-up tables.  Whatever value a protobuf scalar kind can hold, the Go and Rust
    generators pick an encoder method and a decoder method for values of that type, declare the
    field with that type, and announce in slice and map headers the very kind byte the encoding of
    the value starts with. *)
Theorem c49_go_tables : forall k v, holds k v ->
  exists en dn takes kn c t, go_encodeLUT k = Some en /\ assoc en go_encoder_methods = Some (want v) /\
    go_decodeLUT k = Some dn /\ assoc dn go_decoder_methods = Some (want v, takes) /\
    go_GetKind k = Some kn /\ assoc kn go_kinds = Some c /\ wire v = c :: t /\
    scalar_type k = Some (want v).
Proof. exact go_tables. Qed.
Print Assumptions c49_go_tables.
Theorem c49_rust_tables : forall k v, holds k v ->
  exists en dn kn c t, rs_encodeLUT k = Some en /\ assoc en rs_encoder_methods = Some (want v) /\
    rs_decodeLUT k = Some dn /\ assoc dn rs_decoder_methods = Some (want v) /\
    rs_getKind k = Some kn /\ assoc kn rs_kinds = Some c /\ wire v = c :: t /\
    (k = KEnum \/ exists tn, rs_typeLUT k = Some tn /\ assoc tn rs_types = Some (want v)).
Proof. exact rust_tables. Qed.
Print Assumptions c49_rust_tables.
(** the tables cover exactly the scalar kinds, and two languages announce the same kind *)
Theorem c49_domains : forall k,
  (exists v, holds k v) <-> (go_encodeLUT k <> None /\ go_decodeLUT k <> None /\ go_kindLUT k <> None /\
     rs_encodeLUT k <> None /\ rs_decodeLUT k <> None /\ rs_kindLUT k <> None).
Proof. exact domains. Qed.
Print Assumptions c49_domains.
Theorem c49_same_kind : forall k,
  match go_GetKind k, rs_getKind k with
  | Some a, Some b => assoc a go_kinds <> None /\ assoc a go_kinds = assoc b rs_kinds
  | None, None => True
  | _, _ => False
  end.
Proof. exact same_kind. Qed.
Print Assumptions c49_same_kind.
(** The TypeScript generator is not consistent with the library it imports from: no function it
    calls is exported, and most kind names do not exist. *)
Theorem c49_typescript_refuted : forall k,
  (forall n, ts_encodeLUT k = Some n \/ ts_decodeLUT k = Some n -> ~ In n ts_exports) /\
  (forall n c, ts_kindLUT k = Some n -> assoc n ts_kinds = Some c ->
     k = KInt32 \/ k = KSint32 \/ k = KSfixed32 \/ k = KString).
Proof. exact typescript_tables. Qed.
Print Assumptions c49_typescript_refuted.
Example c49_example : holds KSfixed64 (VI64 (-5)) /\ go_encodeLUT KSfixed64 = Some ".Int64"%string /\
  wire (VI64 (-5)) = [13; 9] /\ ts_encodeLUT KBool = Some "encodeBoolean"%string.
Proof. split; [split; cbn; [lia|exact I]|]. repeat split. Qed.
