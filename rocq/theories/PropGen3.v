(** Generated Go code: what a failed Decode leaves behind (C77) and how much memory Decode asks for (C78). *)
From Coq Require Import String.
From Verif Require Import Base Spec GoSpec GenTables GenModel GenSpec GoThms2 SpecProofs GenLemmas GenDec GenFields GenTerm GenTerm4 GenThms GenThms2 GenThms3 GenThms4 GenTrace TraceSpec GenTraceInv GenTraceThms GenTraceEnd GenPick2 GenTorn GoThms PropGen2.
From Verif Require V1Model V2Model.

(** ** C77 *)
(** GenTrace refines the decoder of the other theorems: same outcome, on every input. *)
Theorem c77_same_decoder : forall W S fuel m x b,
  Some (outcome_of (snd (Trace1 W unlimited S fuel m x b))) = Decode1 W S fuel m (Some x) b /\
  Some (outcome_of (snd (Trace2 W unlimited S fuel m x b))) = Decode2 W S fuel m (Some x) b.
Proof. intros. split; [apply trace1_outcome|apply trace2_outcome]. Qed.
Print Assumptions c77_same_decoder.
(** Whatever the input: after an error the struct still is one (every field holds a value of its type). *)
Theorem c77_struct_after_error : forall W S fuel m x b l e y, compiles S = true -> struct_type S x m -> bytes_ok b -> int_ok W b ->
  Trace1 W unlimited S fuel m x b = (l, TErr e y) \/ Trace2 W unlimited S fuel m x b = (l, TErr e y) -> struct_type S y m.
Proof.
  intros W S fuel m x b l e y HC HT Hb Hi [E|E].
  - destruct (trace1_tf W S fuel m x b HC HT (conj Hb Hi)) as [_ H]. rewrite E in H. apply H.
  - destruct (trace2_tf W S fuel m x b HC HT (conj Hb Hi)) as [_ H]. rewrite E in H. apply H.
Qed.
Print Assumptions c77_struct_after_error.
(** Whatever the input: there is a position in the wire order such that the fields before it hold what was read (what a
    message type with just these fields reads from the same input), the fields after it are untouched, and the field
    itself holds what [left_behind] says (zero for a scalar, a partly decoded message, slice or map).  The error is the one
    that field gives. *)
Theorem c77_v1_which_fields : forall W S fuel m x b l e y, compiles S = true -> struct_type S x m ->
  bytes_ok b -> int_ok W b -> zlen b + 9 < 2 ^ (W - 1) ->
  Trace1 W unlimited S (Datatypes.S fuel) m x b = (l, TErr e y) ->
  exists dn i todo b' f old z, wire_order (fields_of S m) = dn ++ i :: todo /\
    Decode1 W (with_part S m dn) (Datatypes.S fuel) (length S) (Some (pick dn x)) b = Some (GDone b' (pick dn y)) /\
    Decode1 W (with_part S m (dn ++ [i])) (Datatypes.S fuel) (length S) (Some (pick (dn ++ [i]) x)) b = Some (GErr e) /\
    (forall j, In j todo -> nth_error y j = nth_error x j) /\
    nth_error (fields_of S m) i = Some f /\ nth_error x i = Some old /\ nth_error y i = Some z /\
    left_behind (Trace1 W unlimited S) (Decode1 W) (V1Model.decode W None) (fun m s => exists q, New false S fuel m = GDone q s)
      S fuel true f old b' e z.
Proof.
  intros W S fuel m x b l e y HC HT Hb Hi H9 E.
  destruct (torn_decode false (prim1 W) S W HC (fun v r Hv Hr HW => dec1_wire W v r Hv Hr HW) (nil1 W _) (hdone1 W) (prim1_fail W) fuel (head1 W) m x b l e y HT Hb Hi H9 E)
    as (dn & i & todo & b' & f & old & z & H1 & H2 & H3 & H4 & H5 & H6 & H7 & H8).
  exists dn, i, todo, b', f, old, z. split; [exact H1|]. unfold Decode1. cbn [option_map]. split; [f_equal; exact H2|]. split; [f_equal; exact H3|].
    repeat (split; [assumption|]). exact H8.
Qed.
Print Assumptions c77_v1_which_fields.
Theorem c77_v2_which_fields : forall W S fuel m x b l e y, compiles S = true -> struct_type S x m ->
  bytes_ok b -> int_ok W b -> zlen b + 9 < 2 ^ (W - 1) ->
  Trace2 W unlimited S (Datatypes.S fuel) m x b = (l, TErr e y) ->
  exists dn i todo b' f old z, wire_order (fields_of S m) = dn ++ i :: todo /\
    Decode2 W (with_part S m dn) (Datatypes.S fuel) (length S) (Some (pick dn x)) b = Some (GDone b' (pick dn y)) /\
    Decode2 W (with_part S m (dn ++ [i])) (Datatypes.S fuel) (length S) (Some (pick (dn ++ [i]) x)) b = Some (GErr e) /\
    (forall j, In j todo -> nth_error y j = nth_error x j) /\
    nth_error (fields_of S m) i = Some f /\ nth_error x i = Some old /\ nth_error y i = Some z /\
    left_behind (Trace2 W unlimited S) (Decode2 W) (V2Model.decode W []) (fun m s => exists q, New true S fuel m = GDone q s)
      S fuel false f old b' e z.
Proof.
  intros W S fuel m x b l e y HC HT Hb Hi H9 E.
  destruct (torn_decode true (prim2 W) S W HC (fun v r Hv Hr HW => dec2_wire W _ v r Hv Hr HW) (nil2 W _) (hdone2 W) (prim2_fail W) fuel (head2 W) m x b l e y HT Hb Hi H9 E)
    as (dn & i & todo & b' & f & old & z & H1 & H2 & H3 & H4 & H5 & H6 & H7 & H8).
  exists dn, i, todo, b', f, old, z. split; [exact H1|]. unfold Decode2. cbn [option_map]. split; [f_equal; exact H2|]. split; [f_equal; exact H3|].
    repeat (split; [assumption|]). exact H8.
Qed.
Print Assumptions c77_v2_which_fields.
(** A truncated message: the fields whose encodings are complete were decoded, the others are untouched, except for the
    one field the input ends in. *)
Theorem c77_v1_truncated : forall W S K m xs old p q fuel l e y, compiles S = true -> new_ok S K -> (forall k, ~ vacuous false S k) ->
  struct_type S xs m -> readable S (GMsg (Some xs)) (One (Msg m)) -> struct_type S old m ->
  layout S (GMsg (Some xs)) (One (Msg m)) = p ++ q -> q <> [] -> int_ok W (p ++ q) -> (depth (GMsg (Some xs)) + K <= fuel)%nat ->
  Trace1 W unlimited S fuel m old p = (l, TErr e y) ->
  exists dn i todo, wire_order (fields_of S m) = dn ++ i :: todo /\
    (forall j, In j dn -> nth_error y j = field_after false S (blank1 S K) m xs old j) /\
    (forall j, In j todo -> nth_error y j = nth_error old j) /\
    zlen (flat_map (piece S m xs) dn) <= zlen p < zlen (flat_map (piece S m xs) (dn ++ [i])).
Proof. exact trunc1. Qed.
Print Assumptions c77_v1_truncated.
Theorem c77_v2_truncated : forall W S m xs old p q fuel l e y, compiles S = true -> (forall k, ~ vacuous false S k) ->
  struct_type S xs m -> readable S (GMsg (Some xs)) (One (Msg m)) -> struct_type S old m ->
  layout S (GMsg (Some xs)) (One (Msg m)) = p ++ q -> q <> [] -> int_ok W (p ++ q) -> (depth (GMsg (Some xs)) <= fuel)%nat ->
  Trace2 W unlimited S fuel m old p = (l, TErr e y) ->
  exists dn i todo, wire_order (fields_of S m) = dn ++ i :: todo /\
    (forall j, In j dn -> nth_error y j = field_after true S (zero_struct S) m xs old j) /\
    (forall j, In j todo -> nth_error y j = nth_error old j) /\
    zlen (flat_map (piece S m xs) dn) <= zlen p < zlen (flat_map (piece S m xs) (dn ++ [i])).
Proof. exact trunc2. Qed.
Print Assumptions c77_v2_truncated.
(** A retry: after any error, decoding a complete message (without nil messages and maps) into the same struct gives
    exactly this message; nothing of the failed attempt remains. *)
Theorem c77_v1_retry : forall W S K m x bad l e y xs r f fuel, compiles S = true -> new_ok S K ->
  struct_type S x m -> bytes_ok bad -> int_ok W bad -> Trace1 W unlimited S f m x bad = (l, TErr e y) ->
  struct_type S xs m -> readable S (GMsg (Some xs)) (One (Msg m)) -> no_nil (GMsg (Some xs)) ->
  bytes_ok r -> int_ok W (layout S (GMsg (Some xs)) (One (Msg m)) ++ r) -> (depth (GMsg (Some xs)) + K <= fuel)%nat ->
  Decode1 W S fuel m (Some y) (layout S (GMsg (Some xs)) (One (Msg m)) ++ r) = Some (GDone r xs).
Proof.
  intros W S K m x bad l e y xs r f fuel HC HN Hx Hb Hi E HT HR HNn Hr HW HF. apply (decode1_reuse W S K); try assumption.
  apply (c77_struct_after_error W S f m x bad l e y HC Hx Hb Hi). left. exact E.
Qed.
Print Assumptions c77_v1_retry.
Theorem c77_v2_retry : forall W S m x bad l e y xs r f fuel, compiles S = true ->
  struct_type S x m -> bytes_ok bad -> int_ok W bad -> Trace2 W unlimited S f m x bad = (l, TErr e y) ->
  struct_type S xs m -> readable S (GMsg (Some xs)) (One (Msg m)) -> no_nil (GMsg (Some xs)) ->
  bytes_ok r -> int_ok W (layout S (GMsg (Some xs)) (One (Msg m)) ++ r) -> (depth (GMsg (Some xs)) <= fuel)%nat ->
  Decode2 W S fuel m (Some y) (layout S (GMsg (Some xs)) (One (Msg m)) ++ r) = Some (GDone r xs).
Proof.
  intros W S m x bad l e y xs r f fuel HC Hx Hb Hi E HT HR HNn Hr HW HF. apply decode2_reuse; try assumption.
  apply (c77_struct_after_error W S f m x bad l e y HC Hx Hb Hi). right. exact E.
Qed.
Print Assumptions c77_v2_retry.
(** message 0 { int32 a; message1 b; repeated uint32 c }, message 1 { repeated string s; bool t } *)
Definition ex77 : schema := [[One (Scalar KInt32); One (Msg 1); Many (Scalar KUint32)]; [Many (Scalar KString); One (Scalar KBool)]].
Definition ex77_value : list gval := [GPrim (VI32 7); GMsg (Some [GList [GPrim (VString [104])]; GPrim (VBool true)]); GList [GPrim (VU32 5); GPrim (VU32 6)]].
Definition ex77_old : list gval := [GPrim (VI32 1); GMsg (Some [GList [GPrim (VString [105])]; GPrim (VBool true)]); GList [GPrim (VU32 3)]].
Lemma ex77_types : compiles ex77 = true /\ (forall k, ~ vacuous false ex77 k) /\ new_ok ex77 2 /\ struct_type ex77 ex77_value 0 /\
  struct_type ex77 ex77_old 0 /\ readable ex77 (GMsg (Some ex77_value)) (One (Msg 0)) /\ no_nil (GMsg (Some ex77_value)).
Proof.
  assert (HP : forall m fs, nth_error ex77 m = Some fs -> existsb plain_field fs = true).
  { intros [|[|m]] fs H; try (injection H as <-; reflexivity). destruct m; discriminate H. }
  assert (HT : struct_type ex77 ex77_value 0) by (vm_compute; repeat split; repeat constructor; try discriminate).
  split; [reflexivity|]. split; [apply c74_plain_schemas; exact HP|]. split; [intros [|[|m]] L; try (do 2 eexists; reflexivity); cbn in L; lia|].
  split; [exact HT|]. split; [vm_compute; repeat split; repeat constructor; try discriminate|]. split; [apply plain_readable; assumption|].
  vm_compute; repeat split; repeat constructor.
Qed.
(** Cut inside the last field: a and c are new, b is half decoded (version 1: into the old message 1, version 2: into a new one). *)
Example c77_example : exists p q l, layout ex77 (GMsg (Some ex77_value)) (One (Msg 0)) = p ++ q /\ q <> [] /\
  Trace2 64 unlimited ex77 9 0 ex77_old p =
    ([MakeSlice 2] ++ l, TErr EString [GPrim (VI32 7); GMsg (Some [GList [GPrim (VString [])]; GPrim (VBool true)]); GList [GPrim (VU32 5); GPrim (VU32 6)]]) /\
  Trace1 64 unlimited ex77 9 0 ex77_old p =
    ([MakeSlice 2], TErr EString [GPrim (VI32 7); GMsg (Some [GList [GPrim (VString [])]; GPrim (VBool true)]); GList [GPrim (VU32 5); GPrim (VU32 6)]]).
Proof.
  exists [12; 14; 1; 10; 10; 2; 10; 5; 10; 6; 7; 1; 1; 5; 10; 1; 5; 10], [1; 104], [MakeSlice 1]. split; [reflexivity|]. split; [discriminate|]. split; reflexivity.
Qed.
(** Refuted: a failed Decode leaves the struct alone. *)
Theorem c77_all_or_nothing_refuted : exists l e y l' e' y' b, struct_type ex77 ex77_old 0 /\ bytes_ok b /\
  Trace1 64 unlimited ex77 9 0 ex77_old b = (l, TErr e y) /\ y <> ex77_old /\
  Trace2 64 unlimited ex77 9 0 ex77_old b = (l', TErr e' y') /\ y' <> ex77_old.
Proof.
  do 6 eexists. exists [12; 14; 1]. split; [apply ex77_types|]. split; [repeat (constructor; [unfold isbyte; lia|]); constructor|].
  split; [reflexivity|]. split; [discriminate|]. split; [reflexivity|]. discriminate.
Qed.
Print Assumptions c77_all_or_nothing_refuted.

(** ** C78 *)
(** Whatever the input and the outcome: at most one slice or map is made per four bytes of input, each for fewer than
    2^32 elements. *)
Theorem c78_v1_makes : forall W S fuel m x b, compiles S = true -> struct_type S x m -> bytes_ok b -> int_ok W b ->
  let l := fst (Trace1 W unlimited S fuel m x b) in
  4 * zlen l <= zlen b /\ Forall (fun k => 0 <= asked k < 2 ^ 32) l.
Proof.
  intros W S fuel m x b HC HT Hb Hi. cbv zeta. destruct (trace1_tf W S fuel m x b HC HT (conj Hb Hi)) as [H1 H2]. split; [|exact H1].
  destruct (snd (Trace1 W unlimited S fuel m x b)); try lia. destruct H2 as (_ & _ & H2 & _). pose proof (zlen_nonneg rest). lia.
Qed.
Print Assumptions c78_v1_makes.
Theorem c78_v2_makes : forall W S fuel m x b, compiles S = true -> struct_type S x m -> bytes_ok b -> int_ok W b ->
  let l := fst (Trace2 W unlimited S fuel m x b) in
  4 * zlen l <= zlen b /\ Forall (fun k => 0 <= asked k < 2 ^ 32) l.
Proof.
  intros W S fuel m x b HC HT Hb Hi. cbv zeta. destruct (trace2_tf W S fuel m x b HC HT (conj Hb Hi)) as [H1 H2]. split; [|exact H1].
  destruct (snd (Trace2 W unlimited S fuel m x b)); try lia. destruct H2 as (_ & _ & H2 & _). pose proof (zlen_nonneg rest). lia.
Qed.
Print Assumptions c78_v2_makes.
(** A successful decode asked for no more elements than it consumed bytes, if every element takes at least a byte. *)
Theorem c78_success_is_linear : forall W S fuel m x b, compiles S = true -> struct_type S x m -> bytes_ok b -> int_ok W b ->
  (forall l r y, every_element_counts false S -> Trace1 W unlimited S fuel m x b = (l, TDone r y) -> total l <= zlen b - zlen r) /\
  (forall l r y, every_element_counts true S -> Trace2 W unlimited S fuel m x b = (l, TDone r y) -> total l <= zlen b - zlen r).
Proof.
  intros W S fuel m x b HC HT Hb Hi. split; intros l r y HE E.
  - destruct (trace1_tf W S fuel m x b HC HT (conj Hb Hi)) as [_ H]. rewrite E in H. destruct H as (_ & _ & _ & G). destruct (G HE) as [G1 _]. cbn [fst] in G1. lia.
  - destruct (trace2_tf W S fuel m x b HC HT (conj Hb Hi)) as [_ H]. rewrite E in H. destruct H as (_ & _ & _ & G). destruct (G HE) as [G1 _]. cbn [fst] in G1. lia.
Qed.
Print Assumptions c78_success_is_linear.
(** Message types without repeated fields and maps make neither. *)
Theorem c78_singular : forall W room S fuel m x b, compiles S = true -> singular_only S ->
  fst (Trace1 W room S fuel m x b) = [] /\ fst (Trace2 W room S fuel m x b) = [].
Proof. intros W room S fuel m x b HC HF. split; apply quiet_decode; assumption. Qed.
Print Assumptions c78_singular.
(** Refuted: memory bounded by the input.  If the first field (in wire order) is repeated, then at most eight bytes make Decode
    ask for any number of elements below 2^32, before it finds that there are none. *)
Theorem c78_eight_bytes_refuted : forall W room S fuel m x i rest t xs n, compiles S = true -> struct_type S x m -> W = 64 \/ W = 32 ->
  wire_order (fields_of S m) = i :: rest -> nth_error (fields_of S m) i = Some (Many t) -> nth_error x i = Some (GList xs) -> zlen xs <> n ->
  0 <= n < 2 ^ 32 ->
  let b := wire (VSlice n (announced t)) in
  zlen b <= 8 /\
  (exists l y, Trace1 W room S (Datatypes.S fuel) m x b = (MakeSlice n :: l, y) /\ (room n = false -> l = [] /\ y = TPanic)) /\
  (exists l y, Trace2 W room S (Datatypes.S fuel) m x b = (MakeSlice n :: l, y) /\ (room n = false -> l = [] /\ y = TPanic)).
Proof.
  intros W room S fuel m x i rest t xs n HC HT HW Ho Ef Ex Hl Hn b.
  assert (H8 : zlen b <= 8). { unfold b. cbn [wire]. rewrite !zlen_cons. pose proof (varint_le n 5 ltac:(lia) ltac:(lia) ltac:(cbn; lia)). lia. }
  assert (Hi : int_ok W (b ++ [])). { split; [exact HW|]. rewrite app_nil_r. destruct HW as [->| ->]; lia. }
  split; [exact H8|]. rewrite <- (app_nil_r b). split; [apply (first1 W room S fuel m x i rest t xs n [])|apply (first2 W room S fuel m x i rest t xs n [])]; try assumption; constructor.
Qed.
Print Assumptions c78_eight_bytes_refuted.
(** The same for maps, with nine bytes (there is no panic then: the size is a hint). *)
Theorem c78_nine_bytes_refuted : forall W room S fuel m x i rest kk t n, compiles S = true -> struct_type S x m -> W = 64 \/ W = 32 ->
  wire_order (fields_of S m) = i :: rest -> nth_error (fields_of S m) i = Some (MapOf kk t) -> 0 <= n < 2 ^ 32 ->
  let b := wire (VMap n (announced (Scalar kk)) (announced t)) in
  zlen b <= 9 /\
  (exists l y, Trace1 W room S (Datatypes.S fuel) m x b = (MakeMap n :: l, y)) /\
  (exists l y, Trace2 W room S (Datatypes.S fuel) m x b = (MakeMap n :: l, y)).
Proof.
  intros W room S fuel m x i rest kk t n HC HT HW Ho Ef Hn b.
  assert (H8 : zlen b <= 9). { unfold b. cbn [wire]. rewrite !zlen_cons. pose proof (varint_le n 5 ltac:(lia) ltac:(lia) ltac:(cbn; lia)). lia. }
  assert (Hi : int_ok W (b ++ [])). { split; [exact HW|]. rewrite app_nil_r. destruct HW as [->| ->]; lia. }
  split; [exact H8|]. rewrite <- (app_nil_r b). split; [apply (firstmap1 W room S fuel m x i rest kk t n [])|apply (firstmap2 W room S fuel m x i rest kk t n [])]; try assumption; constructor.
Qed.
Print Assumptions c78_nine_bytes_refuted.
(** message 0 { map<string, int32> a; message0 b } *)
Example c78_map_example : let S := [[MapOf KString (Scalar KInt32); One (Msg 0)]] in let x := [GMap None; GMsg None] in
  compiles S = true /\ struct_type S x 0 /\
  (exists l y, Trace2 64 unlimited S 1 0 x [2; 5; 12; 10; 255; 255; 255; 255; 15] = (MakeMap (2 ^ 32 - 1) :: l, y)).
Proof.
  cbv zeta. set (S := [[MapOf KString (Scalar KInt32); One (Msg 0)]]). assert (HC : compiles S = true) by reflexivity.
  assert (HT : struct_type S [GMap None; GMsg None] 0) by (vm_compute; repeat split; repeat constructor; try discriminate).
  split; [exact HC|]. split; [exact HT|].
  destruct (c78_nine_bytes_refuted 64 unlimited S 0 0 _ 0%nat [1%nat] KString (Scalar KInt32) (2 ^ 32 - 1) HC HT (or_introl eq_refl) eq_refl eq_refl ltac:(lia)) as (_ & _ & E). exact E.
Qed.
(** With limited memory (a 32-bit int, a small heap) the execution is the same up to the first slice there is no room for, and
    panics there. *)
Theorem c78_limited_memory : forall W room S fuel m x b,
  Trace1 W room S fuel m x b = limit room (Trace1 W unlimited S fuel m x b) /\
  Trace2 W room S fuel m x b = limit room (Trace2 W unlimited S fuel m x b).
Proof. intros. split; [apply trace1_limit|apply trace2_limit]. Qed.
Print Assumptions c78_limited_memory.

(** message 0 { repeated int32 a }: eight bytes; a 32-bit program panics. *)
Example c78_example : let S := [[Many (Scalar KInt32)]] in let x := [GList []] in let b := [1; 12; 10; 255; 255; 255; 255; 15] in
  compiles S = true /\ struct_type S x 0 /\ every_element_counts true S /\
  (exists l y, Trace2 64 unlimited S 1 0 x b = (MakeSlice (2 ^ 32 - 1) :: l, y)) /\
  (exists l y, Trace1 64 unlimited S 1 0 x b = (MakeSlice (2 ^ 32 - 1) :: l, y)) /\
  Trace2 32 (fun n => n <? 2 ^ 31) S 1 0 x b = ([MakeSlice (2 ^ 32 - 1)], TPanic) /\
  Trace1 32 (fun n => n <? 2 ^ 31) S 1 0 x b = ([MakeSlice (2 ^ 32 - 1)], TPanic) /\
  Trace2 64 unlimited S 1 0 x [1; 12; 10; 2; 12; 2; 12; 4] = ([MakeSlice 2], TDone [] [GList [GPrim (VI32 1); GPrim (VI32 2)]]).
Proof.
  cbv zeta. assert (HC : compiles [[Many (Scalar KInt32)]] = true) by reflexivity.
  assert (HT : struct_type [[Many (Scalar KInt32)]] [GList []] 0) by (vm_compute; repeat split; repeat constructor; try discriminate).
  split; [exact HC|]. split; [exact HT|]. split.
  { split.
    - intros m V. inversion V as [m' L Hf]; subst. cbn in L. assert (m = 0%nat) as -> by lia. specialize (Hf _ (or_introl eq_refl)). destruct Hf as [[C1 C2]|(q & C1 & _)]; congruence.
    - intros _ fs [<-|[]] [C|[]]; discriminate C. }
  pose proof (c78_eight_bytes_refuted 64 unlimited _ 0 0 _ 0%nat [] (Scalar KInt32) [] (2 ^ 32 - 1) HC HT (or_introl eq_refl) eq_refl eq_refl eq_refl ltac:(cbn; lia) ltac:(lia)) as (_ & (l1 & y1 & E1 & _) & (l2 & y2 & E2 & _)).
  split; [exists l2, y2; exact E2|]. split; [exists l1, y1; exact E1|]. split; [reflexivity|]. split; reflexivity.
Qed.
