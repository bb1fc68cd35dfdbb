(** Properties C75 and C76: sender and receiver generated from different versions of a schema. *)
From Coq Require Import String.
From Verif Require Import Base Spec GoSpec BufSpec GenTables GenModel GenSpec EvolveSpec.
From Verif Require Import SpecProofs GenLemmas GenFields GenThms GenThms2 GenThms3 GenTerm2 GenTerm4 GenThms4 EvolveThms.
From Verif Require V1Model V2Model.

(** C75: what may be changed in a schema.  Names, field numbers, message numbers, and kinds with the same wire
    form: values of the one are values of the other and have the same encoding. *)
Theorem c75_same_encoding : forall S S' corr a b xs, compatible S S' corr -> corr a b -> struct_type S xs a ->
  struct_type S' xs b /\
  layout S' (GMsg (Some xs)) (One (Msg b)) = layout S (GMsg (Some xs)) (One (Msg a)) /\
  (readable S (GMsg (Some xs)) (One (Msg a)) -> readable S' (GMsg (Some xs)) (One (Msg b))).
Proof. exact same_bytes. Qed.
Print Assumptions c75_same_encoding.
(** ... so what a sender with [S] encodes, a receiver with [S'] decodes to the same values. *)
Theorem c75_v2_exchange : forall W g S S' corr a b bf l xs r fuel, compiles S = true -> compiles S' = true ->
  compatible S S' corr -> corr a b -> struct_type S xs a -> readable S (GMsg (Some xs)) (One (Msg a)) ->
  tidy false (GMsg (Some xs)) -> small_bytes (prims (GMsg (Some xs))) -> V2Model.wf bf -> V2Model.Bytes bf = Ok l ->
  bytes_ok r -> (depth (GMsg (Some xs)) <= fuel)%nat ->
  exists bf' out s, Encode2 g S bf a (Some xs) = Some (Ok bf') /\ V2Model.Bytes bf' = Ok (l ++ out) /\
    New true S' fuel b = GDone [] s /\
    (int_ok W (out ++ r) -> Decode2 W S' fuel b (Some s) (out ++ r) = Some (GDone r xs)).
Proof.
  intros W g S S' corr a b bf l xs r fuel HC HC' HK Hc HT HR HTi HS HW HB Hr HF.
  destruct (same_bytes S S' corr a b xs HK Hc HT) as (HT' & El & HR'). specialize (HR' HR).
  destruct (encode2_layout g S bf a xs HC HT HW HS) as (b' & l' & E1 & E2 & _ & E3).
  rewrite HB in E1. injection E1 as <-. exists b', (layout S (GMsg (Some xs)) (One (Msg a))), (zero_struct S' b).
  split; [exact E2|]. split; [exact E3|]. split; [apply New_v2; apply ht_msg in HT'; apply HT'|]. intros Hi. rewrite <- El in *.
  destruct (decode2_fresh W S' b xs r fuel HC' HT' HR' HTi Hr Hi HF) as (s & Es & Ds).
  rewrite New_v2 in Es by (apply ht_msg in HT'; apply HT'). injection Es as <-. exact Ds.
Qed.
Print Assumptions c75_v2_exchange.
Theorem c75_v1_exchange : forall W g S S' K corr a b bf xs old r fuel, compiles S = true -> compiles S' = true -> new_ok S' K ->
  compatible S S' corr -> corr a b -> struct_type S xs a -> readable S (GMsg (Some xs)) (One (Msg a)) ->
  no_nil (GMsg (Some xs)) -> struct_type S' old b -> V1Model.wf bf ->
  bytes_ok r -> (depth (GMsg (Some xs)) + K <= fuel)%nat ->
  exists bf' out, Encode1 g S bf a (Some xs) = Some (Ok bf') /\ V1Model.Bytes bf' = V1Model.Bytes bf ++ out /\
    (int_ok W (out ++ r) -> Decode1 W S' fuel b (Some old) (out ++ r) = Some (GDone r xs)).
Proof.
  intros W g S S' K corr a b bf xs old r fuel HC HC' HN HK Hc HT HR HTi HO HW Hr HF.
  destruct (same_bytes S S' corr a b xs HK Hc HT) as (HT' & El & HR'). specialize (HR' HR).
  destruct (encode1_layout g S bf a xs HC HT HW) as (b' & E2 & _ & E3).
  exists b', (layout S (GMsg (Some xs)) (One (Msg a))). split; [exact E2|]. split; [exact E3|]. intros Hi. rewrite <- El in *.
  eapply decode1_reuse; eassumption.
Qed.
Print Assumptions c75_v1_exchange.
(** Also a field may be moved past one of another group (scalars, repeated fields, messages and maps). *)
Theorem c75_moved_field : forall S S' corr m m' pre f g post pre' f' g' post' xs x y ys, compatible S S' corr ->
  fields_of S m = pre ++ f :: g :: post -> fields_of S' m' = pre' ++ g' :: f' :: post' ->
  Forall2 (like corr) (pre ++ f :: g :: post) (pre' ++ f' :: g' :: post') -> length pre = length pre' ->
  rank f <> rank g -> length xs = length pre ->
  layout S' (GMsg (Some (xs ++ y :: x :: ys))) (One (Msg m')) = layout S (GMsg (Some (xs ++ x :: y :: ys))) (One (Msg m)).
Proof. exact moved. Qed.
Print Assumptions c75_moved_field.
(** message 0 { int32 a; repeated uint64 b; map<string, message1> c } / message 1 { enum e }   and
    message 0 { fixed32 e } / message 1 { sint32 a; repeated fixed64 b; map<string, message0> c } *)
Definition ex75 : schema := [[One (Scalar KInt32); Many (Scalar KUint64); MapOf GenTables.KString (Msg 1)]; [One (Scalar KEnum)]].
Definition ex75' : schema := [[One (Scalar KFixed32)]; [One (Scalar KSint32); Many (Scalar KFixed64); MapOf GenTables.KString (Msg 0)]].
Definition ex75_corr (a b : nat) : Prop := (a = 0 /\ b = 1)%nat \/ (a = 1 /\ b = 0)%nat.
Definition ex75_value : list gval :=
  [GPrim (VI32 (-3)); GList [GPrim (VU64 5)]; GMap (Some [(VString [107], GMsg (Some [GPrim (VU32 2)]))])].
Example c75_example : compiles ex75 = true /\ compiles ex75' = true /\ compatible ex75 ex75' ex75_corr /\ ex75_corr 0 1 /\
  struct_type ex75 ex75_value 0 /\ readable ex75 (GMsg (Some ex75_value)) (One (Msg 0)) /\ no_nil (GMsg (Some ex75_value)) /\
  layout ex75 (GMsg (Some ex75_value)) (One (Msg 0)) = [12; 5; 1; 11; 10; 1; 11; 5; 2; 5; 3; 10; 1; 5; 10; 1; 107; 10; 2] /\
  layout ex75' (GMsg (Some ex75_value)) (One (Msg 1)) = [12; 5; 1; 11; 10; 1; 11; 5; 2; 5; 3; 10; 1; 5; 10; 1; 107; 10; 2].
Proof.
  assert (HT : struct_type ex75 ex75_value 0).
  { apply ht_msg. split; [cbn; lia|]. repeat constructor; cbn; try lia; repeat constructor; cbn; unfold isbyte; try lia; intros []. }
  split; [reflexivity|]. split; [reflexivity|]. split.
  { intros a b [[-> ->]|[-> ->]]; (split; [cbn; lia|]; split; [cbn; lia|]); repeat match goal with |- Forall2 _ _ _ => constructor end; cbn; unfold ex75_corr; auto. }
  split; [left; auto|]. split; [exact HT|]. split.
  { apply plain_readable; [|exact HT]. intros [|[|m]] fs H; try (injection H as <-; reflexivity). destruct m; discriminate H. }
  split; [cbn; tauto|]. split; reflexivity.
Qed.
(** Refuted: fields of the same group may not change places.  With { int32 a; int32 b } on the one side and
    { int32 b; int32 a } on the other, the message a = 1, b = 2 is encoded differently, and the receiver reads the
    sender's message as b = 1, a = 2, without an error. *)
Theorem c75_order_refuted : let S := [[One (Scalar KInt32); One (Scalar KInt32)]] in let S' := S in
  let sent := layout S (GMsg (Some [GPrim (VI32 1); GPrim (VI32 2)])) (One (Msg 0)) in       (* a, b *)
  let wanted := layout S' (GMsg (Some [GPrim (VI32 2); GPrim (VI32 1)])) (One (Msg 0)) in    (* b, a *)
  sent <> wanted /\
  Decode2 64 S' 3 0 (Some (zero_struct S' 0)) sent = Some (GDone [] [GPrim (VI32 1); GPrim (VI32 2)]).
Proof. cbv zeta. split; [discriminate|reflexivity]. Qed.
Print Assumptions c75_order_refuted.

(** C76: added fields.  A reader that does not know the fields at the end of a message reads the fields it
    knows and leaves the others unread, if no added field belongs to an earlier group than an old one. *)
Theorem c76_v2_old_reader : forall W S S' corr m m' ext xs ys old fuel, compiles S = true -> compiles S' = true ->
  grown S S' corr m m' ext -> in_order (fields_of S m) ext -> length xs = length (fields_of S m) ->
  struct_type S' (xs ++ ys) m' -> readable S (GMsg (Some xs)) (One (Msg m)) -> struct_type S old m ->
  (depth (GMsg (Some xs)) <= fuel)%nat ->
  exists p y, layout S' (GMsg (Some (xs ++ ys))) (One (Msg m')) = layout S (GMsg (Some xs)) (One (Msg m)) ++ p /\
    GMsg (Some y) = overlay true S (zero_struct S) false (GMsg (Some xs)) (One (Msg m)) (GMsg (Some old)) /\
    forall r, bytes_ok r -> int_ok W (layout S' (GMsg (Some (xs ++ ys))) (One (Msg m')) ++ r) ->
      Decode2 W S fuel m (Some old) (layout S' (GMsg (Some (xs ++ ys))) (One (Msg m')) ++ r) = Some (GDone (p ++ r) y).
Proof. exact old_reader2. Qed.
Print Assumptions c76_v2_old_reader.
Theorem c76_v1_old_reader : forall W S S' K corr m m' ext xs ys old fuel, compiles S = true -> compiles S' = true -> new_ok S K ->
  grown S S' corr m m' ext -> in_order (fields_of S m) ext -> length xs = length (fields_of S m) ->
  struct_type S' (xs ++ ys) m' -> readable S (GMsg (Some xs)) (One (Msg m)) -> struct_type S old m ->
  (depth (GMsg (Some xs)) + K <= fuel)%nat ->
  exists p y, layout S' (GMsg (Some (xs ++ ys))) (One (Msg m')) = layout S (GMsg (Some xs)) (One (Msg m)) ++ p /\
    GMsg (Some y) = overlay false S (blank1 S K) false (GMsg (Some xs)) (One (Msg m)) (GMsg (Some old)) /\
    forall r, bytes_ok r -> int_ok W (layout S' (GMsg (Some (xs ++ ys))) (One (Msg m')) ++ r) ->
      Decode1 W S fuel m (Some old) (layout S' (GMsg (Some (xs ++ ys))) (One (Msg m')) ++ r) = Some (GDone (p ++ r) y).
Proof. exact old_reader1. Qed.
Print Assumptions c76_v1_old_reader.
(** A reader that expects added fields never accepts a message without them. *)
Theorem c76_v2_new_reader : forall W S S' corr m m' ext xs old fuel, compiles S' = true -> (forall k, ~ vacuous false S' k) ->
  grown S S' corr m m' ext -> in_order (fields_of S m) ext -> ext <> [] ->
  struct_type S xs m -> readable S (GMsg (Some xs)) (One (Msg m)) -> struct_type S' old m' ->
  int_ok W (layout S' (GMsg (Some (xs ++ map zero ext))) (One (Msg m'))) ->
  forall r y, Decode2 W S' fuel m' (Some old) (layout S (GMsg (Some xs)) (One (Msg m))) <> Some (GDone r y).
Proof. exact new_reader2. Qed.
Print Assumptions c76_v2_new_reader.
Theorem c76_v1_new_reader : forall W S S' K corr m m' ext xs old fuel, compiles S' = true -> new_ok S' K -> (forall k, ~ vacuous false S' k) ->
  grown S S' corr m m' ext -> in_order (fields_of S m) ext -> ext <> [] ->
  struct_type S xs m -> readable S (GMsg (Some xs)) (One (Msg m)) -> struct_type S' old m' ->
  int_ok W (layout S' (GMsg (Some (xs ++ map zero ext))) (One (Msg m'))) ->
  forall r y, Decode1 W S' fuel m' (Some old) (layout S (GMsg (Some xs)) (One (Msg m))) <> Some (GDone r y).
Proof. exact new_reader1. Qed.
Print Assumptions c76_v1_new_reader.
(** message 0 { int32 a; message1 b } / message 1 { string s }, extended by { map<int32, bool> c } *)
Definition ex76 : schema := [[One (Scalar KInt32); One (Msg 1)]; [One (Scalar GenTables.KString)]].
Definition ex76' : schema := [[One (Scalar KInt32); One (Msg 1); MapOf KInt32 (Scalar GenTables.KBool)]; [One (Scalar GenTables.KString)]].
Definition ex76_value : list gval := [GPrim (VI32 1); GMsg (Some [GPrim (VString [104])])].
Definition ex76_added : list gval := [GMap (Some [(VI32 4, GPrim (VBool true))])].
Example c76_example : compiles ex76 = true /\ compiles ex76' = true /\
  grown ex76 ex76' (fun a b => a = 1%nat /\ b = 1%nat) 0 0 [MapOf KInt32 (Scalar GenTables.KBool)] /\
  in_order (fields_of ex76 0) [MapOf KInt32 (Scalar GenTables.KBool)] /\
  struct_type ex76' (ex76_value ++ ex76_added) 0 /\ readable ex76 (GMsg (Some ex76_value)) (One (Msg 0)) /\ (forall k, ~ vacuous false ex76' k) /\
  Decode2 64 ex76 4 0 (Some (zero_struct ex76 0)) (layout ex76' (GMsg (Some (ex76_value ++ ex76_added))) (One (Msg 0))) =
    Some (GDone [2; 12; 7; 10; 1; 12; 8; 7; 1] ex76_value) /\
  Decode2 64 ex76' 4 0 (Some (zero_struct ex76' 0)) (layout ex76 (GMsg (Some ex76_value)) (One (Msg 0))) = Some (GErr EMap).
Proof.
  assert (HT : struct_type ex76' (ex76_value ++ ex76_added) 0).
  { apply ht_msg. split; [cbn; lia|]. repeat constructor; cbn; try lia; repeat constructor; cbn; unfold isbyte; try lia; intros []. }
  assert (HG : grown ex76 ex76' (fun a b => a = 1%nat /\ b = 1%nat) 0 0 [MapOf KInt32 (Scalar GenTables.KBool)]).
  { split; [|split; [cbn; lia|split; [cbn; lia|]]].
    - intros a b [-> ->]. split; [cbn; lia|]. split; [cbn; lia|]. repeat (constructor || reflexivity).
    - exists (fields_of ex76 0). split; [reflexivity|]. repeat (constructor || reflexivity). }
  split; [reflexivity|]. split; [reflexivity|]. split; [exact HG|]. split; [intros f e [<-|[<-|[]]] [<-|[]]; cbn; lia|]. split; [exact HT|].
  split; [apply plain_readable; [|eapply grown_type; [exact HG|exact HT|reflexivity]]|split; [|split; reflexivity]].
  - intros [|[|m]] fs H; try (injection H as <-; reflexivity). destruct m; discriminate H.
  - intros k V. inversion V as [m L Hf]; subst. destruct k as [|[|k]]; [| |cbn in L; lia].
    + destruct (Hf (One (Scalar KInt32)) (or_introl eq_refl)) as [[C _]|(q & C & _)]; discriminate C.
    + destruct (Hf (One (Scalar GenTables.KString)) (or_introl eq_refl)) as [[C _]|(q & C & _)]; discriminate C.
Qed.
(** Refuted: an added field of an earlier group.  message 0 { message1 b } / message 1 { int32 }, extended by
    { int32 a }: the old reader takes a for the contents of b. *)
Theorem c76_earlier_group_refuted :
  let S := [[One (Msg 1)]; [One (Scalar KInt32)]] in let S' := [[One (Msg 1); One (Scalar KInt32)]; [One (Scalar KInt32)]] in
  let xs := [GMsg (Some [GPrim (VI32 5)])] in
  compiles S = true /\ compiles S' = true /\ grown S S' (fun a b => a = 1%nat /\ b = 1%nat) 0 0 [One (Scalar KInt32)] /\
  struct_type S' (xs ++ [GPrim (VI32 7)]) 0 /\
  Decode2 64 S 4 0 (Some (zero_struct S 0)) (layout S' (GMsg (Some (xs ++ [GPrim (VI32 7)]))) (One (Msg 0))) =
    Some (GDone (wire (VI32 5)) [GMsg (Some [GPrim (VI32 7)])]).
Proof.
  cbv zeta. split; [reflexivity|]. split; [reflexivity|]. split; [|split; [vm_compute; repeat split; lia || discriminate|reflexivity]].
  split; [|split; [cbn; lia|split; [cbn; lia|]]].
  - intros a b [-> ->]. split; [cbn; lia|]. split; [cbn; lia|]. repeat (constructor || reflexivity).
  - eexists [_]. split; [reflexivity|]. repeat (constructor || reflexivity).
Qed.
Print Assumptions c76_earlier_group_refuted.
(** Refuted: fields added to a message inside another one.  message 0 { repeated message1 }, message 1 { int32 }
    extended by an int32: the old reader reads other values, without an error. *)
Theorem c76_nested_refuted :
  let S := [[Many (Msg 1)]; [One (Scalar KInt32)]] in let S' := [[Many (Msg 1)]; [One (Scalar KInt32); One (Scalar KInt32)]] in
  let e a b := GMsg (Some [GPrim (VI32 a); GPrim (VI32 b)]) in
  struct_type S' [GList [e 1 2; e 3 4]] 0 /\
  Decode2 64 S 4 0 (Some (zero_struct S 0)) (layout S' (GMsg (Some [GList [e 1 2; e 3 4]])) (One (Msg 0))) =
    Some (GDone (wire (VI32 3) ++ wire (VI32 4)) [GList [GMsg (Some [GPrim (VI32 1)]); GMsg (Some [GPrim (VI32 2)])]]).
Proof. cbv zeta. split; [vm_compute; repeat split; lia || discriminate|reflexivity]. Qed.
Print Assumptions c76_nested_refuted.
(** Refuted: an old message followed by other data.  { int32 } read as { int32; int32 }: the reader takes the
    missing field from what follows. *)
Theorem c76_followed_refuted :
  let S := [[One (Scalar KInt32)]] in let S' := [[One (Scalar KInt32); One (Scalar KInt32)]] in
  let old n := layout S (GMsg (Some [GPrim (VI32 n)])) (One (Msg 0)) in
  Decode2 64 S' 4 0 (Some (zero_struct S' 0)) (old 1 ++ old 2) = Some (GDone [] [GPrim (VI32 1); GPrim (VI32 2)]).
Proof. reflexivity. Qed.
Print Assumptions c76_followed_refuted.
