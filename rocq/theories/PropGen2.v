(** Properties C73 and C74: generated Go decoders given an error, a truncated message, or more input. *)
From Coq Require Import String.
From Verif Require Import Base Spec GoSpec BufSpec GenTables GenModel GenSpec.
From Verif Require Import SpecProofs GenLemmas GenFields GenThms GenThms2 GenThms3 GenTerm2 GenTerm4 GenExt GenStuck GenThms4.
From Verif Require V1Model V2Model.

(** C73: x.Error(b, err) writes the error where a message would be. *)
Theorem c73_v1_error_written : forall g b p, V1Model.wf b -> payload_ok p ->
  exists b', Error1 g b p = Ok b' /\ V1Model.wf b' /\ V1Model.Bytes b' = V1Model.Bytes b ++ wire (VError p).
Proof. exact error1. Qed.
Print Assumptions c73_v1_error_written.
Theorem c73_v2_error_written : forall g b p, V2Model.wf b -> payload_ok p ->
  exists b' l, V2Model.Bytes b = Ok l /\ Error2 g b p = Ok b' /\ V2Model.wf b' /\ V2Model.Bytes b' = Ok (l ++ wire (VError p)).
Proof. exact error2. Qed.
Print Assumptions c73_v2_error_written.
(** A generated Go decoder does not take it for a message: it returns an error without panicking
    (unless the stack is too small, see C48).  The only exception are message types made of nothing
    but (empty) messages, which decode successfully from anything and leave the error unread. *)
Theorem c73_error_is_not_a_message : forall W S fuel m x p r, compiles S = true -> (m < length S)%nat -> struct_type S x m ->
  bytes_ok (wire (VError p) ++ r) -> int_ok W (wire (VError p) ++ r) ->
  let b := wire (VError p) ++ r in
  (exists y, Decode1 W S fuel m (Some x) b = Some y /\
     (y = GDeep \/ (exists e, y = GErr e) \/ (vacuous false S m /\ exists z, y = GDone b z))) /\
  (exists y, Decode2 W S fuel m (Some x) b = Some y /\
     (y = GDeep \/ (exists e, y = GErr e) \/ (vacuous false S m /\ exists z, y = GDone b z))).
Proof. intros W S fuel m x p r HC L Hx Hb Hi. cbv zeta. apply stuck_input; auto. apply error_first. Qed.
Print Assumptions c73_error_is_not_a_message.
(** Which error: the one of the decoder method for the first scalar field.  The text of the error that was
    sent does not reach the caller. *)
Theorem c73_which_error : forall W S fuel m x p r k pre post, compiles S = true -> (m < length S)%nat -> struct_type S x m ->
  bytes_ok (wire (VError p) ++ r) -> int_ok W (wire (VError p) ++ r) ->
  fields_of S m = pre ++ One (Scalar k) :: post -> existsb is_scalar pre = false ->
  exists t, scalar_type k = Some t /\
    Decode1 W S (Datatypes.S fuel) m (Some x) (wire (VError p) ++ r) = Some (GErr (error_of t)) /\
    Decode2 W S (Datatypes.S fuel) m (Some x) (wire (VError p) ++ r) = Some (GErr (error_of t)).
Proof. intros W S fuel m x p r k pre post HC L Hx Hb Hi Ef Hp. eapply stuck_scalar; eauto. apply error_first. Qed.
Print Assumptions c73_which_error.
(** The empty input is treated the same way. *)
Theorem c73_no_input : forall W S fuel m x, compiles S = true -> (m < length S)%nat -> struct_type S x m -> W = 64 \/ W = 32 ->
  (exists y, Decode1 W S fuel m (Some x) [] = Some y /\
     (y = GDeep \/ (exists e, y = GErr e) \/ (vacuous false S m /\ exists z, y = GDone [] z))) /\
  (exists y, Decode2 W S fuel m (Some x) [] = Some y /\
     (y = GDeep \/ (exists e, y = GErr e) \/ (vacuous false S m /\ exists z, y = GDone [] z))).
Proof.
  intros W S fuel m x HC L Hx HW. apply stuck_input; auto; [constructor|]. split; [exact HW|]. cbn. destruct HW as [->| ->]; lia.
Qed.
Print Assumptions c73_no_input.
(** message 0 { repeated message1 a; int32 b; string c }, message 1 { } *)
Definition ex73 : schema := [[Many (Msg 1); One (Scalar KInt32); One (Scalar KString)]; []].
Example c73_example : compiles ex73 = true /\ struct_type ex73 (zero_struct ex73 0) 0 /\
  Decode1 64 ex73 5 0 (Some (zero_struct ex73 0)) (wire (VError [110; 111])) = Some (GErr EI32) /\
  Decode2 64 ex73 5 0 (Some (zero_struct ex73 0)) (wire (VError [110; 111]) ++ [1; 2]) = Some (GErr EI32) /\
  vacuous false ex73 1 /\ ~ vacuous false ex73 0 /\
  Decode2 64 ex73 5 1 (Some []) (wire (VError [110])) = Some (GDone (wire (VError [110])) []).
Proof.
  split; [reflexivity|]. split; [apply zero_struct_type; [reflexivity|cbn; lia]|]. split; [reflexivity|]. split; [reflexivity|].
  split; [constructor; [cbn; lia|intros f []]|]. split; [|reflexivity].
  intros H. inversion H as [? _ H1]; subst. destruct (H1 (Many (Msg 1)) (or_introl eq_refl)) as [[C _]|(q & C & _)]; discriminate C.
Qed.

(** C74: what was decoded successfully is decoded to the same value whatever follows (unless there are
    message types without content). *)
Theorem c74_v1_more_input : forall W S fuel m x b q r y, compiles S = true -> (forall k, ~ vacuous false S k) ->
  W = 64 \/ W = 32 -> (m < length S)%nat -> bytes_ok (b ++ q) -> int_ok W (b ++ q) ->
  Decode1 W S fuel m (Some x) b = Some (GDone r y) -> Decode1 W S fuel m (Some x) (b ++ q) = Some (GDone (r ++ q) y).
Proof. intros. apply append1; assumption. Qed.
Print Assumptions c74_v1_more_input.
Theorem c74_v2_more_input : forall W S fuel m x b q r y, compiles S = true -> (forall k, ~ vacuous false S k) ->
  W = 64 \/ W = 32 -> (m < length S)%nat -> bytes_ok (b ++ q) -> int_ok W (b ++ q) ->
  Decode2 W S fuel m (Some x) b = Some (GDone r y) -> Decode2 W S fuel m (Some x) (b ++ q) = Some (GDone (r ++ q) y).
Proof. intros. apply append2; assumption. Qed.
Print Assumptions c74_v2_more_input.
(** A truncated message is never accepted, whatever struct it is decoded into and however much stack there is. *)
Theorem c74_v1_truncated : forall W S K m xs x p q fuel, compiles S = true -> new_ok S K -> (forall k, ~ vacuous false S k) ->
  struct_type S xs m -> readable S (GMsg (Some xs)) (One (Msg m)) -> struct_type S x m ->
  layout S (GMsg (Some xs)) (One (Msg m)) = p ++ q -> q <> [] -> int_ok W (p ++ q) ->
  forall r y, Decode1 W S fuel m (Some x) p <> Some (GDone r y).
Proof. exact truncated1. Qed.
Print Assumptions c74_v1_truncated.
Theorem c74_v2_truncated : forall W S m xs x p q fuel, compiles S = true -> (forall k, ~ vacuous false S k) ->
  struct_type S xs m -> readable S (GMsg (Some xs)) (One (Msg m)) -> struct_type S x m ->
  layout S (GMsg (Some xs)) (One (Msg m)) = p ++ q -> q <> [] -> int_ok W (p ++ q) ->
  forall r y, Decode2 W S fuel m (Some x) p <> Some (GDone r y).
Proof. exact truncated2. Qed.
Print Assumptions c74_v2_truncated.
(** A condition on the schema alone under which no message type is without content. *)
Theorem c74_plain_schemas : forall S, (forall m fs, nth_error S m = Some fs -> existsb plain_field fs = true) ->
  forall k, ~ vacuous false S k.
Proof.
  intros S H k V. inversion V as [m L Hf]; subst. specialize (H k _ (fields_nth S k L)). apply existsb_exists in H. destruct H as (f & Hi & Hp).
  destruct (Hf f Hi) as [[C _]|(q & -> & _)]; discriminate.
Qed.
Print Assumptions c74_plain_schemas.
(** message 0 { int32 a; message1 b }, message 1 { repeated string s } *)
Definition ex74 : schema := [[One (Scalar KInt32); One (Msg 1)]; [Many (Scalar KString)]].
Definition ex74_value : list gval := [GPrim (VI32 7); GMsg (Some [GList [GPrim (VString [104])]])].
Example c74_example : compiles ex74 = true /\ (forall k, ~ vacuous false ex74 k) /\ new_ok ex74 2 /\ struct_type ex74 ex74_value 0 /\
  readable ex74 (GMsg (Some ex74_value)) (One (Msg 0)) /\
  layout ex74 (GMsg (Some ex74_value)) (One (Msg 0)) = [12; 14; 1; 5; 10; 1; 5; 10] ++ [1; 104] /\
  Decode2 64 ex74 9 0 (Some (zero_struct ex74 0)) [12; 14; 1; 5; 10; 1; 5; 10] = Some (GErr EString) /\
  Decode1 64 ex74 9 0 (Some (zero_struct ex74 0)) [12; 14] = Some (GErr ESlice).
Proof.
  assert (HP : forall m fs, nth_error ex74 m = Some fs -> existsb plain_field fs = true).
  { intros [|[|m]] fs H; try (injection H as <-; reflexivity). destruct m; discriminate H. }
  assert (HT : struct_type ex74 ex74_value 0) by (vm_compute; repeat split; repeat constructor; try discriminate).
  split; [reflexivity|]. split; [apply c74_plain_schemas; exact HP|]. split; [intros [|[|m]] L; try (do 2 eexists; reflexivity); cbn in L; lia|].
  split; [exact HT|]. split; [apply plain_readable; assumption|]. split; [reflexivity|]. split; reflexivity.
Qed.
(** Refuted without the condition: message 0 { int32 a; message1 b }, message 1 { }.  The same message, followed
    by a Nil, is read differently by version 2; version 1 consumes the Nil. *)
Theorem c74_empty_types_refuted : let S := [[One (Scalar KInt32); One (Msg 1)]; []] in
  let old := [GPrim (VI32 0); GMsg None] in
  compiles S = true /\ struct_type S old 0 /\
  Decode2 64 S 5 0 (Some old) [12; 14] = Some (GDone [] [GPrim (VI32 7); GMsg (Some [])]) /\
  Decode2 64 S 5 0 (Some old) ([12; 14] ++ [0]) = Some (GDone [] [GPrim (VI32 7); GMsg None]) /\
  Decode1 64 S 5 0 (Some old) [12; 14] = Some (GDone [] [GPrim (VI32 7); GMsg (Some [])]) /\
  Decode1 64 S 5 0 (Some old) ([12; 14] ++ [0]) = Some (GDone [] [GPrim (VI32 7); GMsg (Some [])]).
Proof.
  cbv zeta. split; [reflexivity|]. split; [vm_compute; repeat split; lia || discriminate|]. repeat split; reflexivity.
Qed.
Print Assumptions c74_empty_types_refuted.
