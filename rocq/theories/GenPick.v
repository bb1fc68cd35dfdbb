(** A failed decode read a prefix of the fields (in wire order) the way a message type made of just these fields would. *)
From Coq Require Import String.
From Verif Require Import Base Spec SpecProofs GoSpec GoIdeal GoProps GoThms GoThms2 GoThms3 BufSpec GenTables GenModel GenSpec GenLemmas GenFields GenDec GenThms GenThms2 GenThms3 GenTerm GenTerm2 GenTerm3 GenTerm4 GenTrace TraceSpec GenTraceThms GenTraceSplit.
From Verif Require V1Model V2Model.

Section More.
Variable v2 : bool.
Variable prim : option bytes -> request -> bytes -> outcome.
Variable S : schema.
Variable gs : list field.
Hypothesis HC : compiles S = true.
Let S' := S ++ [gs].
Lemma more_nth m : (m < length S)%nat -> nth_error S' m = nth_error S m.
Proof. intros L. apply nth_error_app1. exact L. Qed.
Lemma more_len m : (m < length S)%nat -> (m < length S')%nat.
Proof. unfold S'. rewrite app_length. lia. Qed.
Lemma more_fields m : (m < length S)%nat -> fields_of S' m = fields_of S m.
Proof. intros L. unfold fields_of, S'. apply app_nth1. exact L. Qed.
Lemma ref_lt m : Nat.ltb m (length S) = true -> (m < length S)%nat. Proof. apply Nat.ltb_lt. Qed.
Lemma New_more : forall fuel m, (m < length S)%nat -> New v2 S' fuel m = New v2 S fuel m.
Proof.
  destruct v2.
  - intros fuel m L. rewrite !New_v2 by auto using more_len. unfold zero_struct. rewrite more_fields by exact L. reflexivity.
  - induction fuel as [|fuel IH]; intros m L.
    { cbn [New]. rewrite more_nth by exact L. reflexivity. }
    rewrite !New_v1 by auto using more_len. rewrite more_fields by exact L. pose proof (compiles_msg S m HC L) as C.
    induction (fields_of S m) as [|f fs IHf]; [reflexivity|]. cbn [forallb] in C. apply andb_prop in C. destruct C as [Cf C].
    cbn [new_fields]. rewrite (IHf C). destruct f as [[k|k]| |]; try reflexivity. rewrite IH; [reflexivity|apply ref_lt; exact Cf].
Qed.
Section R.
Variable fuel : nat.
Variables rec rec' : nat -> list gval -> bytes -> gres (list gval).
Hypothesis HR : forall m x b, (m < length S)%nat -> rec' m x b = rec m x b.
Lemma gbind_ext {A B} (x : gres A) (k k' : bytes -> A -> gres B) : (forall r a, k r a = k' r a) -> gbind x k = gbind x k'.
Proof. intros H. destruct x; cbn [gbind]; auto. Qed.
Lemma or_new_more m x : (m < length S)%nat -> or_new v2 S' fuel m x = or_new v2 S fuel m x.
Proof. intros L. destruct x as [v|l|o|o]; try reflexivity; destruct o as [s|]; try reflexivity; apply New_more. exact L. Qed.
Lemma elems_more t : match t with Msg m => (m < length S)%nat | _ => True end -> forall xs b,
  dec_elems v2 prim S' fuel rec' t xs b = dec_elems v2 prim S fuel rec t xs b.
Proof.
  intros Ht. induction xs as [|x xs IH]; intros b; [reflexivity|]. cbn [dec_elems].
  assert (E : match t with
      | Msg m => gbind (or_new v2 S' fuel m x) (fun _ s => gbind (rec' m s b) (fun r s => GDone r (GMsg (Some s))))
      | Scalar k => gbind (dec_call prim None k b) (fun r v => GDone r (GPrim v)) end =
    match t with
      | Msg m => gbind (or_new v2 S fuel m x) (fun _ s => gbind (rec m s b) (fun r s => GDone r (GMsg (Some s))))
      | Scalar k => gbind (dec_call prim None k b) (fun r v => GDone r (GPrim v)) end).
  { destruct t as [k|m]; [reflexivity|]. rewrite or_new_more by exact Ht. apply gbind_ext. intros _ s. rewrite HR by exact Ht. reflexivity. }
  rewrite E. apply gbind_ext. intros r y. rewrite IH. reflexivity.
Qed.
Lemma slice_more f old b : field_compiles S f = true -> dec_slice v2 prim S' fuel rec' f old b = dec_slice v2 prim S fuel rec f old b.
Proof.
  intros FC. destruct f as [t|t|kk t]; try reflexivity. destruct old as [v|xs|o|o]; try reflexivity. cbn [dec_slice].
  destruct (kind_number _) as [k|]; [|reflexivity]. unfold call. destruct (prim None (RSlice k) b) as [r v|r e|]; try reflexivity.
  destruct v; try reflexivity. cbv zeta. rewrite elems_more; [reflexivity|]. destruct t; [exact I|apply ref_lt; exact FC].
Qed.
Lemma entries_more kk t : match t with Msg m => (m < length S)%nat | _ => True end -> forall n l b,
  dec_entries v2 prim S' fuel rec' kk t n l b = dec_entries v2 prim S fuel rec kk t n l b.
Proof.
  intros Ht. induction n as [|n IH]; intros l b; [reflexivity|]. cbn [dec_entries]. apply gbind_ext. intros r k.
  assert (E : match t with
      | Msg m => gbind (New v2 S' fuel m) (fun _ s => gbind (rec' m s r) (fun r s => GDone r (GMsg (Some s))))
      | Scalar k => gbind (dec_call prim None k r) (fun r v => GDone r (GPrim v)) end =
    match t with
      | Msg m => gbind (New v2 S fuel m) (fun _ s => gbind (rec m s r) (fun r s => GDone r (GMsg (Some s))))
      | Scalar k => gbind (dec_call prim None k r) (fun r v => GDone r (GPrim v)) end).
  { destruct t as [k'|m]; [reflexivity|]. rewrite New_more by exact Ht. apply gbind_ext. intros _ s. rewrite HR by exact Ht. reflexivity. }
  rewrite E. apply gbind_ext. intros r' y. apply IH.
Qed.
Lemma message_more f old b : field_compiles S f = true -> dec_message v2 prim S' fuel rec' f old b = dec_message v2 prim S fuel rec f old b.
Proof.
  intros FC. destruct f as [[k|m]|t|kk t]; try reflexivity; cbn [dec_message].
  - apply ref_lt in FC. assert (E : forall (x : gres (list gval)) b, gbind x (fun _ s => gbind (rec' m s b) (fun r s => GDone r (GMsg (Some s)))) =
      gbind x (fun _ s => gbind (rec m s b) (fun r s => GDone r (GMsg (Some s))))).
    { intros x b0. apply gbind_ext. intros _ s. rewrite HR by exact FC. reflexivity. }
    rewrite or_new_more by exact FC. destruct v2 eqn:Ev; [|apply E]. unfold if_nil. destruct (prim None RNil b); try reflexivity.
    rewrite <- Ev. rewrite New_more by exact FC. apply E.
  - cbn [field_compiles] in FC. apply andb_prop in FC. destruct FC as [_ FC]. unfold if_nil. destruct (prim None RNil b) as [r v|r e|]; try reflexivity.
    destruct (kind_number (go_GetKind kk)) as [k1|]; [|reflexivity]. destruct (kind_number (go_GetKind (tkind t))) as [k2|]; [|reflexivity].
    unfold call. destruct (prim None (RMap k1 k2) r) as [r' v'|? ?|]; try reflexivity. destruct v'; try reflexivity.
    rewrite entries_more; [reflexivity|]. destruct t; [exact I|apply ref_lt; exact FC].
Qed.
End R.
Lemma pass_same step step' fs : forall is x b, (forall i f, In i is -> nth_error fs i = Some f -> forall o b, step f o b = step' f o b) ->
  pass step fs is x b = pass step' fs is x b.
Proof.
  induction is as [|i is IH]; intros x b H; [reflexivity|]. cbn [pass]. destruct (nth_error fs i) as [f|] eqn:Ef; [|reflexivity].
  destruct (nth_error x i) as [old|]; [|reflexivity]. rewrite (H i f (or_introl eq_refl) Ef). apply gbind_ext. intros r y. apply IH.
  intros j g Hj. apply H. right. exact Hj.
Qed.
Lemma decode_more : forall fuel m x b, (m < length S)%nat -> decode v2 prim S' fuel m x b = decode v2 prim S fuel m x b.
Proof.
  induction fuel as [|fuel IH]; intros m x b L; [reflexivity|]. cbn [decode]. unfold if_nil. destruct (prim None RNil b) as [r v|r e|]; [reflexivity| |reflexivity].
  rewrite more_nth by exact L. rewrite (fields_nth S m L). destruct (getFields go_decodeLUT (fields_of S m) 0) as [[[other slices] messages]|]; [|reflexivity].
  assert (FC : forall i f, nth_error (fields_of S m) i = Some f -> field_compiles S f = true) by (intros i f; apply compiles_field; exact HC).
  apply gbind_ext. intros b1 x1. rewrite (pass_same _ (dec_slice v2 prim S fuel (decode v2 prim S fuel))).
  - apply gbind_ext. intros b2 x2. apply pass_same. intros i f _ Ef o b0. apply message_more; [exact IH|eapply FC; exact Ef].
  - intros i f _ Ef o b0. apply slice_more; [exact IH|eapply FC; exact Ef].
Qed.
Lemma step_more fuel f old b : field_compiles S f = true -> step v2 prim S' fuel f old b = step v2 prim S fuel f old b.
Proof.
  intros FC. destruct f as [[k|m]|t|kk t]; cbn [step]; [reflexivity| | |].
  - apply message_more; [intros; apply decode_more; assumption|exact FC].
  - apply slice_more; [intros; apply decode_more; assumption|exact FC].
  - apply message_more; [intros; apply decode_more; assumption|exact FC].
Qed.
End More.
