(** Running the generated encode functions: the whole program. *)
From Coq Require Import String.
From Verif Require Import Base Spec RustModel GenTables NameModel NameSpec EmitModel EmitSpec EmitThms EmitThms2 PkgThms GoAst GoEmit GoRunSpec GoLink GoSlices GoDecode RsGenModel RsAst RsEmit RsRunSpec RsRun1 RsRun2 RsRun3 RsRun4.
From Verif Require GenModel GenSpec.
Import GenModel (gval, GPrim, GList, GMap, GMsg, all_some).
Local Open Scope list_scope.

Fixpoint depth_le (x : gval) : (msg_depth x <= GenSpec.depth x)%nat.
Proof.
  destruct x as [v|l|[l|]|[l|]]; cbn [msg_depth GenSpec.depth]; try lia.
  - induction l as [|x l IH]; [cbn; lia|]. cbn [map fold_right]. pose proof (depth_le x). lia.
  - induction l as [|(k, x) l IH]; [cbn; lia|]. cbn [map fold_right]. pose proof (depth_le x). lia.
  - apply le_n_S. induction l as [|x l IH]; [cbn; lia|]. cbn [map fold_right]. pose proof (depth_le x). lia.
Qed.
(** what encode does for each field, by index *)
Lemma each_nth Sch : forall xs (fs : list rfield) i,
  nth i ((fix each (xs : list gval) (fs : list rfield) : list (option (list value)) := match xs, fs with x :: xs, f :: fs => rs_calls Sch x f :: each xs fs | _, _ => [] end) xs fs) None =
  match nth_error xs i, nth_error fs i with Some x, Some g => rs_calls Sch x g | _, _ => None end.
Proof.
  induction xs as [|x xs IH]; intros fs i; [destruct i; reflexivity|]. destruct fs as [|g fs]; [destruct i; cbn; try reflexivity; destruct (nth_error xs i); reflexivity|]. destruct i as [|i]; [reflexivity|]. cbn [nth nth_error]. exact (IH fs i).
Qed.
Section Whole.
Variables (rt : runtime) (alloc : rty -> Z -> bool) (f : filed) (p : bytes) (d : deps).
Hypothesis NA : rs_names_apart f.
Let P := rs_program p d f.
Let ms := messages_of f.
Let Sch := rschema_of f.
Hypothesis CP : forallb (forallb (rfield_compiles Sch)) Sch = true.
Theorem encode_ok : forall fuel i m xs c vs, nth_error ms i = Some m -> (msg_depth (GMsg (Some xs)) <= fuel)%nat -> rs_calls Sch (GMsg (Some xs)) (ROne (RMsg i)) = Some vs ->
  rs_run_encode rt alloc P fuel (camel (m_full m)) (rs_struct_value f m xs) c = emit (RvOk RvCur) c vs.
Proof.
  induction fuel as [|fuel IH]; intros i m xs c vs Hi D C; [cbn [msg_depth] in D; lia|].
  assert (HM : has_message f m) by (apply rms_has; exact (nth_error_In _ _ Hi)).
  cbn [rs_run_encode]. rewrite (encode_of f p d NA m HM : find_encode P _ = _).
  cbn [rs_calls] in C. rewrite (nth_schema f i m Hi : nth_error Sch i = _) in C.
  set (fs := m_fields m) in *. set (g := get_fields rs_encodeLUT fs).
  assert (KN : forall fd, In fd fs -> field_known f fd) by (intros fd; exact (ra_known f NA m fd HM)).
  assert (FG : map forget_f (map (rfield_of f) fs) = map (field_of ms) fs).
  { rewrite map_map. apply map_ext_in. intros fd Hf. apply forget_field. exact (KN fd Hf). }
  unfold rs_getFields in C. rewrite FG in C. destruct (GenModel.getFields rs_encodeLUT (map (field_of ms) fs) 0) as [((ia, ib), ic)|] eqn:Eg; [|discriminate C].
  destruct (groups_rel ms rs_encodeLUT fs fs 0 ltac:(intros j fd H; exact H) ia ib ic Eg) as (G1 & G2 & G3 & G4 & G5 & G6). fold g in G1, G2, G3, G4, G5, G6.
  match type of C with all_some (map ?h _) = _ => assert (CE : forall i, h i = piece f m xs i) end.
  { intros j. rewrite each_nth. unfold piece. rewrite nth_error_map. fold fs. destruct (nth_error xs j); [|reflexivity]. destruct (nth_error fs j); reflexivity. }
  rewrite (map_ext _ _ CE), map_app in C. destruct (all_some_app _ _ _ C) as (a & bc & C1 & C' & ->). rewrite map_app in C'. destruct (all_some_app _ _ _ C') as (b & e & C2 & C3 & ->). clear C C' CE.
  set (enc := rs_run_encode rt alloc P fuel) in *. set (dec := fun (_ : bytes) (_ : cursor) => @OStuck rv).
  assert (ENC : forall i m xs c vs, nth_error ms i = Some m -> (msg_depth (GMsg (Some xs)) <= fuel)%nat -> rs_calls Sch (GMsg (Some xs)) (ROne (RMsg i)) = Some vs -> enc (camel (m_full m)) (rs_struct_value f m xs) c = emit (RvOk RvCur) c vs) by (intros; eapply IH; eassumption).
  assert (DX : forall x, In x xs -> (msg_depth x <= fuel)%nat).
  { intros x Hx. cbn [msg_depth] in D. pose proof (max_in (map msg_depth xs) (msg_depth x) (in_map _ _ _ Hx)). lia. }
  unfold run_body, rs_encode_body. fold fs. fold g.
  set (E0 := [b_cur; (text "self", rs_struct_value f m xs)]). set (here := TyName (camel (m_full m))).
  assert (S1 : forall rest, rexec_list (rexec rt alloc P enc dec (fun _ => None) here) E0 c (rs_encode_values (g_values g) ++ rest) = oseq (emit tt c a) (fun _ c => rexec_list (rexec rt alloc P enc dec (fun _ => None) here) E0 c rest)).
  { intros rest. unfold rs_encode_values. destruct (g_values g) as [|fd vals] eqn:Ev; [inversion G1; subst; injection C1 as <-; reflexivity|]. rewrite <- Ev in *.
    assert (V : reval rt alloc P enc dec (fun _ => None) here E0 (fold_left rs_encode_value (g_values g) v_b) c = emit RvCur c ([] ++ a)).
    { apply (values_ok rt alloc f p d NA enc dec here m HM xs (g_values g) ia G1); [intros q Hq; destruct (G4 q Hq) as (_ & Q); exact Q| |exact C1].
      cbn [v_b reval]. unfold E0. rewrite b_here. reflexivity. }
    cbn [app rexec_list]. assert (SD : forall E c e0, (forall n mm args, e0 <> EMet (EVar n) mm args) -> rexec rt alloc P enc dec (fun _ => None) here E c (SDo e0) = oseq (reval rt alloc P enc dec (fun _ => None) here E e0 c) (fun _ c => OGo E c)).
    { intros E c0 e0 N. destruct e0; try reflexivity. destruct e0; try reflexivity. exfalso. exact (N _ _ _ eq_refl). }
    rewrite SD.
    - rewrite V. cbn [app]. rewrite oseq_assoc, emit_then. apply oseq_ext. intros _ c1. reflexivity.
    - intros n mm args. rewrite Ev. cbn [fold_left].
      assert (Q : forall l e1, (exists e2, e1 = ETry e2) -> exists e2, fold_left rs_encode_value l e1 = ETry e2) by (induction l as [|q l IHl]; intros e1 H; [exact H|]; cbn [fold_left]; apply IHl; eexists; reflexivity).
      destruct (Q vals (rs_encode_value v_b fd)) as (e2 & H); [eexists; reflexivity|]. rewrite H. discriminate. }
  rewrite S1. clear S1.
  assert (OV : forall {A} (o : ores A) (k : A -> cursor -> ores renv), oval (fun _ _ => OStuck) (oseq o k) = match o with OGo a c => oval (fun _ _ => OStuck) (k a c) | ORet v c => OGo v c | OStuck => OStuck | ODie => ODie | ODeep => ODeep end) by (intros A [ | | | | ] k; reflexivity).
  rewrite emit_app. unfold emit at 1 2. destruct (encode_all c a) as [c1|]; [|reflexivity]. cbn [oseq].
  rewrite (group_ok rt alloc f p d enc dec here m xs rs_encode_slice (g_slices g) ib G2) with (vs := b); [| |exact C2].
  2:{ intros j fd x c0 ws Hf Hj Hx Cx. destruct (G5 fd Hf) as (_ & A2 & A3). exact (slice_ok rt alloc f p d NA CP fuel enc dec ENC here m HM xs DX j fd x c0 ws Hj Hx A2 A3 Cx). }
  rewrite emit_app. unfold emit at 1 2. destruct (encode_all c1 b) as [c2|]; [|reflexivity]. cbn [oseq].
  rewrite (group_ok rt alloc f p d enc dec here m xs rs_encode_message (g_messages g) ic G3) with (vs := e); [| |exact C3].
  2:{ intros j fd x c0 ws Hf Hj Hx Cx. destruct (G6 fd Hf) as (_ & A2 & A3). exact (message_ok rt alloc f p d NA CP fuel enc dec ENC here m HM xs DX j fd x c0 ws Hj Hx A2 A3 Cx). }
  unfold emit. destruct (encode_all c2 e) as [c3|]; [|reflexivity]. cbn [oseq rexec_list rexec ok reval reval_all v_b]. unfold E0. rewrite b_here. cbn [oseq]. unfold plain_call. eqn. cbn [oseq oval]. reflexivity.
Qed.
Theorem encode_run fuel i m xs c r : nth_error ms i = Some m -> (GenSpec.depth (GMsg (Some xs)) <= fuel)%nat -> rs_encode Sch c i xs = Some r ->
  rs_run_encode rt alloc P fuel (camel (m_full m)) (rs_struct_value f m xs) c = rs_encoded r.
Proof.
  intros Hi D E. pose proof (depth_le (GMsg (Some xs))) as L. unfold rs_encode in E. destruct (rs_calls Sch (GMsg (Some xs)) (ROne (RMsg i))) as [vs|] eqn:C; [|discriminate E]. injection E as <-. rewrite (encode_ok fuel i m xs c vs Hi ltac:(lia) C). unfold emit, rs_encoded. destruct (encode_all c vs); reflexivity.
Qed.
End Whole.
