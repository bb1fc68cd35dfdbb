(** Running the generated decode functions. *)
From Coq Require Import String.
From Verif Require Import Base Spec RustModel GenTables NameModel NameSpec EmitModel EmitSpec EmitThms EmitThms2 PkgThms GoAst GoEmit GoRunSpec GoLink GoSlices GoDecode RsGenModel RsAst RsEmit RsRunSpec RsRun1 RsRun2.
From Verif Require GenModel GoEnc2.
Import GenModel (gval, GPrim, GList, GMap, GMsg).
Local Open Scope list_scope.

(** ---- groups of fields ---- *)
Lemma groups_length lut (fs : list GenModel.field) : forall i a b c, GenModel.getFields lut fs i = Some (a, b, c) -> length (a ++ b ++ c) = length fs.
Proof.
  induction fs as [|g fs IH]; intros i a b c E; cbn [GenModel.getFields] in E; [injection E as <- <- <-; reflexivity|].
  destruct (GenModel.getFields lut fs (S i)) as [((a', b'), c')|] eqn:E'; [|discriminate E]. specialize (IH _ _ _ _ E'). rewrite !app_length in *. cbn [length].
  destruct (GenModel.Repeated g && negb (GenModel.IsMap g)); [|destruct (lut (GenModel.fkind g)); [|destruct (GenModel.fkind g); try discriminate E]]; injection E as <- <- <-; cbn [length]; lia.
Qed.
Lemma groups_some lut (fs : list GenModel.field) : forall i, Forall (fun g => GenModel.Repeated g && negb (GenModel.IsMap g) = true \/ lut (GenModel.fkind g) <> None \/ GenModel.fkind g = KMessage) fs -> GenModel.getFields lut fs i <> None.
Proof.
  induction fs as [|g fs IH]; intros i H; [discriminate|]. inversion H as [|? ? H1 H2]; subst. cbn [GenModel.getFields]. specialize (IH (S i) H2). destruct (GenModel.getFields lut fs (S i)) as [((a, b), c)|]; [|congruence].
  destruct (GenModel.Repeated g && negb (GenModel.IsMap g)); [discriminate|]. destruct H1 as [H1|[H1|H1]]; [discriminate| |]; [destruct (lut (GenModel.fkind g)); [discriminate|congruence]|]. rewrite H1. destruct (lut KMessage); discriminate.
Qed.

Lemma skip_nth {A} (l : list A) : forall n a t, a :: t = skipn n l -> nth_error l n = Some a /\ t = skipn (S n) l.
Proof. induction l as [|b l IH]; intros [|n] a t H; cbn [skipn] in H; try discriminate H; [injection H as -> ->; split; reflexivity|]. destruct (IH n a t H) as (A1 & A2). split; [exact A1|exact A2]. Qed.
Section Named.
Variables (ms : list msgd) (fs : list fieldd).
(** the initialised fields by name *)
Definition named1 (ix : nat * gval) : list (bytes * rv) := match nth_error fs (fst ix) with Some fd => [(rsname fd, rs_value ms fd (snd ix))] | None => [] end.
Definition named (l : list (nat * gval)) : list (bytes * rv) := flat_map named1 l.
Lemma named_app a b : named (a ++ b) = named a ++ named b. Proof. apply flat_map_app. Qed.
Hypothesis ND : NoDup (map rsname fs).
Lemma rfind_named l i fd : nth_error fs i = Some fd -> rfind (rsname fd) (named l) = option_map (rs_value ms fd) (rs_field i l).
Proof.
  intros Hi. induction l as [|(j, x) l IH]; [reflexivity|]. cbn [named flat_map rs_field]. unfold named1 at 1. cbn [fst snd]. destruct (nth_error fs j) as [g|] eqn:Hj.
  - cbn [app rfind]. destruct (Nat.eqb_spec i j) as [->|Nij].
    + rewrite Hi in Hj. injection Hj as <-. rewrite same_refl. reflexivity.
    + rewrite same_false; [exact IH|]. intros E. apply Nij. assert (Li : (i < length (map rsname fs))%nat) by (rewrite map_length; apply nth_error_Some; congruence).
      apply (proj1 (NoDup_nth_error _) ND i j Li). rewrite !nth_error_map, Hi, Hj. cbn. congruence.
  - cbn [app]. destruct (Nat.eqb_spec i j) as [->|Nij]; [congruence|exact IH].
Qed.
Lemma all_some_one {A} (g : nat -> option A) (is : list nat) : GenModel.all_some (map (fun i => option_map (fun x => [x]) (g i)) is) =
  fold_right (fun i o => match g i, o with Some x, Some l => Some (x :: l) | _, _ => None end) (Some []) is.
Proof. induction is as [|i is IH]; [reflexivity|]. cbn [map GenModel.all_some fold_right]. rewrite IH. destruct (g i); cbn [option_map]; [|reflexivity]. destruct (fold_right _ _ is); reflexivity. Qed.
Lemma build_rest l : forall tl n, tl = skipn n fs -> all_in (named l) (map rsname tl) =
  option_map (rs_fields ms tl) (fold_right (fun i o => match rs_field i l, o with Some x, Some l => Some (x :: l) | _, _ => None end) (Some []) (List.seq n (length tl))).
Proof.
  induction tl as [|fd tl IH]; intros n H; [reflexivity|].
  destruct (skip_nth fs n fd tl H) as (Hn & Ht).
  cbn [map all_in length List.seq fold_right]. rewrite (rfind_named l n fd Hn), (IH (S n) Ht). destruct (rs_field n l); cbn [option_map]; [|reflexivity]. destruct (fold_right _ _ (List.seq (S n) (length tl))); reflexivity.
Qed.
Lemma build_all l : all_in (named l) (map rsname fs) = option_map (rs_fields ms fs) (rs_struct (length fs) l).
Proof. unfold rs_struct. rewrite (all_some_one (fun i => rs_field i l)). exact (build_rest l fs 0%nat eq_refl). Qed.
End Named.

Section Dec.
Variables (rt : runtime) (alloc : rty -> Z -> bool) (f : filed) (p : bytes) (d : deps).
Hypothesis NA : rs_names_apart f.
Let P := rs_program p d f.
Let ms := messages_of f.
Let Sch := rschema_of f.
Hypothesis CP : forallb (forallb (rfield_compiles Sch)) Sch = true.
Let room : rtype -> Z -> bool := fun t n => alloc (TyVec (elem_type f t)) n.

Section Pass.
Variables (enc : bytes -> rv -> cursor -> ores rv) (dec : bytes -> cursor -> ores rv) (loc : bytes -> option (cursor -> ores rv)) (here : rty) (E : renv).
Variables (fs : list fieldd) (g : fieldd -> bytes * rexpr) (step : rfield -> cursor -> rgres gval).
Lemma pass_ok fds : forall is, Forall2 (at_index fs) is fds ->
  (forall fd c, In fd fds -> fst (g fd) = rsname fd /\ reval rt alloc P enc dec loc here E (snd (g fd)) c = lift (rs_value ms fd) (step (rfield_of f fd) c)) ->
  forall c, reval_fields (reval rt alloc P enc dec loc here E) (map g fds) c = lift (named ms fs) (rs_pass step (map (rfield_of f) fs) is c).
Proof using Type.
  induction fds as [|fd fds IH]; intros is F H c; inversion F as [|i ? is' ? F1 F2]; subst; [reflexivity|]. cbn [map rs_pass].
  destruct (H fd c (or_introl eq_refl)) as (H1 & H2). destruct (g fd) as (n, e). cbn [fst snd] in H1, H2. subst n. cbn [reval_fields]. rewrite H2, nth_error_map. unfold at_index in F1. rewrite F1. cbn [option_map].
  rewrite lift_gtry, oseq_lift. apply oseq_ext. intros x c1. rewrite (IH is' F2 (fun fd' c' Hf => H fd' c' (or_intror Hf)) c1). rewrite lift_gtry, oseq_lift. apply oseq_ext. intros xs c2. cbn [lift]. f_equal.
  change (named ms fs ((i, x) :: xs)) with (named1 ms fs (i, x) ++ named ms fs xs). assert (N1 : named1 ms fs (i, x) = [(rsname fd, rs_value ms fd x)]) by (unfold named1; cbn [fst snd]; rewrite F1; reflexivity). rewrite N1. reflexivity.
Qed.
End Pass.
Lemma fields_app ev a b c : reval_fields ev (a ++ b) c = oseq (reval_fields ev a c) (fun x c => oseq (reval_fields ev b c) (fun y c => OGo (x ++ y) c)).
Proof using Type.
  revert c. induction a as [|(n, e) a IH]; intros c; cbn [app reval_fields oseq]; [rewrite oseq_id; reflexivity|]. rewrite oseq_assoc. apply oseq_ext. intros v c1. rewrite IH, !oseq_assoc. apply oseq_ext. intros x c2. cbn [oseq]. rewrite !oseq_assoc. apply oseq_ext. intros y c3. reflexivity.
Qed.
Lemma named_length fs step is : forall fds c r c', Forall2 (at_index fs) is fds -> rs_pass step (map (rfield_of f) fs) is c = RGOk r c' -> length (named ms fs r) = length is.
Proof using Type.
  induction is as [|i is IH]; intros fds c r c' F H; cbn [rs_pass] in H; [injection H as <- <-; reflexivity|]. inversion F as [|? fd ? fds' F1 F2]; subst.
  unfold at_index in F1. rewrite nth_error_map, F1 in H. cbn [option_map] in H. destruct (step (rfield_of f fd) c) as [x c1| | | |]; try discriminate H. cbn [gtry] in H.
  destruct (rs_pass step (map (rfield_of f) fs) is c1) as [xs c2| | | |] eqn:E; try discriminate H. cbn [gtry] in H. injection H as <- <-.
  change (named ms fs ((i, x) :: xs)) with (named1 ms fs (i, x) ++ named ms fs xs). rewrite app_length, (IH _ _ _ _ F2 E). unfold named1. cbn [fst]. rewrite F1. reflexivity.
Qed.
(** local functions *)
Lemma fn_injective a b : fn_name a = fn_name b -> rsname a = rsname b.
Proof using Type. unfold fn_name. apply app_inv_tail. Qed.
Definition fn_of (x : rstmt) : option (bytes * (rty * list rstmt)) := match x with SFn n t a => Some (n, (t, a)) | _ => None end.
Lemma find_fn_in l n t a : In (SFn n t a) l -> (forall t' a', In (SFn n t' a') l -> (t', a') = (t, a)) -> find_fn n l = Some (t, a).
Proof using Type.
  induction l as [|x l IH]; [contradiction|]. intros [->|H] U; [cbn [find_fn]; rewrite same_refl; reflexivity|].
  destruct x; cbn [find_fn]; try (apply IH; [exact H|]; intros t' a' K; apply U; right; exact K).
  destruct (same n n0) eqn:E; [|apply IH; [exact H|]; intros t' a' K; apply U; right; exact K]. apply same_true in E. subst n0. rewrite (U t0 a0 (or_introl eq_refl)). reflexivity.
Qed.
Lemma in_body_fn m n t a : In (SFn n t a) (rs_decode_body m) -> let g := get_fields rs_decodeLUT (m_fields m) in
  (exists fd, In fd (g_slices g) /\ n = fn_name fd /\ t = rs_type_of_field fd /\ a = slice_body fd) \/
  (exists fd k v, In fd (g_messages g) /\ f_typ fd = TMap k v /\ n = fn_name fd /\ t = TyHash (rs_type_of false k) (rs_type_of false v) /\ a = map_body k v).
Proof using Type.
  unfold rs_decode_body. cbn zeta. rewrite !in_app_iff. intros [H|[H|[H|H]]].
  - destruct H as [H|[H|[]]]; discriminate H.
  - left. apply in_map_iff in H. destruct H as (fd & H & Hi). injection H as <- <- <-. exists fd. auto.
  - right. apply in_flat_map in H. destruct H as (fd & Hi & H). unfold rs_decode_map in H. destruct (f_typ fd) as [| | |k v] eqn:Et; try destruct H. 2: contradiction. injection H as <- <- <-. exists fd, k, v. auto.
  - destruct H as [H|[]]; discriminate H.
Qed.
Lemma find_fn_none n l : (forall t a, ~ In (SFn n t a) l) -> find_fn n l = None.
Proof using Type.
  induction l as [|x l IH]; [reflexivity|]. intros H. assert (K : forall t a, ~ In (SFn n t a) l) by (intros t a K; exact (H t a (or_intror K))).
  destruct x; cbn [find_fn]; try exact (IH K). destruct (same n n0) eqn:E; [|exact (IH K)]. apply same_true in E. subst n0. exfalso. exact (H _ _ (or_introl eq_refl)).
Qed.
Lemma loc_short enc dec m n : (length n < 7)%nat -> locals rt alloc P enc dec (rs_decode_body m) n = None.
Proof using Type.
  intros L. unfold locals. rewrite find_fn_none; [reflexivity|]. intros t a H. apply in_body_fn in H. cbn zeta in H.
  assert (E : exists fd, n = fn_name fd) by (destruct H as [(fd & _ & H & _)|(fd & k & v & _ & _ & H & _)]; eauto). destruct E as (fd & ->). unfold fn_name in L. rewrite app_length in L. change (length (text "_decode")) with 7%nat in L. lia.
Qed.
Lemma exec_fns ex l r : Forall (fun s => exists n t a, s = SFn n t a) l -> (forall E c n t a, ex E c (SFn n t a) = OGo E c) -> forall E c, rexec_list ex E c (l ++ r) = rexec_list ex E c r.
Proof using Type. intros F H. induction F as [|x l (n & t & a & ->) F IH]; intros E c; [reflexivity|]. cbn [app rexec_list]. rewrite H. cbn [oseq]. apply IH. Qed.
Theorem decode_ok : forall fuel i m c, nth_error ms i = Some m ->
  rs_run_decode rt alloc P fuel (camel (m_full m)) c = decoded f m (rs_decode rt room Sch fuel i c).
Proof.
  induction fuel as [|fuel IH]; intros i m c Hi; [reflexivity|].
  assert (HM : has_message f m) by (apply rms_has; exact (nth_error_In _ _ Hi)).
  cbn [rs_run_decode rs_decode]. rewrite (decode_of f p d NA m HM : find_decode P _ = _). rewrite (nth_schema f i m Hi : nth_error Sch i = _).
  set (enc := fun (_ : bytes) (_ : rv) (_ : cursor) => @OStuck rv). set (dec := rs_run_decode rt alloc P fuel) in *. set (rec := rs_decode rt room Sch fuel) in *.
  set (loc := locals rt alloc P enc dec (rs_decode_body m)).
  set (fs := m_fields m). set (g := get_fields rs_decodeLUT fs).
  assert (KN : forall fd, In fd fs -> field_known f fd) by (intros fd; exact (ra_known f NA m fd HM)).
  assert (CO : forall fd, In fd fs -> rfield_compiles Sch (rfield_of f fd) = true) by (intros fd; exact (compiles f CP m HM fd)).
  assert (FG : map forget_f (map (rfield_of f) fs) = map (field_of ms) fs).
  { rewrite map_map. apply map_ext_in. intros fd Hf. apply forget_field. exact (KN fd Hf). }
  assert (GS : GenModel.getFields rs_decodeLUT (map (field_of ms) fs) 0 <> None).
  { apply groups_some. apply Forall_forall. intros x Hx. apply in_map_iff in Hx. destruct Hx as (fd & <- & Hf). specialize (KN fd Hf). specialize (CO fd Hf). unfold field_known, rfield_of in *. unfold field_of.
    destruct (f_typ fd) as [k|s|s|k v]; destruct (f_many fd); cbn in *; auto; [|right; left; discriminate].
    right. left. destruct (rs_types_agree k) as [q|] eqn:Q; [|discriminate CO]. destruct (agree_decode k q Q) as (nm & ->). discriminate. }
  unfold rs_getFields. rewrite FG. destruct (GenModel.getFields rs_decodeLUT (map (field_of ms) fs) 0) as [((ia, ib), ic)|] eqn:Eg; [clear GS|congruence].
  destruct (groups_rel ms rs_decodeLUT fs fs 0 ltac:(intros j fd H; exact H) ia ib ic Eg) as (G1 & G2 & G3 & G4 & G5 & G6). fold g in G1, G2, G3, G4, G5, G6.
  pose proof (groups_length _ _ _ _ _ _ Eg) as GL. rewrite map_length in GL.
  unfold run_body, rs_decode_body. fold fs. fold g. cbn [app rexec_list rexec if_none]. cbn [reval reval_all v_b]. rewrite b_here. cbn [oseq method]. unfold lib_call at 1. cbn [String.eqb Ascii.eqb Bool.eqb].
  destruct (none_bool rt c) as [N|(b & c1 & N)]; rewrite N; [reflexivity|]. cbn [oseq]. destruct b.
  { unfold block, leave. cbn [rexec_list rexec ok reval reval_all]. eqn. cbn [oseq]. unfold plain_call at 1. unfold loc at 1. rewrite (loc_short enc dec m (text "Ok") ltac:(vm_compute; lia)). eqn. reflexivity. }
  cbn [oseq reval reval_all v_b]. rewrite b_here. cbn [oseq method]. unfold lib_call at 1. cbn [String.eqb Ascii.eqb Bool.eqb].
  destruct (decode_error rt c1) as [er c2|er c2|]; cbn [of_rres oseq]; [| |reflexivity].
  { unfold block, leave. cbn [rexec_list rexec reval reval_all rfind]. eqn. cbn [oseq]. unfold plain_call at 1. unfold loc at 1. rewrite (loc_short enc dec m (text "Err") ltac:(vm_compute; lia)). eqn. reflexivity. }
  assert (LN : forall n t a, In (SFn n t a) (rs_decode_body m) -> loc n = Some (run_body rt alloc P enc dec (fun _ => None) t [b_cur] a)).
  { intros n t a H. unfold loc, locals. rewrite (find_fn_in _ n t a H); [reflexivity|]. intros t' a' H'.
    apply in_body_fn in H, H'. fold fs g in H, H'. cbn zeta in H, H'.
    assert (U : forall x y, In x fs -> In y fs -> fn_name x = fn_name y -> x = y).
    { intros x y Hx Hy E. apply fn_injective in E. pose proof (ra_fields f NA m HM) as ND. fold fs in ND. clear -Hx Hy E ND. induction fs as [|z l IH]; [contradiction|]. cbn [map] in ND. inversion ND as [|? ? N1 N2]; subst.
      destruct Hx as [<-|Hx], Hy as [<-|Hy]; [reflexivity| | |exact (IH Hx Hy N2)]; exfalso; apply N1; [rewrite E|rewrite <- E]; apply in_map; assumption. }
    destruct H as [(x & X1 & X2 & X3 & X4)|(x & k & v & X1 & X2 & X3 & X4 & X5)], H' as [(y & Y1 & Y2 & Y3 & Y4)|(y & k' & v' & Y1 & Y2 & Y3 & Y4 & Y5)].
    - assert (x = y) by (apply U; [apply G5; exact X1|apply G5; exact Y1|congruence]). subst y. congruence.
    - assert (x = y) by (apply U; [apply G5; exact X1|apply G6; exact Y1|congruence]). subst y. destruct (G5 x X1) as (_ & _ & M). unfold is_map in M. rewrite Y2 in M. discriminate M.
    - assert (x = y) by (apply U; [apply G6; exact X1|apply G5; exact Y1|congruence]). subst y. destruct (G5 x Y1) as (_ & _ & M). unfold is_map in M. rewrite X2 in M. discriminate M.
    - assert (x = y) by (apply U; [apply G6; exact X1|apply G6; exact Y1|congruence]). subst y. rewrite X2 in Y2. injection Y2 as <- <-. congruence. }
  rewrite exec_fns; [|apply Forall_forall; intros x Hx; apply in_map_iff in Hx; destruct Hx as (fd & <- & _); unfold rs_decode_slice; eauto|reflexivity].
  rewrite exec_fns; [|apply Forall_forall; intros x Hx; apply in_flat_map in Hx; destruct Hx as (fd & _ & Hx); unfold rs_decode_map in Hx; destruct (f_typ fd); try destruct Hx as []; subst; eauto; contradiction|reflexivity].
  cbn [rexec_list rexec ok some_ reval reval_all].
  assert (HB : has_b [b_cur]) by (unfold has_b; apply b_here).
  set (ev := reval rt alloc P enc dec loc (TyName (camel (m_full m))) [b_cur]).
  assert (R1 : forall c0, reval_fields ev (map rs_decode_other (g_values g)) c0 = lift (named ms fs) (rs_pass (rs_dec_other rt) (map (rfield_of f) fs) ia c0)).
  { apply (pass_ok enc dec loc (TyName (camel (m_full m))) [b_cur] fs rs_decode_other (rs_dec_other rt) (g_values g) ia G1).
    intros fd c0 Hf. split; [reflexivity|]. destruct (G4 fd Hf) as (A1 & A2 & A3). exact (ev_other rt alloc f p d NA dec enc m HM loc _ [b_cur] fd c0 A1 A2 A3 HB). }
  assert (R2 : forall c0, reval_fields ev (map rs_init_slice (g_slices g)) c0 = lift (named ms fs) (rs_pass (rs_dec_slice rt room rec) (map (rfield_of f) fs) ib c0)).
  { apply (pass_ok enc dec loc (TyName (camel (m_full m))) [b_cur] fs rs_init_slice (rs_dec_slice rt room rec) (g_slices g) ib G2).
    intros fd c0 Hf. split; [reflexivity|]. destruct (G5 fd Hf) as (A1 & A2 & A3). refine (ev_slice rt alloc f p d NA CP rec dec _ enc m HM loc _ [b_cur] fd c0 A1 A2 A3 HB _); [intros j m' c' Hj; exact (IH j m' c' Hj)|]. apply LN.
    unfold rs_decode_body. cbn zeta. rewrite !in_app_iff. right. left. apply in_map_iff. exists fd. split; [reflexivity|exact Hf]. }
  assert (R3 : forall c0, reval_fields ev (map rs_init_message (g_messages g)) c0 = lift (named ms fs) (rs_pass (rs_dec_message rt rec) (map (rfield_of f) fs) ic c0)).
  { apply (pass_ok enc dec loc (TyName (camel (m_full m))) [b_cur] fs rs_init_message (rs_dec_message rt rec) (g_messages g) ic G3).
    intros fd c0 Hf. split; [reflexivity|]. destruct (G6 fd Hf) as (A1 & A2 & A3). refine (ev_message rt alloc f p d NA CP rec dec _ enc m HM loc _ [b_cur] fd c0 A1 A2 A3 HB _); [intros j m' c' Hj; exact (IH j m' c' Hj)|]. intros k v Ht. apply LN.
    unfold rs_decode_body. cbn zeta. rewrite !in_app_iff. right. right. left. apply in_flat_map. exists fd. split; [exact Hf|]. unfold rs_decode_map. rewrite Ht. left. reflexivity. }
  assert (PS : forall v c0, plain_call loc (text "Some") [v] c0 = OGo (RvSome v) c0) by (intros v c0; unfold plain_call; unfold loc at 1; rewrite (loc_short enc dec m (text "Some") ltac:(vm_compute; lia)); reflexivity).
  assert (PO : forall v c0, plain_call loc (text "Ok") [v] c0 = OGo (RvOk v) c0) by (intros v c0; unfold plain_call; unfold loc at 1; rewrite (loc_short enc dec m (text "Ok") ltac:(vm_compute; lia)); reflexivity).
  fold ev. rewrite !fields_app, !oseq_assoc, R1. destruct (rs_pass (rs_dec_other rt) (map (rfield_of f) fs) ia c2) as [a c3|er3 c3| | |] eqn:E1; cbn [lift oseq gtry oval decoded]; try reflexivity.
  rewrite !fields_app, !oseq_assoc, R2. destruct (rs_pass (rs_dec_slice rt room rec) (map (rfield_of f) fs) ib c3) as [b0 c4|er4 c4| | |] eqn:E2; cbn [lift oseq gtry oval decoded]; try reflexivity.
  rewrite !oseq_assoc, R3. destruct (rs_pass (rs_dec_message rt rec) (map (rfield_of f) fs) ic c4) as [d0 c5|er5 c5| | |] eqn:E3; cbn [lift oseq gtry oval decoded]; try reflexivity.
  assert (LB : length (named ms fs a ++ named ms fs b0 ++ named ms fs d0) = length fs).
  { rewrite !app_length, (named_length _ _ ib _ _ _ _ G2 E2), (named_length _ _ ia _ _ _ _ G1 E1), (named_length _ _ ic _ _ _ _ G3 E3). rewrite !app_length in GL. exact GL. }
  rewrite <- !named_app in *. unfold build at 1. rewrite (struct_of f p d NA m HM : find_struct P _ = _). fold fs. rewrite LB, map_length, Nat.eqb_refl. rewrite (build_all ms fs (ra_fields f NA m HM)), map_length.
  destruct (rs_struct (length fs) (a ++ b0 ++ d0)); cbn [option_map oseq]; [|reflexivity]. rewrite PS. cbn [oseq]. rewrite PO. reflexivity.
Qed.
End Dec.
