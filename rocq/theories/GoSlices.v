(** Messages and slices in decode functions. *)
From Coq Require Import String.
From Verif Require Import Base Spec GenTables GenModel GenTrace NameModel NameSpec EmitModel EmitSpec EmitThms PkgThms GoAst GoEmit GoRunSpec GoLink GoFrame GoExec GoScope.

Lemma runs_map {A B} o (t : run A) (g : A -> B) s (ok : A -> st -> Prop) (ok' : B -> st -> Prop) :
  runs o t s ok -> (forall x s', ok x s' -> ok' (g x) s') -> runs o (tbind t g (fun r x => ret (TDone r (g x)))) s ok'.
Proof.
  unfold runs, agrees. destruct t as (l & [r x|e x| | |]); cbn [tbind snd fst ret]; intros H K; try exact H.
  - destruct H as (s' & E & Ei & Ho & R). exists s'. rewrite app_nil_r. auto.
  - destruct H as (s' & E & Ho & R). exists s'. auto.
Qed.
Lemma struct_bound ms h b m xs fp : struct_at ms h b m xs fp -> forall c, In c (b :: fp) -> (c < length h)%nat.
Proof. intros (vs & H & R & N) c [<-|Hc]; [exact (nth_bound _ _ _ H)|exact (reps_bound ms h _ _ _ _ R c Hc)]. Qed.
Lemma struct_frame ms h h' b m xs fp : struct_at ms h b m xs fp -> (forall c, In c (b :: fp) -> nth_error h' c = nth_error h c) -> struct_at ms h' b m xs fp.
Proof.
  intros (vs & H & R & N) K. exists vs. split; [rewrite K; [exact H|left; reflexivity]|]. split; [|exact N].
  apply (reps_frame ms h); [exact R|]. intros c Hc. apply K. right. exact Hc.
Qed.
Lemma position_nth s ms : (exists m, In m ms /\ m_full m = s) -> exists m, nth_error ms (position s ms) = Some m /\ m_full m = s /\ In m ms.
Proof.
  induction ms as [|k ms IH]; intros (m & Hm & E); [destruct Hm|]. cbn [position]. destruct (same s (m_full k)) eqn:Es.
  - apply same_true in Es. exists k. cbn [nth_error]. auto using in_eq.
  - destruct Hm as [->|Hm]; [rewrite E, same_refl in Es; discriminate Es|]. destruct (IH (ex_intro _ m (conj Hm E))) as (x & Hx & Ex & Hi). exists x. cbn [nth_error]. auto using in_cons.
Qed.

Section Slices.
Variables (v2 : bool) (f : filed) (room : Z -> bool) (prim : option bytes -> request -> bytes -> outcome).
Variable callee : option bytes -> bytes -> list gov -> st -> ex (list gov * st).
Variable n : nat.
Hypothesis SP : sound_prim prim.
Hypothesis NA : names_apart v2 f.
Notation names := (go_names (go_file v2 f)).
Notation P := (go_program v2 f).
Notation ms := (messages_of f).
Notation Sch := (schema_of f).
Notation EV := (eval P room prim callee).
Notation EX := (exec P room prim callee).
Notation SEQ := (seq (exec P room prim callee)).
Notation scope := (scope v2 f).

Definition quiet (s s' : st) : Prop := env s' = env s /\ inp s' = inp s /\ out s' = out s /\ made s' = made s.
(** calling NewM with [n] frames left *)
Definition new_spec : Prop := forall m mi s, nth_error ms mi = Some m ->
  match GenModel.New v2 Sch n mi with
  | GDone _ xs =>
      (n = O /\ callee None (new_name (camel (m_full m))) [] s = Deep) \/
      exists s' a fp, callee None (new_name (camel (m_full m))) [] s = Fine ([GoPtr (camel (m_full m)) (Some a)], s') /\
        struct_at ms (heap s') a m xs fp /\ only_at (heap s) (heap s') [] (a :: fp) /\ quiet s s'
  | GDeep => callee None (new_name (camel (m_full m))) [] s = Deep
  | GBroken => True
  | _ => False
  end.
(** calling x.decode *)
Definition dec_spec : Prop := forall m mi s a xs fp, nth_error ms mi = Some m -> struct_at ms (heap s) a m xs fp ->
  returns (callee (Some (camel (m_full m))) (text ".decode") [GoPtr (camel (m_full m)) (Some a); GoDecoder] s)
    (t_decode room v2 prim Sch n mi xs (inp s)) s
    (fun xs' s' => exists fp', struct_at ms (heap s') a m xs' fp' /\ only_at (heap s) (heap s') (a :: fp) (a :: fp') /\ env s' = env s).
Hypothesis NEW : new_spec.
Hypothesis DEC : dec_spec.

Lemma ms_has m : In m ms <-> has_message f m.
Proof. exact (all_messages_in f m). Qed.
Lemma msg_known s : known_type f (TMsg s) -> exists m, nth_error ms (position s ms) = Some m /\ m_full m = s /\ has_message f m.
Proof.
  intros (m & Hm & E). destruct (position_nth s ms) as (k & Hk & Ek & Hi); [exists m; split; [apply ms_has, Hm|exact E]|]. exists k. rewrite <- ms_has. auto.
Qed.
Lemma msg_names m : has_message f m -> In (camel (m_full m)) names /\ find_type P (camel (m_full m)) = Some (TyStruct (map (fun fd => (goname fd, type_text fd)) (m_fields m))) /\
  In (new_name (camel (m_full m))) names /\ find_type P (new_name (camel (m_full m))) = None.
Proof.
  intros Hm.
  assert (K : In (DType (camel (m_full m)) (TyStruct (map (fun fd => (goname fd, type_text fd)) (m_fields m)))) P)
    by (apply (in_P_msg v2 f m _ Hm); unfold struct_decls; apply in_or_app; right; left; reflexivity).
  assert (N : In (DFunc (new_func v2 m)) P) by (apply (in_P_msg v2 f m _ Hm); unfold struct_decls; apply in_or_app; right; right; left; reflexivity).
  split; [|split; [|split]].
  - rewrite <- program_names. apply in_flat_map. eexists. split; [exact K|left; reflexivity].
  - apply find_type_in; [exact (na_once _ _ NA)|exact K].
  - rewrite <- program_names. apply in_flat_map. eexists. split; [exact N|left; reflexivity].
  - eapply find_type_none; [exact (na_once _ _ NA)|exact N|left; reflexivity|discriminate].
Qed.
Lemma eval_call0 g s : find_name g (env s) = None -> g <> text "len" -> g <> text "uint32" -> find_type P g = None -> EV (App g []) s = callee None g [] s.
Proof. intros N L U T. cbn [eval each ebind]. unfold apply. rewrite N, !same_false, T by assumption. reflexivity. Qed.
Lemma eval_call1 g e v s : find_name g (env s) = None -> g <> text "len" -> g <> text "uint32" -> find_type P g = None -> EV e s = Fine ([v], s) -> EV (App g [e]) s = callee None g [v] s.
Proof. intros N L U T E. cbn [eval each]. unfold one. rewrite E. cbn [ebind]. unfold apply. rewrite N, !same_false, T by assumption. reflexivity. Qed.
Lemma eval_app g e v s : EV e s = Fine ([v], s) -> EV (App g [e]) s = apply P callee g [v] s.
Proof. intros E. cbn [eval each]. unfold one. rewrite E. reflexivity. Qed.
Lemma eval_new m s : has_message f m -> find_name (new_name (camel (m_full m))) (env s) = None ->
  EV (App (new_name (camel (m_full m))) []) s = callee None (new_name (camel (m_full m))) [] s.
Proof. intros Hm N. apply eval_call0; [exact N|ne|ne|]. apply msg_names, Hm. Qed.

(** err = e.decode(d); if err != nil { return err } *)
Lemma decode_place e m mi b xs fp s : nth_error ms mi = Some m -> struct_at ms (heap s) b m xs fp ->
  EV e s = Fine ([GoPtr (camel (m_full m)) (Some b)], s) -> find_name n_d (env s) = Some GoDecoder -> (exists o, find_name n_err (env s) = Some (GoError o)) ->
  runs (SEQ [Assign [Var n_err] (Met e ".decode" [Var n_d]); check] s) (t_decode room v2 prim Sch n mi xs (inp s)) s
    (fun xs' s' => exists fp', struct_at ms (heap s') b m xs' fp' /\ only_at (heap s) (heap s') (b :: fp) (b :: fp') /\ exists o, env s' = set_name n_err (GoError o) (env s)).
Proof.
  intros Hm Hs E Hd (o0 & He). pose proof (DEC m mi s b xs fp Hm Hs) as D.
  rewrite seq_cons. cbn [exec eval]. unfold one. rewrite E. cbn [ebind each]. unfold one at 1. rewrite (eval_var P room prim callee _ _ _ Hd). cbn [ebind method].
  unfold runs, returns, agrees in *. destruct (t_decode room v2 prim Sch n mi xs (inp s)) as (l & [r x|er x| | |]); cbn [snd fst] in *; try (rewrite D; reflexivity); [| |exact I].
  - destruct D as (s' & -> & Ei & (fp' & H1 & H2 & H3) & M & O). cbn [ebind stores].
    rewrite (store_var P room prim callee n_err s' (GoError o0) GoNil (GoError None)); [|rewrite H3; exact He|reflexivity]. cbn [ebind].
    exists (set_env s' (set_name n_err (GoError None) (env s'))). rewrite seq_one, (exec_check P room prim callee _ None); [|cbn [env set_env]; rewrite H3; exact (find_set_same _ _ _ _ He)].
    cbn [heap inp made out set_env env]. split; [reflexivity|]. split; [exact Ei|]. split; [|auto]. exists fp'. rewrite H3. eauto.
  - destruct D as (s' & -> & (fp' & H1 & H2 & H3) & M & O). cbn [ebind stores].
    rewrite (store_var P room prim callee n_err s' (GoError o0) (GoError (Some er)) (GoError (Some er))); [|rewrite H3; exact He|reflexivity]. cbn [ebind].
    exists (set_env s' (set_name n_err (GoError (Some er)) (env s'))). rewrite seq_one, (exec_check P room prim callee _ (Some er)); [|cbn [env set_env]; rewrite H3; exact (find_set_same _ _ _ _ He)].
    cbn [heap inp made out set_env env]. split; [reflexivity|]. split; [|auto]. exists fp'. rewrite H3. eauto.
Qed.

Lemma element_many fd : f_many (element fd) = false. Proof. reflexivity. Qed.
Lemma element_typ fd : f_typ (element fd) = f_typ fd. Proof. reflexivity. Qed.
Lemma rep_of_struct fd s m b xs fp h : f_many fd = false -> f_typ fd = TMsg s -> nth_error ms (position s ms) = Some m -> struct_at ms h b m xs fp ->
  rep ms h fd (GMsg (Some xs)) (GoPtr (camel s) (Some b)) (b :: fp).
Proof. intros M T N (vs & H & R & _). eapply rep_msg; eassumption. Qed.
Lemma rep_msg_inv fd s x v fp h : f_many fd = false -> f_typ fd = TMsg s -> rep ms h fd x v fp -> NoDup fp ->
  (x = GMsg None /\ v = GoPtr (camel s) None /\ fp = []) \/
  (exists m b xs fp', x = GMsg (Some xs) /\ v = GoPtr (camel s) (Some b) /\ fp = b :: fp' /\ nth_error ms (position s ms) = Some m /\ struct_at ms h b m xs fp').
Proof.
  intros M T R N. destruct R as [fd v0 K1 K2|fd s0 K1 K2|fd s0 m0 xs vs a0 fp K1 K2 K3 K4 K5|fd K1 K2|fd xs vs a0 fp K1 K2 K3 K4 K5|fd k0 v0 K1|fd k0 v0 l vs a0 fp K1 K2 K3]; try congruence.
  - rewrite T in K2. discriminate K2.
  - left. rewrite T in K2. injection K2 as <-. auto.
  - right. rewrite T in K2. injection K2 as <-. exists m0, a0, xs, fp. repeat (split; [first [reflexivity|assumption]|]). exists vs. auto.
Qed.
Lemma rep_prim_inv fd k q x v fp h : f_many fd = false -> ftype_of ms (f_typ fd) = Scalar k -> k <> KGroup -> scalar_type k = Some q -> rep ms h fd x v fp ->
  exists old, x = GPrim old /\ v = GoBase old /\ fp = [] /\ want old = q.
Proof.
  intros M Et NG Eq R. destruct (field_one f fd k M Et NG) as (_ & Ek).
  destruct R as [fd v0 K1 K2|fd s0 K1 K2|fd s0 m0 xs vs a0 fp K1 K2 K3 K4 K5|fd K1 K2|fd xs vs a0 fp K1 K2 K3 K4 K5|fd k0 v0 K1|fd k0 v0 l vs a0 fp K1 K2 K3];
      try (rewrite K1 in M; discriminate M); try (rewrite K2 in Et; discriminate Et); try (rewrite K1 in Et; injection Et as <-; congruence).
  exists v0. rewrite Ek, Eq in K2. injection K2 as <-. auto.
Qed.

(** ---- one element of a slice: decode.templ 52-65 ---- *)
Section Elements.
Variables (T : bytes) (a : nat) (fs : list (bytes * gov)) (fd : fieldd) (t : ftype) (b : nat).
Hypothesis Kn : known_type f (f_typ fd).
Hypothesis Et : ftype_of ms (f_typ fd) = t.
Hypothesis Good : match t with Scalar k => k <> KGroup /\ k <> KBytes /\ k <> KEnum /\ k <> KMessage | Msg _ => True end.
Hypothesis Hf : find_name (goname fd) fs = Some (GoSlice (type_text (element fd)) (Some b)).

Definition elem_run (x : gval) (r : bytes) : run gval :=
  match t with
  | Msg m => plain (or_new v2 Sch n m x) x (fun _ s => t_msg (t_decode room v2 prim Sch n) m s r)
  | Scalar k => plain (dec_call prim None k r) (zero (One t)) (fun r v => ret (TDone r (GPrim v)))
  end.
Lemma eval_here s vs i v sl : scope sl T a (env s) -> nth_error (heap s) a = Some (OStruct fs) -> nth_error (heap s) b = Some (OArray vs) -> find_name n_i (env s) = Some (GoBase (VU32 (Z.of_nat i))) ->
  nth_error vs i = Some v -> EV (Idx (my fd) (Var n_i)) s = Fine ([v], s).
Proof.
  intros Sc Ha Hb Hi Hv. cbn [eval]. rewrite (one_my P room prim callee T a fs fd s _ (sc_x _ _ _ _ _ _ Sc) Ha Hf). cbn [ebind]. rewrite (one_var P room prim callee _ _ _ Hi). cbn [ebind index]. unfold fetch. rewrite Hb. cbn [need ebind]. rewrite Nat2Z.id, Hv. reflexivity.
Qed.
Lemma store_here s vs i old v w sl : scope sl T a (env s) -> nth_error (heap s) a = Some (OStruct fs) -> nth_error (heap s) b = Some (OArray vs) -> find_name n_i (env s) = Some (GoBase (VU32 (Z.of_nat i))) ->
  nth_error vs i = Some old -> fit old v = Some w -> store P room prim callee (Idx (my fd) (Var n_i)) v s = Fine (set_heap s (set_at b (OArray (set_at i w vs)) (heap s))).
Proof.
  intros Sc Ha Hb Hi Hv E. cbn [store]. rewrite (one_my P room prim callee T a fs fd s _ (sc_x _ _ _ _ _ _ Sc) Ha Hf). cbn [ebind]. rewrite (one_var P room prim callee _ _ _ Hi). cbn [ebind]. unfold fetch. rewrite Hb. cbn [need ebind].
  rewrite Nat2Z.id, Hv. cbn [need ebind]. rewrite E. reflexivity.
Qed.
Definition eok (vs : list gov) (i : nat) (q : list nat) (s : st) (x : gval) (s' : st) : Prop :=
  exists v q', nth_error (heap s') b = Some (OArray (set_at i v vs)) /\ rep ms (heap s') (element fd) x v q' /\ NoDup (b :: q') /\
    only_at (heap s) (heap s') (b :: q) (b :: q') /\ exists o, env s' = set_name n_err (GoError o) (env s).
Lemma eok_prim vs i old w s s' o : nth_error (heap s) b = Some (OArray vs) -> nth_error vs i = Some old ->
  heap s' = set_at b (OArray (set_at i (GoBase w) vs)) (heap s) -> env s' = set_name n_err (GoError o) (env s) -> scalar_type (kind_of (f_typ fd)) = Some (want w) -> eok vs i [] s (GPrim w) s'.
Proof.
  intros Hb Hv Hh He K. exists (GoBase w), []. rewrite Hh. split; [exact (nth_set_at_same _ _ _ _ Hb)|]. split; [constructor; [reflexivity|exact K]|].
  split; [constructor; [intros []|constructor]|]. split; [|eauto]. split; [rewrite set_at_length; lia|]. split; [|auto].
  intros c _ Hn. apply nth_set_at_other. intros ->. apply Hn. left. reflexivity.
Qed.

Theorem elem_ok sl s vs i x v q : a <> b -> scope sl T a (env s) -> nth_error (heap s) a = Some (OStruct fs) -> nth_error (heap s) b = Some (OArray vs) ->
  find_name n_i (env s) = Some (GoBase (VU32 (Z.of_nat i))) -> nth_error vs i = Some v -> rep ms (heap s) (element fd) x v q -> NoDup (a :: b :: q) ->
  runs (SEQ (decode_element fd) s) (elem_run x (inp s)) s (eok vs i q s).
Proof.
  intros Nab Sc Ha Hb Hi Hv R N. pose proof Sc as Sc'. destruct Sc' as [Hx Hd (o0 & He) _ Hn _ _]. unfold elem_run, decode_element.
  destruct t as [k|mi] eqn:Ett.
  - (* scalar *)
    destruct Good as (NG & NB & NE & NM). destruct (field_one f (element fd) k eq_refl Et NG) as (_ & Ek). cbn [element f_typ] in Ek. rewrite Ek.
    destruct (scalar_type k) as [rq|] eqn:Eq; [|apply scalar_none in Eq; tauto].
    destruct (rep_prim_inv (element fd) k rq x v q (heap s) eq_refl Et NG Eq R) as (old & -> & -> & -> & Ew).
    replace (is_kind k KMessage) with false by (destruct k; try reflexivity; congruence). cbn [app].
    assert (B : forall w o r, EV (Met (Var n_d) (entry (go_decodeLUT k)) []) s = Fine ([GoBase w; GoError o], set_inp s r) -> want w = rq ->
      exists s', SEQ [Assign [Idx (my fd) (Var n_i); Var n_err] (Met (Var n_d) (entry (go_decodeLUT k)) []); check] s =
        Fine (match o with None => Next | Some e => Ret [GoError (Some e)] end, s') /\ eok vs i [] s (GPrim w) s' /\ inp s' = r /\ made s' = made s /\ out s' = out s).
    { intros w o r E W. eexists. split.
      - rewrite seq_cons. cbn [exec]. rewrite E. cbn [ebind stores].
        rewrite (store_here (set_inp s r) vs i (GoBase old) (GoBase w) (GoBase w) sl Sc Ha Hb Hi Hv) by (apply fit_base; congruence). cbn [ebind].
        rewrite (store_var P room prim callee n_err _ (GoError o0) (GoError o) (GoError o)); [|exact He|reflexivity]. cbn [ebind]. rewrite seq_one.
        rewrite (exec_check P room prim callee _ o); [destruct o; reflexivity|]. cbn [env set_env set_heap]. exact (find_set_same _ _ _ _ He).
      - split; [|auto]. eapply (eok_prim vs i (GoBase old) w s _ o); [exact Hb|exact Hv|reflexivity|reflexivity|]. rewrite Ek, Eq, W. reflexivity. }
    assert (L : EV (Met (Var n_d) (entry (go_decodeLUT k)) []) s = lib_decode prim rq None s) by (rewrite (eval_dec P room prim callee _ s Hd); apply (dec_method prim k rq s Eq); exact NB).
    rewrite (lib_is prim k rq None s SP Eq) in L. rewrite (dec_call_is prim k rq None _ Eq). cbn [zero]. rewrite Eq.
    destruct (prim None rq (inp s)) as [r w|r er|] eqn:Ep; cbn [plain].
    + destruct (B w None r L (sp_type _ SP _ _ _ _ _ Ep)) as (s' & E & Ho & Ei & M & O). eapply runs_done; eassumption.
    + destruct (B (zero_prim rq) (Some er) r L (zero_want rq)) as (s' & E & Ho & Ei & M & O). eapply runs_fail; eassumption.
    + unfold runs, agrees. cbn [snd ret]. rewrite seq_cons. cbn [exec]. rewrite L. reflexivity.
  - (* message *)
    assert (exists es, f_typ fd = TMsg es /\ mi = position es ms) as (es & Ees & ->).
    { destruct (f_typ fd) as [| |es|]; cbn [ftype_of] in Et; try discriminate Et. injection Et as <-. eauto. }
    rewrite Ees in Kn. destruct (msg_known es Kn) as (m & Hm & Em & HM). cbn [kind_of]. rewrite Ees. cbn [kind_of is_kind].
    assert (Ems : message_of fd = camel es) by (unfold message_of; rewrite Ees; reflexivity). rewrite Ems.
    pose proof (NoDup_cons_iff a (b :: q)) as NI. apply NI in N. clear NI. destruct N as (Na & N).
    assert (Eev : forall s', env s' = env s -> heap s' = heap s -> EV (Idx (my fd) (Var n_i)) s' = Fine ([v], s')).
    { intros s' E1 E2. apply (eval_here s' vs i v sl); rewrite ?E1, ?E2; assumption. }
    (* decoding into a pointer that is there *)
    assert (G : forall s2 c xs fp, env s2 = env s -> inp s2 = inp s -> made s2 = made s -> out s2 = out s ->
       nth_error (heap s2) a = Some (OStruct fs) -> nth_error (heap s2) b = Some (OArray (set_at i (GoPtr (camel es) (Some c)) vs)) ->
       struct_at ms (heap s2) c m xs fp -> NoDup (b :: c :: fp) -> only_at (heap s) (heap s2) (b :: q) (b :: c :: fp) ->
       runs (SEQ [Assign [Var n_err] (Met (Idx (my fd) (Var n_i)) ".decode" [Var n_d]); check] s2)
         (t_msg (t_decode room v2 prim Sch n) (position es ms) xs (inp s)) s (eok vs i q s)).
    { intros s2 c xs fp E1 E2 E3 E4 Ha2 Hb2 Hst N2 On. apply (runs_from _ _ s s2); [|exact E3|exact E4]. rewrite <- E2. unfold t_msg. eapply runs_map.
      - apply (decode_place (Idx (my fd) (Var n_i)) m (position es ms) c xs fp s2 Hm Hst); [|rewrite E1; exact Hd|rewrite E1; eauto].
        rewrite Em. apply (eval_here s2 (set_at i (GoPtr (camel es) (Some c)) vs) i _ sl); rewrite ?E1; try assumption. exact (nth_set_at_same _ _ _ _ Hv).
      - intros xs' s' (fp' & H1 & H2 & o & H3).
        assert (Nb : ~ In b (c :: fp)) by (inversion N2; assumption).
        assert (Lb : (b < length (heap s2))%nat) by exact (nth_bound _ _ _ Hb2).
        assert (Nb' : ~ In b (c :: fp')).
        { intros K. destruct H2 as (_ & _ & H2). destruct (H2 b K) as [K'|K']; [exact (Nb K')|lia]. }
        exists (GoPtr (camel es) (Some c)), (c :: fp'). split; [|split; [|split; [|split]]].
        + destruct H2 as (_ & H2 & _). rewrite H2; [exact Hb2|exact Lb|exact Nb].
        + eapply rep_of_struct; [reflexivity|exact Ees|exact Hm|exact H1].
        + constructor; [exact Nb'|]. destruct H1 as (? & _ & _ & H1). exact H1.
        + eapply only_trans; [exact On|]. apply (only_frame _ _ [b] (c :: fp) (c :: fp') []) in H2. cbn [app] in H2. rewrite !app_nil_r in H2. exact H2.
        + exists o. rewrite H3, E1. reflexivity. }
    cbn [app].
    destruct (rep_msg_inv (element fd) es x v q (heap s) eq_refl Ees R) as [(-> & -> & ->)|(m' & c & xs & fp' & -> & -> & -> & Hm' & Hst)]; [inversion N; assumption| |].
    + (* nil: make one *)
      cbn [or_new]. pose proof (NEW m _ s Hm) as W. rewrite seq_cons.
      rewrite (exec_if_nil P room prim callee _ _ true _ _ s (Eev s eq_refl eq_refl) eq_refl). rewrite block_nil, seq_one. cbn [exec].
      assert (Nn : find_name (new_name (camel (m_full m))) (env s) = None) by (apply Hn, msg_names, HM).
      rewrite <- Em. rewrite (eval_new m s HM Nn). rewrite Em in *.
      destruct (GenModel.New v2 Sch n (position es ms)) as [r0 xs| | | |] eqn:EN; try contradiction; cbn [plain]; [|rewrite W; reflexivity|exact I].
      destruct W as [(E0 & W)|(s1 & c & fp & W & Hst & On & Q1 & Q2 & Q3 & Q4)].
      { rewrite W. unfold t_msg. rewrite E0. reflexivity. }
      rewrite W. cbn [ebind stores].
      assert (La : (a < length (heap s))%nat) by exact (nth_bound _ _ _ Ha). assert (Lb : (b < length (heap s))%nat) by exact (nth_bound _ _ _ Hb).
      assert (Ha1 : nth_error (heap s1) a = Some (OStruct fs)) by (destruct On as (_ & On & _); rewrite On; [exact Ha|exact La|intros []]).
      assert (Hb1 : nth_error (heap s1) b = Some (OArray vs)) by (destruct On as (_ & On & _); rewrite On; [exact Hb|exact Lb|intros []]).
      rewrite (store_here s1 vs i (GoPtr (camel es) None) (GoPtr (camel es) (Some c)) (GoPtr (camel es) (Some c)) sl); rewrite ?Q1; try assumption; [|cbn [fit]; rewrite same_refl; reflexivity].
      cbn [ebind]. rewrite leave_same by (cbn [env set_heap]; rewrite Q1; reflexivity). rewrite set_env_same. cbn [ebind].
      assert (Nbc : forall k, In k (c :: fp) -> (length (heap s) <= k)%nat) by (intros k Hk; destruct On as (_ & _ & On); destruct (On k Hk) as [[]|]; assumption).
      apply (G (set_heap s1 (set_at b (OArray (set_at i (GoPtr (camel es) (Some c)) vs)) (heap s1))) c xs fp); try assumption; cbn [heap set_heap].
      * rewrite nth_set_at_other by congruence. exact Ha1.
      * exact (nth_set_at_same _ _ _ _ Hb1).
      * apply (struct_frame ms (heap s1)); [exact Hst|]. intros k Hk. apply nth_set_at_other. intros ->. apply Nbc in Hk. lia.
      * constructor; [intros K; apply Nbc in K; lia|]. destruct Hst as (? & _ & _ & Hst). exact Hst.
      * eapply only_trans; [apply (only_frame _ _ [b] [] (c :: fp) []); exact On|]. cbn [app]. rewrite app_nil_r.
        split; [rewrite set_at_length; lia|]. split; [|auto]. intros k _ Hk. apply nth_set_at_other. intros ->. apply Hk. left. reflexivity.
    + (* already there *)
      rewrite Hm in Hm'. injection Hm' as <-. cbn [or_new plain]. rewrite seq_cons.
      rewrite (exec_if_nil P room prim callee _ _ false _ _ s (Eev s eq_refl eq_refl) eq_refl). rewrite (block_same P room prim callee [] s Next s eq_refl eq_refl). cbn [ebind].
      apply (G s c xs fp'); try assumption; try reflexivity; [|apply only_refl].
      rewrite Hb. do 2 f_equal. clear -Hv. revert vs Hv. induction i as [|i IH]; intros [|w vs] H; try discriminate H; cbn [set_at nth_error] in *; [congruence|f_equal; auto].
Qed.

(** one turn of the loop *)
Lemma turn_ok sl s vs i x v q : a <> b -> scope sl T a (env s) -> nth_error (heap s) a = Some (OStruct fs) -> nth_error (heap s) b = Some (OArray vs) ->
  nth_error vs i = Some v -> rep ms (heap s) (element fd) x v q -> NoDup (a :: b :: q) ->
  runs (block EX [n_i] [GoBase (VU32 (Z.of_nat i))] (decode_element fd) s) (elem_run x (inp s)) s (eok vs i q s).
Proof.
  intros Nab Sc Ha Hb Hv R N. set (s1 := set_env s ((n_i, GoBase (VU32 (Z.of_nat i))) :: env s)).
  assert (Sc1 : scope sl T a (env s1)) by (apply scope_i; exact Sc).
  pose proof (elem_ok sl s1 vs i x v q Nab Sc1 Ha Hb eq_refl Hv R N) as H.
  unfold block. cbn [declare]. replace (same n_i (text "_")) with false by reflexivity. cbn [ebind]. fold s1.
  change (inp s1) with (inp s) in H. unfold runs, agrees in *.
  assert (K : forall (g : signal) y s', eok vs i q s1 y s' -> (let? (g0, s2) := Fine (g, s') in Fine (g0, set_env s2 (leave (env s) (env s2)))) = Fine (g, set_env s' (leave (env s) (env s'))) /\ eok vs i q s y (set_env s' (leave (env s) (env s')))).
  { intros g y s' (w & q' & H1 & H2 & H3 & H4 & o & H5). split; [reflexivity|]. exists w, q'. cbn [heap set_env env]. split; [exact H1|]. split; [exact H2|]. split; [exact H3|]. split; [exact H4|]. exists o.
    rewrite H5. cbn [s1 env set_env set_name]. replace (same n_err n_i) with false by reflexivity. apply leave_one. apply set_name_length. }
  destruct (elem_run x (inp s)) as (l & [r y|e y| | |]); cbn [snd fst] in *; try (rewrite H; reflexivity); [| |exact I].
  - destruct H as (s' & -> & Ei & Ho & M & O). destruct (K Next y s' Ho) as (E & Ho'). eexists. split; [exact E|]. auto.
  - destruct H as (s' & -> & Ho & M & O). destruct (K (Ret [GoError (Some e)]) y s' Ho) as (E & Ho'). eexists. split; [exact E|]. auto.
Qed.

Lemma skipn_cons {A} i (l : list A) x : nth_error l i = Some x -> skipn i l = x :: skipn (S i) l.
Proof. revert l. induction i as [|i IH]; intros [|y l] H; try discriminate H; cbn [nth_error] in H; [injection H as ->; reflexivity|]. cbn [skipn]. apply IH in H. rewrite H. destruct l; reflexivity. Qed.
Lemma set_nth_skip i x (l : list gval) : skipn (S i) (set_nth i x l) = skipn (S i) l.
Proof. revert l. induction i as [|i IH]; intros [|y l]; cbn [set_nth]; try reflexivity. cbn [skipn]. apply IH. Qed.
Lemma set_nth_first i x (l : list gval) : (i < length l)%nat -> firstn (S i) (set_nth i x l) = firstn i l ++ [x].
Proof. revert l. induction i as [|i IH]; intros [|y l] H; cbn [length] in H; try lia; cbn [set_nth firstn app]; [reflexivity|]. f_equal. apply IH. lia. Qed.
Lemma set_nth_len i x (l : list gval) : length (set_nth i x l) = length l.
Proof. revert l. induction i as [|i IH]; intros [|y l]; cbn [set_nth length]; auto. Qed.
Lemma repeat_nth {A} (x : A) k i : (i < k)%nat -> nth_error (repeat x k) i = Some x.
Proof. revert i. induction k as [|k IH]; intros i H; [lia|]. destruct i; [reflexivity|]. cbn. apply IH. lia. Qed.

Definition lok (xs : list gval) (i : nat) (fp : list nat) (sl : bool) (s : st) (ys : list gval) (s' : st) : Prop :=
  exists vs' fp', length (firstn i xs ++ ys) = length xs /\ nth_error (heap s') b = Some (OArray vs') /\ reps ms (heap s') (repeat (element fd) (length xs)) (firstn i xs ++ ys) vs' fp' /\ NoDup (a :: b :: fp') /\
    only_at (heap s) (heap s') (b :: fp) (b :: fp') /\ scope sl T a (env s').

Theorem elems_ok sl : a <> b -> forall k i xs vs fp s, (i + k = length xs)%nat -> scope sl T a (env s) -> nth_error (heap s) a = Some (OStruct fs) -> nth_error (heap s) b = Some (OArray vs) ->
  reps ms (heap s) (repeat (element fd) (length xs)) xs vs fp -> NoDup (a :: b :: fp) ->
  runs (loop (fun vs => block EX [n_i] vs (decode_element fd)) (count_from (Z.of_nat i) k) s) (t_elems v2 prim Sch n (t_decode room v2 prim Sch n) t (skipn i xs) (inp s)) s (lok xs i fp sl s).
Proof.
  intros Nab. induction k as [|k IH]; intros i xs vs fp s L Sc Ha Hb R N.
  - cbn [count_from loop]. replace (skipn i xs) with (@nil gval) by (symmetry; apply skipn_all2; lia). cbn [t_elems].
    apply (runs_done _ _ _ _ s); try reflexivity. exists vs, fp. rewrite app_nil_r, firstn_all2 by lia. repeat (split; [first [reflexivity|assumption]|]). split; [apply only_refl|exact Sc].
  - cbn [count_from loop].
    destruct (reps_nth ms _ _ _ _ _ R i (element fd)) as (x & v & p & q & r & Hx & Hv & -> & Rx & Up); [apply repeat_nth; lia|].
    rewrite (skipn_cons i xs x Hx). cbn [t_elems]. fold (elem_run x (inp s)).
    assert (Nq : NoDup (a :: b :: q)).
    { inversion N as [|? ? N1 N2]; subst. inversion N2 as [|? ? N3 N4]; subst. constructor; [|constructor].
      - intros [K|K]; [apply N1; left; exact K|apply N1; right; rewrite !in_app_iff; auto].
      - intros K. apply N3. rewrite !in_app_iff. auto.
      - apply nodup_app_r in N4. apply nodup_app_l in N4. exact N4. }
    pose proof (turn_ok sl s vs i x v q Nab Sc Ha Hb Hv Rx Nq) as H.
    (* after the turn *)
    assert (After : forall y s1, eok vs i q s y s1 -> exists w q', scope sl T a (env s1) /\ nth_error (heap s1) a = Some (OStruct fs) /\ nth_error (heap s1) b = Some (OArray (set_at i w vs)) /\
      reps ms (heap s1) (repeat (element fd) (length xs)) (set_nth i y xs) (set_at i w vs) (p ++ q' ++ r) /\ NoDup (a :: b :: p ++ q' ++ r) /\ only_at (heap s) (heap s1) (b :: p ++ q ++ r) (b :: p ++ q' ++ r)).
    { intros y s1 (w & q' & H1 & H2 & H3 & H4 & o & H5). exists w, q'.
      assert (Bd : forall c, In c (a :: b :: p ++ q ++ r) -> (c < length (heap s))%nat).
      { intros c [<-|[<-|Hc]]; [exact (nth_bound _ _ _ Ha)|exact (nth_bound _ _ _ Hb)|]. exact (reps_bound ms _ _ _ _ _ R c Hc). }
      assert (Fr : forall c, In c (a :: p ++ r) -> nth_error (heap s1) c = nth_error (heap s) c).
      { intros c Hc. destruct H4 as (_ & H4 & _). apply H4.
        - apply Bd. destruct Hc as [<-|Hc]; [left; reflexivity|]. right. right. rewrite !in_app_iff in *. tauto.
        - inversion N as [|? ? N1 N2]; subst. inversion N2 as [|? ? N3 N4]; subst. destruct Hc as [<-|Hc].
          + intros [K|K]; [congruence|]. apply N1. right. rewrite !in_app_iff. auto.
          + intros [K|K]; [subst c; apply N3; rewrite !in_app_iff in *; tauto|].
            apply in_app_or in Hc. destruct Hc as [Hc|Hc]; [apply (nodup_app_not _ _ c N4 Hc); rewrite in_app_iff; auto|].
            apply nodup_app_r in N4. exact (nodup_app_not _ _ c N4 K Hc). }
      split; [rewrite H5; apply scope_err, Sc|]. split; [rewrite Fr; [exact Ha|left; reflexivity]|]. split; [exact H1|]. split; [|split].
      - apply Up; [|exact H2]. intros c Hc. apply Fr. right. exact Hc.
      - apply (nodup_mid (a :: b :: p) q q' r); [exact N|inversion H3; assumption|]. intros c Hc.
        destruct H4 as (_ & _ & H4). destruct (H4 c (or_intror Hc)) as [[<-|K]|K]; [|left; exact K|].
        + exfalso. inversion H3; contradiction.
        + right. intros Ki. assert (c < length (heap s))%nat; [|lia]. apply Bd. cbn [app In] in Ki. rewrite !in_app_iff in Ki. cbn [In]. rewrite !in_app_iff. tauto.
      - apply (only_frame _ _ p (b :: q) (b :: q') r) in H4. eapply only_shrink; [eapply only_weaken; [exact H4|]|].
        + intros c Hc. rewrite !in_app_iff in Hc. cbn [In] in *. rewrite !in_app_iff. tauto.
        + intros c Hc. rewrite !in_app_iff. cbn [In] in *. rewrite !in_app_iff in Hc. tauto. }
    eapply (runs_bind _ _ _ _ _ _ (eok vs i q s)); [exact H| |].
    + destruct (block EX [n_i] [GoBase (VU32 (Z.of_nat i))] (decode_element fd) s) as [[[|ws] s1]| | |] eqn:Eb; cbn [ebind]; auto.
      intros y Ho _. destruct (After y s1 Ho) as (w & q' & Sc1 & Ha1 & Hb1 & R1 & N1 & On).
      specialize (IH (S i) (set_nth i y xs) (set_at i w vs) (p ++ q' ++ r) s1). rewrite set_nth_len in IH. specialize (IH ltac:(lia) Sc1 Ha1 Hb1 R1 N1).
      rewrite set_nth_skip in IH. replace (Z.of_nat (S i)) with (Z.of_nat i + 1) in IH by lia. eapply runs_map; [exact IH|].
      intros ys s' (vs' & fp' & Q1 & Q2 & Q3 & Q4 & Q5 & Q6). assert (Li : (i < length xs)%nat) by lia.
      rewrite set_nth_first in Q1, Q3 by exact Li. rewrite <- app_assoc in Q1, Q3. cbn [app] in Q1, Q3. rewrite set_nth_len in Q1, Q3. exists vs', fp'. repeat (split; [assumption|]). split; [|exact Q6].
      eapply only_trans; [exact On|exact Q5].
    + intros y s1 Ho. destruct (After y s1 Ho) as (w & q' & Sc1 & Ha1 & Hb1 & R1 & N1 & On). exists (set_at i w vs), (p ++ q' ++ r).
      assert (Ex : firstn i xs ++ y :: skipn (S i) xs = set_nth i y xs).
      { assert (Li : (i < length xs)%nat) by lia. rewrite <- (firstn_skipn (S i) (set_nth i y xs)), set_nth_skip, set_nth_first by exact Li. rewrite <- app_assoc. reflexivity. }
      rewrite Ex. split; [apply set_nth_len|]. auto.
Qed.
End Elements.

(** ---- the element type ---- *)
Lemma strip_app p q : strip p (p ++ q) = Some q.
Proof.
  unfold strip. replace (firstn (length p) (p ++ q)) with p.
  - rewrite same_refl, skipn_app, skipn_all, Nat.sub_diag. reflexivity.
  - rewrite firstn_app, Nat.sub_diag, firstn_all, firstn_O, app_nil_r. reflexivity.
Qed.
Lemma star_base s : base_type (text "*" ++ s) = None.
Proof. reflexivity. Qed.
Lemma zero_msg s st0 m : known_type f (TMsg s) -> find_name (camel s) (env st0) = None -> has_message f m -> m_full m = s -> zero_plain P st0 (text "*" ++ camel s) = Some (GoPtr (camel s) None).
Proof.
  intros Kn N HM Em. unfold zero_plain. rewrite (same_false (text "*" ++ camel s)) by (cbn; discriminate). rewrite star_base, strip_app.
  unfold type_here. rewrite N. destruct (msg_names m HM) as (_ & E & _). rewrite Em in E. rewrite E. reflexivity.
Qed.
Lemma scalar_text fd k : f_typ fd = TScalar k -> f_many fd = false -> k <> KGroup -> k <> KMessage -> k <> KEnum ->
  exists q, scalar_type k = Some q /\ forall s, zero_plain P s (type_text fd) = Some (GoBase (zero_prim q)).
Proof.
  intros E M N1 N2 N3. unfold type_text, FindValue. rewrite E, M. destruct k; try congruence; eexists; (split; [reflexivity|]); intros s; reflexivity.
Qed.
Lemma reps_repeat h fd x z k : rep ms h fd x z [] -> reps ms h (repeat fd k) (repeat x k) (repeat z k) [].
Proof. intros H. induction k as [|k IH]; [constructor|]. cbn [repeat]. apply (reps_cons ms h fd x z [] _ _ _ []); assumption. Qed.

(** decode.templ 44-67 *)
Theorem slice_ok T a fs fd t x v fp s kk : f_many fd = true -> is_map fd = false -> known_type f (f_typ fd) -> ftype_of ms (f_typ fd) = t ->
  match t with Scalar k => k <> KGroup /\ k <> KBytes /\ k <> KEnum /\ k <> KMessage | Msg _ => True end ->
  kind_number (go_GetKind (tkind t)) = Some kk ->
  scope true T a (env s) -> nth_error (heap s) a = Some (OStruct fs) -> find_name (goname fd) fs = Some v -> rep ms (heap s) fd x v fp -> NoDup (a :: fp) ->
  runs (SEQ (decode_slice fd) s) (t_slice room v2 prim Sch n (t_decode room v2 prim Sch n) (Many t) x (inp s)) s (fok v2 f true T a fs fd fp s).
Proof.
  intros M Nm Kn Et Good Ek Sc Ha Hf R N.
  assert (exists xs, x = GList xs /\ zlen xs < 2 ^ 32 /\ ((xs = [] /\ v = GoSlice (type_text (element fd)) None /\ fp = []) \/
    exists vs b fp', v = GoSlice (type_text (element fd)) (Some b) /\ fp = b :: fp' /\ nth_error (heap s) b = Some (OArray vs) /\ reps ms (heap s) (repeat (element fd) (length xs)) xs vs fp')) as (xs & -> & Small & Rx).
  { destruct R as [fd v0 K1 K2|fd s0 K1 K2|fd s0 m0 xs vs a0 fp K1 K2 K3 K4 K5|fd K1 K2|fd xs vs a0 fp K1 K2 K3 K4 K5|fd k0 v0 K1|fd k0 v0 l vs a0 fp K1 K2 K3];
      try (rewrite K1 in M; discriminate M).
    - exists []. split; [reflexivity|]. split; [reflexivity|]. left. auto.
    - exists xs. split; [reflexivity|]. split; [exact K4|]. right. exists vs, a0, fp. auto.
    - unfold is_map in Nm. rewrite K1 in Nm. discriminate Nm.
    - unfold is_map in Nm. rewrite K1 in Nm. discriminate Nm. }
  clear R. cbn [t_slice]. rewrite Ek. pose proof Sc as Sc'. destruct Sc' as [Hx Hd (o0 & He) Hsz Hn Hu Hl]. destruct (Hsz eq_refl) as (z0 & Hz). clear Hsz.
  (* the header *)
  assert (Ekind : kind_of (f_typ fd) = tkind t).
  { destruct (f_typ fd) as [k|es|es|? ?]; cbn [ftype_of] in Et; subst t; cbn [tkind kind_of]; try reflexivity. destruct Good as (Good & _). congruence. }
  assert (Ec : EV (Const (entry (go_GetKind (kind_of (f_typ fd))))) s = Fine ([GoKind kk], s)).
  { rewrite Ekind. cbn [eval]. unfold kind_number in Ek. destruct (go_GetKind (tkind t)) as [nm|]; [|discriminate Ek]. cbn [entry]. rewrite Ek. reflexivity. }
  assert (Hdr : forall z o r, lib_decode prim (RSlice kk) None s = Fine ([GoBase (VU32 z); GoError o], set_inp s r) ->
     exists s1, SEQ [Assign [Var n_slice; Var n_err] (Met (Var n_d) ".Slice" [Const (entry (go_GetKind (kind_of (f_typ fd))))]); check] s = Fine (match o with None => Next | Some e => Ret [GoError (Some e)] end, s1) /\
       scope true T a (env s1) /\ find_name n_slice (env s1) = Some (GoBase (VU32 z)) /\ heap s1 = heap s /\ inp s1 = r /\ out s1 = out s /\ made s1 = made s).
  { intros z o r L. eexists. split.
    - rewrite seq_cons. cbn [exec]. rewrite (eval_dec1 P room prim callee ".Slice" _ _ s Hd Ec).
      change (decoder_method prim ".Slice" [GoKind kk] s) with (lib_decode prim (RSlice kk) None s). rewrite L. cbn [ebind stores].
      rewrite (store_var P room prim callee n_slice _ (GoBase (VU32 z0)) (GoBase (VU32 z)) (GoBase (VU32 z))); [|exact Hz|reflexivity]. cbn [ebind].
      rewrite (store_var P room prim callee n_err _ (GoError o0) (GoError o) (GoError o)); [|cbn [env set_env set_inp]; rewrite find_set_other by ne; exact He|reflexivity]. cbn [ebind]. rewrite seq_one.
      rewrite (exec_check P room prim callee _ o); [destruct o; reflexivity|]. cbn [env set_env set_inp]. eapply find_set_same. rewrite find_set_other by ne. exact He.
    - cbn [env heap inp out made set_env set_inp]. split; [apply scope_err, scope_size; [reflexivity|exact Sc]|]. split; [|auto]. rewrite find_set_other by ne. exact (find_set_same _ _ _ _ Hz). }
  unfold decode_slice. change [Assign [Var n_slice; Var n_err] (Met (Var n_d) ".Slice" [Const (entry (go_GetKind (kind_of (f_typ fd))))]); check; If (Neq (App n_u32 [App n_len [my fd]]) (Var n_slice)) [Assign [my fd] (Make (type_text fd) (Var n_slice))] []; Count n_i (Var n_slice) (decode_element fd)]
    with ([Assign [Var n_slice; Var n_err] (Met (Var n_d) ".Slice" [Const (entry (go_GetKind (kind_of (f_typ fd))))]); check] ++ [If (Neq (App n_u32 [App n_len [my fd]]) (Var n_slice)) [Assign [my fd] (Make (type_text fd) (Var n_slice))] []; Count n_i (Var n_slice) (decode_element fd)]).
  rewrite seq_app.
  destruct (prim None (RSlice kk) (inp s)) as [r w|r e|] eqn:Ep.
  3:{ unfold runs, agrees. cbn [snd ret]. rewrite seq_cons. cbn [exec]. rewrite (eval_dec1 P room prim callee ".Slice" _ _ s Hd Ec).
      change (decoder_method prim ".Slice" [GoKind kk] s) with (lib_decode prim (RSlice kk) None s). unfold lib_decode. rewrite Ep. reflexivity. }
  2:{ destruct (Hdr 0 (Some e) r) as (s1 & E1 & Sc1 & _ & Hh & _ & O1 & M1); [unfold lib_decode; rewrite Ep; reflexivity|]. rewrite E1. cbn [ebind].
      apply (runs_fail _ _ _ _ s1); [reflexivity| |exact M1|exact O1]. exists v, fp. rewrite Hh. split; [exact Sc1|]. split; [|split; [|split; [exact N|apply only_refl]]].
      - rewrite Ha. do 2 f_equal. clear -Hf. induction fs as [|[k c] l IH]; [discriminate Hf|]. cbn [find_name set_name] in *. destruct (same (goname fd) k); [congruence|]. f_equal. auto.
      - destruct Rx as [(-> & -> & ->)|(vs & b & fp' & -> & -> & Hb & R)]; [apply rep_empty; assumption|eapply rep_list; eassumption]. }
  pose proof (sp_type _ SP _ _ _ _ _ Ep) as Ww. destruct w as [| | | | | | | | | | | | | |]; try discriminate Ww; cbn [want] in Ww.
  match type of Ep with _ = Done r (VSlice ?z _) => rename z into size end.
  pose proof (sp_size _ SP _ _ _ _ _ _ Ep) as Sz.
  destruct (Hdr size None r) as (s1 & E1 & Sc1 & Hz1 & Hh1 & Ei1 & O1 & M1); [unfold lib_decode; rewrite Ep; reflexivity|]. rewrite E1. cbn [ebind]. clear E1 Hdr.
  assert (Ha1 : nth_error (heap s1) a = Some (OStruct fs)) by (rewrite Hh1; exact Ha).
  (* len *)
  assert (Len : EV (App n_u32 [App n_len [my fd]]) s1 = Fine ([GoBase (VU32 (u32 (zlen xs)))], s1)).
  { assert (L1 : EV (App n_len [my fd]) s1 = Fine ([GoBase (VI64 (zlen xs))], s1)).
    { cbn [eval each]. rewrite (one_my P room prim callee T a fs fd s1 v (sc_x _ _ _ _ _ _ Sc1) Ha1 Hf). cbn [ebind]. unfold apply. rewrite (sc_len _ _ _ _ _ _ Sc1). replace (same n_len (text "len")) with true by reflexivity.
      destruct Rx as [(-> & -> & ->)|(vs & b & fp' & -> & -> & Hb & R)]; [reflexivity|]. cbn [length_of]. unfold fetch. rewrite Hh1, Hb. cbn [need ebind].
      replace (zlen vs) with (zlen xs); [reflexivity|]. apply reps_lengths in R. unfold zlen. lia. }
    rewrite (eval_app n_u32 (App n_len [my fd]) _ s1 L1). unfold apply. rewrite (sc_u32 _ _ _ _ _ _ Sc1). reflexivity. }
  assert (Cond : forall l1 l2, EX (If (Neq (App n_u32 [App n_len [my fd]]) (Var n_slice)) l1 l2) s1 = block EX [] [] (if u32 (zlen xs) =? size then l2 else l1) s1).
  { intros l1 l2. cbn [exec]. unfold one at 1.
    assert (Q : EV (Neq (App n_u32 [App n_len [my fd]]) (Var n_slice)) s1 = Fine ([GoBase (VBool (negb (u32 (zlen xs) =? size)))], s1)).
    { change (EV (Neq (App n_u32 [App n_len [my fd]]) (Var n_slice)) s1) with (let? (a, s) := one EV (App n_u32 [App n_len [my fd]]) s1 in let? (b, s) := one EV (Var n_slice) s in let? r := equal a b in Fine ([GoBase (VBool (negb r))], s)).
      unfold one at 1. rewrite Len. cbn [ebind]. rewrite (one_var P room prim callee _ _ _ Hz1). cbn [ebind equal].
      destruct (value_eq_dec (VU32 (u32 (zlen xs))) (VU32 size)) as [E|E]; [injection E as E; rewrite E, Z.eqb_refl; reflexivity|].
      destruct (Z.eqb_spec (u32 (zlen xs)) size) as [K|K]; [congruence|reflexivity]. }
    rewrite Q. cbn [ebind]. destruct (u32 (zlen xs) =? size); reflexivity. }
  assert (Small' : u32 (zlen xs) = zlen xs) by (unfold u32; apply Z.mod_small; unfold zlen in *; lia).
  rewrite seq_cons, Cond.
  assert (Cnt : forall s2, find_name n_slice (env s2) = Some (GoBase (VU32 size)) -> EX (Count n_i (Var n_slice) (decode_element fd)) s2 = loop (fun vs => block EX [n_i] vs (decode_element fd)) (count_from 0 (Z.to_nat size)) s2).
  { intros s2 H. cbn [exec]. rewrite (one_var P room prim callee _ _ _ H). reflexivity. }
  (* the loop on an array that is there *)
  assert (Loop : forall s2 fs2 b ys vs fp2, scope true T a (env s2) -> find_name n_slice (env s2) = Some (GoBase (VU32 size)) -> nth_error (heap s2) a = Some (OStruct fs2) ->
     find_name (goname fd) fs2 = Some (GoSlice (type_text (element fd)) (Some b)) -> fs2 = set_name (goname fd) (GoSlice (type_text (element fd)) (Some b)) fs ->
     nth_error (heap s2) b = Some (OArray vs) -> length ys = Z.to_nat size -> reps ms (heap s2) (repeat (element fd) (length ys)) ys vs fp2 -> NoDup (a :: b :: fp2) ->
     only_at (heap s) (heap s2) (a :: fp) (a :: b :: fp2) -> out s2 = out s -> inp s2 = r ->
     runs (SEQ [Count n_i (Var n_slice) (decode_element fd)] s2) (tbind (t_elems v2 prim Sch n (t_decode room v2 prim Sch n) t ys r) GList (fun r xs => ret (TDone r (GList xs)))) s2 (fok v2 f true T a fs fd fp s)).
  { intros s2 fs2 b ys vs fp2 Sc2 Hz2 Ha2 Hf2 Ef2 Hb2 Ly R2 N2 On2 O2 I2.
    assert (Nab : a <> b) by (inversion N2 as [|? ? K _]; subst; intros ->; apply K; left; reflexivity).
    pose proof (elems_ok T a fs2 fd t b Kn Et Good Hf2 true Nab (Z.to_nat size) 0 ys vs fp2 s2 ltac:(lia) Sc2 Ha2 Hb2 R2 N2) as H.
    rewrite seq_one, (Cnt s2 Hz2). cbn [skipn] in H. rewrite I2 in H. eapply runs_map; [exact H|].
    intros zs s' (vs' & fp' & Q1 & Q2 & Q3 & Q4 & Q5 & Q6). cbn [firstn app] in Q1, Q3. exists (GoSlice (type_text (element fd)) (Some b)), (b :: fp').
    split; [exact Q6|]. split; [|split; [|split; [exact Q4|]]].
    - rewrite <- Ef2. destruct Q5 as (_ & Q5 & _). rewrite Q5; [exact Ha2|exact (nth_bound _ _ _ Ha2)|]. inversion N2; assumption.
    - eapply rep_list; [exact M|exact Nm|exact Q2| |rewrite Q1; exact Q3]. unfold zlen. rewrite Q1, Ly. lia.
    - eapply only_trans; [exact On2|]. apply (only_frame _ _ [a] _ _ []) in Q5. cbn [app] in Q5. rewrite !app_nil_r in Q5. exact Q5. }
  destruct (u32 (zlen xs) =? size) eqn:Eq.
  - (* same length *)
    apply Z.eqb_eq in Eq. rewrite (block_same P room prim callee [] s1 Next s1 eq_refl eq_refl). cbn [ebind].
    apply (runs_from _ _ s s1); [|exact M1|exact O1].
    assert (Sf : forall w, find_name (goname fd) fs = Some w -> set_name (goname fd) w fs = fs).
    { intros w. clear. induction fs as [|[k c] l IH]; [discriminate|]. cbn [find_name set_name]. destruct (same (goname fd) k); [congruence|]. intros H. f_equal. auto. }
    destruct Rx as [(-> & -> & ->)|(vs & b & fp' & -> & -> & Hb & R)].
    + rewrite seq_one, (Cnt s1 Hz1). replace (Z.to_nat size) with O by (rewrite <- Eq; reflexivity). cbn [count_from loop t_elems tbind ret]. cbn [tbind ret app].
      apply (runs_done _ _ _ _ s1); try reflexivity; [exact Ei1|]. exists (GoSlice (type_text (element fd)) None), []. rewrite Hh1, Sf by exact Hf. split; [exact Sc1|]. split; [exact Ha|]. split; [apply rep_empty; assumption|]. split; [exact N|apply only_refl].
    + apply (Loop s1 fs b xs vs fp'); try assumption; rewrite ?Hh1; try assumption; [rewrite Sf; [reflexivity|exact Hf]|unfold zlen in *; lia|apply only_refl].
  - (* a new slice *)
    assert (Nz : exists z, zero_plain P s1 (type_text (element fd)) = Some z /\ (forall h, rep ms h (element fd) (zero (One t)) z []) /\ strip (text "[]") (type_text fd) = Some (type_text (element fd))).
    { clear Loop Cnt Cond Len Rx. destruct t as [k|mi].
      - destruct Good as (N1 & N2 & N3 & N4).
        assert (Es : f_typ fd = TScalar k). { destruct (f_typ fd) as [k'|es|es|? ?]; cbn [ftype_of] in Et; try discriminate Et; injection Et as <-; congruence. }
        destruct (scalar_text (element fd) k Es eq_refl N1 N4 N3) as (q & Q1 & Q2). exists (GoBase (zero_prim q)). split; [apply Q2|]. split.
        + intros h. cbn [zero]. rewrite Q1. apply rep_base; [reflexivity|]. cbn [element f_typ]. rewrite Es. cbn [kind_of]. rewrite Q1, zero_want. reflexivity.
        + unfold type_text, FindValue. cbn [element f_typ f_many]. rewrite Es, M. destruct k; try congruence; apply strip_app.
      - assert (exists es, f_typ fd = TMsg es) as (es & Ees) by (destruct (f_typ fd) as [| |es|]; cbn [ftype_of] in Et; try discriminate Et; eauto).
        assert (Kn' := Kn). rewrite Ees in Kn'. destruct (msg_known es Kn') as (m & Hm & Em & HM).
        exists (GoPtr (camel es) None). split; [|split].
        + unfold type_text, FindValue. cbn [element f_typ f_many]. rewrite Ees, camel_ok. cbn [bind]. rewrite append2. apply (zero_msg es s1 m); auto. apply (sc_names _ _ _ _ _ _ Sc1). rewrite <- Em. apply msg_names, HM.
        + intros h. cbn [zero]. apply rep_nil with (s := es); [reflexivity|exact Ees].
        + unfold type_text, FindValue. cbn [element f_typ f_many]. rewrite Ees, M, camel_ok. cbn [bind]. rewrite append2, append3. apply strip_app. }
    destruct Nz as (z & Z1 & Z2 & Z3).
    rewrite block_nil, seq_one. cbn [exec eval]. rewrite (one_var P room prim callee _ _ _ Hz1). cbn [ebind]. rewrite Z3, Z1. cbn [need ebind].
    destruct (room size); [|reflexivity]. cbn [alloc add_made set_heap heap env inp out made]. cbn [ebind stores].
    set (b := length (heap s1)). set (ET := type_text (element fd)) in *.
    set (s2 := set_heap (add_made s1 (MakeSlice size)) (heap s1 ++ [OArray (repeat z (Z.to_nat size))])).
    assert (Hb : (a < b)%nat) by exact (nth_bound _ _ _ Ha1).
    assert (Ha2 : nth_error (heap s2) a = Some (OStruct fs)) by (apply nth_old; exact Ha1).
    assert (Fv : fit v (GoSlice ET (Some b)) = Some (GoSlice ET (Some b))).
    { destruct Rx as [(_ & -> & _)|(? & ? & ? & -> & _)]; cbn [fit]; rewrite same_refl; reflexivity. }
    rewrite (store_my P room prim callee T a fs fd s2 v (GoSlice ET (Some b)) (GoSlice ET (Some b)) (sc_x _ _ _ _ _ _ Sc1) Ha2 Hf Fv). cbn [ebind].
    rewrite leave_same by reflexivity. rewrite set_env_same. cbn [ebind].
    set (s3 := set_heap s2 (set_at a (OStruct (set_name (goname fd) (GoSlice ET (Some b)) fs)) (heap s2))).
    assert (J : runs (SEQ [Count n_i (Var n_slice) (decode_element fd)] s3) (tbind (t_elems v2 prim Sch n (t_decode room v2 prim Sch n) t (repeat (zero (One t)) (Z.to_nat size)) r) GList (fun r xs => ret (TDone r (GList xs)))) s3 (fok v2 f true T a fs fd fp s)).
    { apply (Loop s3 (set_name (goname fd) (GoSlice ET (Some b)) fs) b (repeat (zero (One t)) (Z.to_nat size)) (repeat z (Z.to_nat size)) []); try reflexivity; try assumption.
      - cbn [s3 heap set_heap]. exact (nth_set_at_same _ _ _ _ Ha2).
      - exact (find_set_same _ _ _ _ Hf).
      - cbn [s3 heap set_heap]. rewrite nth_set_at_other by lia. apply nth_new.
      - apply repeat_length.
      - rewrite repeat_length. apply reps_repeat, Z2.
      - constructor; [intros [K|[]]; lia|]. constructor; [intros []|constructor].
      - cbn [s3 heap set_heap s2 add_made]. rewrite Hh1. split; [rewrite set_at_length, app_length; lia|]. split.
        + intros c Hc Hn'. rewrite nth_set_at_other by (intros ->; apply Hn'; left; reflexivity). apply nth_error_app1. exact Hc.
        + intros c [<-|[<-|[]]]; [left; left; reflexivity|right; unfold b; rewrite Hh1; lia]. }
    unfold runs, agrees in J |- *. cbn [tbind].
    destruct (tbind (t_elems v2 prim Sch n (t_decode room v2 prim Sch n) t (repeat (zero (One t)) (Z.to_nat size)) r) GList (fun r xs => ret (TDone r (GList xs)))) as (l & y). cbn [snd fst] in *.
    assert (Em : forall l', made s3 ++ l' = made s ++ [MakeSlice size] ++ l') by (intros l'; cbn [s3 set_heap s2 made add_made]; rewrite M1, <- app_assoc; reflexivity).
    destruct y; try exact J.
    + destruct J as (s4 & J1 & J2 & J3 & J4 & J5). exists s4. rewrite J4, Em. split; [exact J1|]. split; [exact J2|]. split; [exact J3|]. split; [reflexivity|]. rewrite J5. exact O1.
    + destruct J as (s4 & J1 & J3 & J4 & J5). exists s4. rewrite J4, Em. split; [exact J1|]. split; [exact J3|]. split; [reflexivity|]. rewrite J5. exact O1.
Qed.
End Slices.
