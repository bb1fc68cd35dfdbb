From Verif Require Import Base Spec SpecProofs BufSpec GoBuf GoBuf2 GoThms3 PoolModel PoolSpec.
From Verif Require V1Model V2Model V2Enc.

Section Inv.
Context {A O X : Type}.
Variable mk : X -> A.
Variable reuse : X -> A -> A.
Variable clear : A -> A.
Variable app : O -> A -> A -> Prop.
Variable good : A -> Prop.
Variable makes : event A O X -> Prop.
Hypothesis good_mk : forall x, good (mk x).
Hypothesis good_reuse : forall x o, good o -> good (reuse x (clear o)).
Hypothesis good_app : forall p o o', app p o o' -> good o -> good o'.
Hypothesis good_make : forall t a o, makes (EMake t a o) -> good o.

Inductive runs : A -> list O -> A -> Prop :=
| R_nil o : runs o [] o
| R_snoc o ps o1 p o2 : runs o ps o1 -> app p o1 o2 -> runs o (ps ++ [p]) o2.
Definition start (x : X + A) (o : A) : Prop :=
  match x with
  | inl x => o = mk x \/ exists o', good o' /\ o = reuse x (clear o')
  | inr o' => o = o' /\ good o'
  end.
Record inv (s : state A) (h : history A O X) : Prop := {
  i_nodup : NoDup (free s ++ map snd (pend s));
  i_idle : forall a, In a (free s ++ map snd (pend s)) -> exists o, good o /\ heap s a = Some (clear o);
  i_own : forall t a x ps, h t a = Some (x, ps) ->
     ~ In a (free s ++ map snd (pend s)) /\
     exists o0 o, start x o0 /\ runs o0 ps o /\ heap s a = Some o /\ good o;
  i_excl : forall t t' a, h t a <> None -> h t' a <> None -> t = t' }.

Lemma set_same (hp : nat -> option A) a o : set hp a o a = Some o.
Proof. unfold set. destruct (Nat.eq_dec a a); congruence. Qed.
Lemma set_other (hp : nat -> option A) a o a' : a' <> a -> set hp a o a' = hp a'.
Proof. intros. unfold set. destruct (Nat.eq_dec a' a); congruence. Qed.
Lemma assign_same (h : history A O X) t a v : assign h t a v t a = v.
Proof. unfold assign. destruct (Nat.eq_dec t t), (Nat.eq_dec a a); congruence. Qed.
Lemma assign_other (h : history A O X) t a v t' a' : (t', a') <> (t, a) -> assign h t a v t' a' = h t' a'.
Proof. intros. unfold assign. destruct (Nat.eq_dec t' t), (Nat.eq_dec a' a); congruence. Qed.
Lemma pair_dec (x y : nat * nat) : {x = y} + {x <> y}.
Proof. decide equality; apply Nat.eq_dec. Qed.

Lemma inv_init : inv empty_pool nothing.
Proof. constructor; cbn; try constructor; try contradiction; try discriminate; congruence. Qed.

Lemma heap_none s h a : inv s h -> heap s a = None ->
  ~ In a (free s ++ map snd (pend s)) /\ forall t, h t a = None.
Proof.
  intros I E. split.
  - intros H. apply (i_idle _ _ I) in H. destruct H as (o & _ & H). congruence.
  - intros t. destruct (h t a) as [[x ps]|] eqn:Eh; [|reflexivity].
    apply (i_own _ _ I) in Eh. destruct Eh as (_ & o0 & o & _ & _ & H & _). congruence.
Qed.

Lemma inv_acquire s h t a o x f : inv s h -> start x o -> good o ->
  (forall t', h t' a = None) -> ~ In a (f ++ map snd (pend s)) ->
  (exists f1 f2, free s = f1 ++ f2 /\ f = f1 ++ f2) \/ (exists f1 f2, free s = f1 ++ a :: f2 /\ f = f1 ++ f2) ->
  inv (mkst (set (heap s) a o) f (pend s)) (assign h t a (Some (x, []))).
Proof.
  intros I Hs Hg Hn Ha Hf.
  assert (Hincl : forall b, In b (f ++ map snd (pend s)) -> In b (free s ++ map snd (pend s))).
  { intros b. rewrite !in_app_iff. destruct Hf as [(f1 & f2 & -> & ->)|(f1 & f2 & -> & ->)].
    - tauto.
    - rewrite !in_app_iff. cbn. tauto. }
  constructor; cbn [heap free pend].
  - pose proof (i_nodup _ _ I) as N. destruct Hf as [(f1 & f2 & E & ->)|(f1 & f2 & E & ->)]; rewrite E in N; [exact N|].
    rewrite <- app_assoc in N. cbn in N. apply NoDup_remove_1 in N. rewrite <- app_assoc. exact N.
  - intros b Hb. rewrite set_other by (intros ->; contradiction). apply (i_idle _ _ I). apply Hincl. exact Hb.
  - intros t' a' x' ps H. destruct (pair_dec (t', a') (t, a)) as [E|E].
    + injection E as -> ->. rewrite assign_same in H. injection H as <- <-.
      split; [exact Ha|]. exists o, o. rewrite set_same. repeat split; try assumption. constructor.
    + rewrite assign_other in H by exact E.
      assert (a' <> a) by (intros ->; rewrite Hn in H; discriminate).
      rewrite set_other by assumption. apply (i_own _ _ I) in H. destruct H as [H1 H2].
      split; [intros H; apply H1, Hincl, H|exact H2].
  - intros t1 t2 a' H1 H2. destruct (Nat.eq_dec a' a) as [->|E].
    + destruct (Nat.eq_dec t1 t) as [->|E1]; [|rewrite assign_other in H1 by congruence; rewrite Hn in H1; congruence].
      destruct (Nat.eq_dec t2 t) as [->|E2]; [reflexivity|rewrite assign_other in H2 by congruence; rewrite Hn in H2; congruence].
    + rewrite assign_other in H1, H2 by congruence. eapply (i_excl _ _ I); eassumption.
Qed.

Lemma inv_step s h e s' : inv s h -> allowed h e -> makes e -> step mk reuse clear app s e s' -> inv s' (note h e).
Proof.
  intros I Ha Hm H. destruct H as [s t a x E|s t a x o f1 f2 E E'|s t a o E|s t a p o o' E Hp|s t a o E|s t a p1 p2 E|s t|s a f1 f2 E];
    cbn [note allowed] in *.
  - destruct (heap_none _ _ _ I E) as [H1 H2]. apply inv_acquire; try assumption; [left; reflexivity|apply good_mk|].
    left. exists [], (free s). split; reflexivity.
  - assert (HN : NoDup (f1 ++ a :: f2 ++ map snd (pend s))).
    { pose proof (i_nodup _ _ I) as N. rewrite E, <- app_assoc in N. exact N. }
    apply NoDup_remove_2 in HN. rewrite app_assoc in HN.
    assert (Hin : In a (free s ++ map snd (pend s))) by (rewrite E, !in_app_iff; cbn; tauto).
    assert (Hi : exists o', good o' /\ o = clear o').
    { apply (i_idle _ _ I) in Hin. destruct Hin as (o' & G & H). exists o'. split; [exact G|congruence]. }
    destruct Hi as (o' & G & ->). apply inv_acquire; try assumption.
    + right. exists o'. split; [exact G|reflexivity].
    + apply good_reuse; exact G.
    + intros t'. destruct (h t' a) as [[x' ps]|] eqn:Eh; [|reflexivity]. apply (i_own _ _ I) in Eh. destruct Eh; contradiction.
    + right. exists f1, f2. split; [exact E|reflexivity].
  - destruct (heap_none _ _ _ I E) as [H1 H2]. assert (G : good o) by (eapply good_make; exact Hm). apply inv_acquire; try assumption.
    + split; [reflexivity|exact G].
    + left. exists [], (free s). split; reflexivity.
  - destruct (h t a) as [[x ps]|] eqn:Eh; [|congruence].
    pose proof (i_own _ _ I _ _ _ _ Eh) as (Hni & o0 & o1 & Hs & Hr & Eo & Go).
    assert (o1 = o) by congruence. subst o1.
    assert (Hx : forall t', t' <> t -> h t' a = None).
    { intros t' Ht. destruct (h t' a) eqn:Et; [|reflexivity]. exfalso. apply Ht. apply (i_excl _ _ I t' t a); congruence. }
    constructor; cbn [heap free pend].
    + apply (i_nodup _ _ I).
    + intros b Hb. rewrite set_other by (intros ->; contradiction). apply (i_idle _ _ I); exact Hb.
    + intros t' a' x' ps' H. destruct (pair_dec (t', a') (t, a)) as [Ex|Ex].
      * injection Ex as -> ->. rewrite assign_same in H. injection H as <- <-. split; [exact Hni|].
        exists o0, o'. rewrite set_same. repeat split; try assumption; [econstructor; eassumption|eapply good_app; eassumption].
      * rewrite assign_other in H by exact Ex.
        assert (a' <> a) by (intros ->; rewrite Hx in H by congruence; discriminate).
        rewrite set_other by assumption. apply (i_own _ _ I t' a' x' ps'). exact H.
    + intros t1 t2 a' H1 H2. assert (Hor : forall t', assign h t a (Some (x, ps ++ [p])) t' a' <> None -> h t' a' <> None).
      { intros t' H. destruct (pair_dec (t', a') (t, a)) as [Ex|Ex]; [injection Ex as -> ->; congruence|].
        rewrite assign_other in H by exact Ex. exact H. }
      eapply (i_excl _ _ I); apply Hor; eassumption.
  - destruct (h t a) as [[x ps]|] eqn:Eh; [|congruence].
    pose proof (i_own _ _ I _ _ _ _ Eh) as (Hni & o0 & o1 & Hs & Hr & Eo & Go).
    assert (o1 = o) by congruence. subst o1.
    assert (Hx : forall t', t' <> t -> h t' a = None).
    { intros t' Ht. destruct (h t' a) eqn:Et; [|reflexivity]. exfalso. apply Ht. apply (i_excl _ _ I t' t a); congruence. }
    assert (Hin : forall b, In b (free s ++ a :: map snd (pend s)) <-> b = a \/ In b (free s ++ map snd (pend s))).
    { intros b. rewrite !in_app_iff. cbn. intuition congruence. }
    constructor; cbn [heap free pend map snd].
    + apply NoDup_Add with (a := a) (l := free s ++ map snd (pend s)); [apply Add_app|].
      split; [apply (i_nodup _ _ I)|exact Hni].
    + intros b Hb. apply Hin in Hb. destruct (Nat.eq_dec b a) as [->|Eb].
      * exists o. rewrite set_same. split; [exact Go|reflexivity].
      * destruct Hb as [Hb|Hb]; [contradiction|]. rewrite set_other by exact Eb. apply (i_idle _ _ I); exact Hb.
    + intros t' a' x' ps' H. destruct (pair_dec (t', a') (t, a)) as [Ex|Ex].
      * injection Ex as -> ->. rewrite assign_same in H. discriminate.
      * rewrite assign_other in H by exact Ex.
        assert (a' <> a) by (intros ->; rewrite Hx in H by congruence; discriminate).
        rewrite set_other by assumption. apply (i_own _ _ I) in H. destruct H as [H1 H2]. split; [|exact H2].
        intros Hb. apply Hin in Hb. tauto.
    + intros t1 t2 a' H1 H2. assert (Hor : forall t', assign h t a None t' a' <> None -> h t' a' <> None).
      { intros t' H. destruct (pair_dec (t', a') (t, a)) as [Ex|Ex]; [injection Ex as -> ->; congruence|].
        rewrite assign_other in H by exact Ex. exact H. }
      eapply (i_excl _ _ I); apply Hor; eassumption.
  - assert (Hp : forall b, In b (a :: free s ++ map snd (p1 ++ p2)) <-> In b (free s ++ map snd (pend s))).
    { intros b. rewrite E, !map_app. cbn [map snd In]. rewrite !in_app_iff. cbn [In]. intuition. }
    destruct I as [N Id Ow Ex]. constructor; cbn [heap free pend] in *.
    + rewrite E, map_app in N. cbn [map snd] in N. rewrite app_assoc in N. cbn [List.app].
      pose proof (NoDup_remove _ _ _ N) as [N1 N2]. rewrite map_app, app_assoc. constructor; [exact N2|exact N1].
    + intros b Hb. apply Id, Hp. exact Hb.
    + intros t' a' x ps H. apply Ow in H. destruct H as [H1 H2]. split; [|exact H2].
      intros Hb. apply H1, Hp. exact Hb.
    + exact Ex.
  - exact I.
  - assert (Hincl : forall b, In b ((f1 ++ f2) ++ map snd (pend s)) -> In b (free s ++ map snd (pend s))).
    { intros b. rewrite E, !in_app_iff. cbn. tauto. }
    destruct I as [N Id Ow Ex]. constructor; cbn [heap free pend] in *.
    + rewrite E, <- app_assoc in N. cbn in N. apply NoDup_remove_1 in N. rewrite <- app_assoc. exact N.
    + intros b Hb. apply Id, Hincl. exact Hb.
    + intros t' a' x ps H. apply Ow in H. destruct H as [H1 H2]. split; [|exact H2].
      intros Hb. apply H1, Hincl. exact Hb.
    + exact Ex.
Qed.
Lemma inv_steps tr : forall s h s', inv s h -> orderly h tr -> Forall makes tr ->
  steps mk reuse clear app s tr s' -> inv s' (fold_left note tr h).
Proof.
  induction tr as [|e tr IH]; intros s h s' I Ho Hm H; inversion H; subst; [exact I|].
  destruct Ho as [Ha Ho]. inversion Hm; subst. cbn [fold_left].
  eapply IH; [|exact Ho|assumption|eassumption]. eapply inv_step; eassumption.
Qed.
Lemma inv_reach tr s : orderly nothing tr -> Forall makes tr ->
  steps mk reuse clear app empty_pool tr s -> inv s (histories tr).
Proof. intros Ho Hm H. eapply inv_steps; try eassumption. apply inv_init. Qed.
End Inv.
