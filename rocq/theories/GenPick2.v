(** Continuation of GenPick. *)
From Coq Require Import String.
From Verif Require Import Base Spec SpecProofs GoSpec GoIdeal GoProps GoThms GoThms2 GoThms3 BufSpec GenTables GenModel GenSpec GenLemmas GenFields GenDec GenThms GenThms2 GenThms3 GenTerm GenTerm2 GenTerm3 GenTerm4 GenTrace TraceSpec GenTraceThms GenTraceSplit GenPick.
From Verif Require V1Model V2Model.

Lemma pass_err_at step fs : forall is x b l e y, NoDup is -> t_pass step fs is x b = (l, TErr e y) ->
  exists dn i todo f old l1 b' x' l2 z, is = dn ++ i :: todo /\ nth_error fs i = Some f /\ nth_error x i = Some old /\
    t_pass step fs dn x b = (l1, TDone b' x') /\ step f old b' = (l2, TErr e z) /\ y = set_nth i z x' /\
    (forall j, ~ In j dn -> nth_error x' j = nth_error x j) /\ length x' = length x.
Proof.
  induction is as [|i is IH]; intros x b l e y ND E; cbn [t_pass] in E; [discriminate E|].
  destruct (nth_error fs i) as [f|] eqn:Ef; [|discriminate E]. destruct (nth_error x i) as [old|] eqn:Eo; [|discriminate E].
  inversion ND as [|? ? Ni ND']; subst.
  destruct (step f old b) as [l1 [r z|e' z| | |]] eqn:Es; cbn [tbind] in E; try discriminate E.
  - destruct (t_pass step fs is (set_nth i z x) r) as [l2 w] eqn:Ep. injection E as <- ->.
    destruct (IH _ _ _ _ _ ND' Ep) as (dn & i' & todo & f' & old' & l3 & b' & x' & l4 & z' & -> & H1 & H2 & H3 & H4 & H5 & H6 & H7).
    assert (N : i' <> i) by (intros ->; apply Ni, in_or_app; right; left; reflexivity).
    rewrite set_same in H2 by assumption.
    exists (i :: dn), i', todo, f', old', (l1 ++ l3), b', x', l4, z'. split; [reflexivity|]. split; [exact H1|]. split; [exact H2|].
    split; [cbn [t_pass]; rewrite Ef, Eo, Es; cbn [tbind]; rewrite H3; reflexivity|]. split; [exact H4|]. split; [exact H5|].
    split; [|rewrite H7; apply set_nth_length].
    intros j Hj. rewrite H6; [|intros C; apply Hj; right; exact C]. apply set_same. intros ->. apply Hj. left. reflexivity.
  - injection E as <- <- <-. exists [], i, is, f, old, [], b, x, l1, z. repeat (split; [first [reflexivity|assumption]|]). split; reflexivity.
Qed.

Section Runs.
Variable step : field -> gval -> bytes -> gres gval.
Fixpoint runs (fs : list field) (xs : list gval) (b : bytes) : gres (list gval) :=
  match fs, xs with
  | f :: fs, x :: xs => gbind (step f x b) (fun r y => gbind (runs fs xs r) (fun r ys => GDone r (y :: ys)))
  | _, _ => GDone b []
  end.
Lemma pass_keeps fs : forall is x b r y, pass step fs is x b = GDone r y -> length y = length x /\ forall j, ~ In j is -> nth_error y j = nth_error x j.
Proof.
  induction is as [|i is IH]; intros x b r y E; cbn [pass] in E.
  { injection E as _ <-. auto. }
  destruct (nth_error fs i) as [f|]; [|discriminate E]. destruct (nth_error x i) as [o|]; [|discriminate E].
  apply gbind_done in E. destruct E as (q & a & _ & E). destruct (IH _ _ _ _ E) as [L K]. rewrite set_nth_length in L. split; [exact L|].
  intros j Hj. rewrite K by (intros C; apply Hj; right; exact C). apply set_same. intros ->. apply Hj. left. reflexivity.
Qed.
Lemma pick_cons {A} i is (l : list A) a : nth_error l i = Some a -> pick (i :: is) l = a :: pick is l.
Proof. intros E. unfold pick. cbn [flat_map]. rewrite E. reflexivity. Qed.
Lemma pick_app {A} is is' (l : list A) : pick (is ++ is') l = pick is l ++ pick is' l.
Proof. apply flat_map_app. Qed.
Lemma pick_same {A} is (l l' : list A) : (forall j, In j is -> nth_error l j = nth_error l' j) -> pick is l = pick is l'.
Proof.
  induction is as [|i is IH]; intros H; [reflexivity|]. unfold pick in *. cbn [flat_map]. rewrite (H i (or_introl eq_refl)). f_equal. apply IH.
  intros j Hj. apply H. right. exact Hj.
Qed.
Lemma pick_length {A} is (l : list A) : (forall j, In j is -> (j < length l)%nat) -> length (pick is l) = length is.
Proof.
  induction is as [|i is IH]; intros H; [reflexivity|]. destruct (nth_error l i) as [a|] eqn:E.
  - rewrite (pick_cons _ _ _ _ E). cbn [length]. f_equal. apply IH. intros j Hj. apply H. right. exact Hj.
  - apply nth_error_None in E. specialize (H i (or_introl eq_refl)). lia.
Qed.
Lemma pass_runs fs : forall is x b, NoDup is -> (forall i, In i is -> (i < length fs)%nat) -> length x = length fs ->
  runs (pick is fs) (pick is x) b = gbind (pass step fs is x b) (fun r y => GDone r (pick is y)).
Proof.
  induction is as [|i is IH]; intros x b ND H L; [reflexivity|]. inversion ND as [|? ? Ni ND']; subst.
  destruct (nth_error fs i) as [f|] eqn:Ef; [|apply nth_error_None in Ef; specialize (H i (or_introl eq_refl)); lia].
  destruct (nth_error x i) as [o|] eqn:Eo; [|apply nth_error_None in Eo; specialize (H i (or_introl eq_refl)); lia].
  rewrite (pick_cons _ _ _ _ Ef), (pick_cons _ _ _ _ Eo). cbn [runs pass]. rewrite Ef, Eo.
  destruct (step f o b) as [r y|e| | |] eqn:Es; try reflexivity. cbn [gbind].
  rewrite (pick_same is x (set_nth i y x)).
  2: { intros j Hj. symmetry. apply set_same. intros ->. contradiction. }
  rewrite IH; [|exact ND'|intros j Hj; apply H; right; exact Hj|rewrite set_nth_length; exact L].
  destruct (pass step fs is (set_nth i y x) r) as [r' y'|e| | |] eqn:Ep; try reflexivity. cbn [gbind]. f_equal. symmetry. apply pick_cons.
  destruct (pass_keeps _ _ _ _ _ _ Ep) as [_ K]. rewrite K by exact Ni. apply set_at. apply nth_error_Some. congruence.
Qed.
Lemma set_mid pre (o y : gval) post : set_nth (length pre) y (pre ++ o :: post) = pre ++ y :: post.
Proof. induction pre as [|a pre IH]; [reflexivity|]. cbn [length app set_nth]. rewrite IH. reflexivity. Qed.
Lemma pass_seq : forall gs xs pf px b, length pf = length px -> length xs = length gs ->
  pass step (pf ++ gs) (seq (length pf) (length gs)) (px ++ xs) b = gbind (runs gs xs b) (fun r ys => GDone r (px ++ ys)).
Proof.
  induction gs as [|g gs IH]; intros [|x xs] pf px b Lp L; try discriminate L; [reflexivity|]. injection L as L.
  cbn [length seq pass runs]. rewrite nth_error_app2 by lia. rewrite Nat.sub_diag. cbn [nth_error].
  rewrite nth_error_app2 by lia. replace (length pf - length px)%nat with 0%nat by lia. cbn [nth_error].
  destruct (step g x b) as [r y|e| | |]; try reflexivity. cbn [gbind]. rewrite Lp at 2. rewrite set_mid.
  change (px ++ y :: xs) with (px ++ [y] ++ xs). rewrite app_assoc. change (pf ++ g :: gs) with (pf ++ [g] ++ gs). rewrite app_assoc.
  replace (Datatypes.S (length pf)) with (length (pf ++ [g])) by (rewrite app_length; cbn; lia).
  rewrite IH by (rewrite ?app_length; cbn; lia).
  destruct (runs gs xs r) as [r' ys|e| | |]; try reflexivity. cbn [gbind]. rewrite <- app_assoc. reflexivity.
Qed.
End Runs.

Lemma sel_app p a : forall b i, sel p (a ++ b) i = sel p a i ++ sel p b (i + length a).
Proof.
  induction a as [|f a IH]; intros b i; cbn [app sel length]; [rewrite Nat.add_0_r; reflexivity|].
  rewrite IH. replace (Datatypes.S i + length a)%nat with (i + Datatypes.S (length a))%nat by lia. destruct (p f); reflexivity.
Qed.
Lemma sel_all p a : forallb p a = true -> forall i, sel p a i = seq i (length a).
Proof. induction a as [|f a IH]; intros H i; [reflexivity|]. cbn [forallb] in H. apply andb_prop in H. destruct H as [Hf H]. cbn [sel length seq]. rewrite Hf, IH by exact H. reflexivity. Qed.
Lemma sel_zero p a : (forall f, In f a -> p f = false) -> forall i, sel p a i = [].
Proof. induction a as [|f a IH]; intros H i; [reflexivity|]. cbn [sel]. rewrite (H f (or_introl eq_refl)). apply IH. intros g Hg. apply H. right. exact Hg. Qed.
Lemma order_sorted a b c : forallb p_val a = true -> forallb p_slice b = true -> forallb p_msg c = true ->
  order (a ++ b ++ c) = seq 0 (length (a ++ b ++ c)).
Proof.
  intros Ha Hb Hc. unfold order. rewrite !sel_app. rewrite forallb_forall in Ha, Hb, Hc.
  assert (X : forall (p q : field -> bool) l, (forall f, In f l -> p f = true) -> (forall f, p f = true -> q f = false) -> forall i, sel q l i = []).
  { intros p q l H H' i. apply sel_zero. intros f Hf. apply H', H, Hf. }
  rewrite (X p_slice p_val b), (X p_msg p_val c), (X p_val p_slice a), (X p_msg p_slice c), (X p_val p_msg a), (X p_slice p_msg b); auto;
    try (intros f; destruct f as [[|]| |]; cbn; congruence).
  rewrite !sel_all by (apply forallb_forall; assumption). rewrite !app_length, !app_nil_r. cbn [app]. rewrite !seq_app. reflexivity.
Qed.
Lemma pick_sel p fs n : forallb p (pick (firstn n (sel p fs 0)) fs) = true.
Proof.
  apply forallb_forall. intros f Hf. unfold pick in Hf. apply in_flat_map in Hf. destruct Hf as (i & Hi & Hf).
  assert (Hi' : In i (sel p fs 0)). { rewrite <- (firstn_skipn n (sel p fs 0)). apply in_or_app. left. exact Hi. }
  destruct (sel_field _ _ _ Hi') as (g & Eg & Pg). rewrite Eg in Hf. destruct Hf as [<-|[]]. exact Pg.
Qed.
Lemma order_prefix fs dn todo : order fs = dn ++ todo -> order (pick dn fs) = seq 0 (length dn).
Proof.
  intros E. assert (E' : dn = firstn (length dn) (order fs)) by (rewrite E, firstn_app, firstn_all, Nat.sub_diag, firstn_O, app_nil_r; reflexivity).
  assert (L : length (pick dn fs) = length dn).
  { apply pick_length. intros j Hj. apply order_in. rewrite E. apply in_or_app. left. exact Hj. }
  rewrite <- L. assert (X : exists a b c, pick dn fs = a ++ b ++ c /\ forallb p_val a = true /\ forallb p_slice b = true /\ forallb p_msg c = true).
  { rewrite E'. unfold order. rewrite !firstn_app, !pick_app. do 3 eexists. split; [reflexivity|]. split; [|split]; apply pick_sel. }
  destruct X as (a & b & c & -> & Ha & Hb & Hc). apply order_sorted; assumption.
Qed.

Lemma NoDup_app_l {A} (a b : list A) : NoDup (a ++ b) -> NoDup a.
Proof. induction a as [|x a IH]; intros H; [constructor|]. inversion H; subst. constructor; [intros C; apply H2, in_or_app; left; exact C|apply IH; assumption]. Qed.
Section Where.
Variable v2 : bool.
Variable prim : option bytes -> request -> bytes -> outcome.
Variable S : schema.
Hypothesis HC : compiles S = true.
Hypothesis Hfail : forall b r e, prim None RNil b = Fail r e -> r = b.
Lemma decode_fields S' fuel m fs x b : nth_error S' m = Some fs -> forallb (field_compiles S) fs = true ->
  decode v2 prim S' (Datatypes.S fuel) m x b = if_nil prim b (fun r => GDone r x) (fun b => pass (step v2 prim S' fuel) fs (order fs) x b).
Proof.
  intros E FC. rewrite <- (erase_decode unlimited (fun _ => eq_refl) v2 prim S'). cbn [t_decode].
  apply (er_nil _ _ _ _ (fun r => GDone r x)); [reflexivity|]. intros r. rewrite E. rewrite (getFields_sel S) by auto.
  rewrite <- (er_pass (t_step unlimited v2 prim S' fuel)) by (intros; apply er_step).
  f_equal. unfold order. rewrite t_pass_app. rewrite (t_pass_ext (t_step unlimited v2 prim S' fuel) (t_other v2 prim) fs (sel p_val fs 0)).
  - apply tbind_ext. intros b1 x1. rewrite t_pass_app.
    rewrite (t_pass_ext (t_step unlimited v2 prim S' fuel) (t_slice unlimited v2 prim S' fuel (t_decode unlimited v2 prim S' fuel)) fs (sel p_slice fs 0)).
    + apply tbind_ext. intros b2 x2. apply t_pass_ext. intros i f Hi Ef o b0. destruct (sel_field _ _ _ Hi) as (g & Eg & Pg). rewrite Ef in Eg. injection Eg as <-.
      destruct f as [[|]| |]; try discriminate Pg; reflexivity.
    + intros i f Hi Ef o b0. destruct (sel_field _ _ _ Hi) as (g & Eg & Pg). rewrite Ef in Eg. injection Eg as <-.
      destruct f as [[|]| |]; try discriminate Pg; reflexivity.
  - intros i f Hi Ef o b0. destruct (sel_field _ _ _ Hi) as (g & Eg & Pg). rewrite Ef in Eg. injection Eg as <-.
    destruct f as [[|]| |]; try discriminate Pg; reflexivity.
Qed.
Lemma decode_part fuel m dn todo x b r e : order (fields_of S m) = dn ++ todo -> length x = length (fields_of S m) -> prim None RNil b = Fail r e ->
  decode v2 prim (with_part S m dn) (Datatypes.S fuel) (length S) (pick dn x) b =
  gbind (pass (step v2 prim S fuel) (fields_of S m) dn x b) (fun r y => GDone r (pick dn y)).
Proof.
  intros E L EN. set (fs := fields_of S m) in *.
  assert (Hd : forall i, In i dn -> (i < length fs)%nat) by (intros i Hi; apply order_in; rewrite E; apply in_or_app; left; exact Hi).
  assert (FC : forallb (field_compiles S) (pick dn fs) = true).
  { apply forallb_forall. intros f Hf. unfold pick in Hf. apply in_flat_map in Hf. destruct Hf as (i & Hi & Hf).
    destruct (nth_error fs i) as [g|] eqn:Eg; [|contradiction]. destruct Hf as [<-|[]]. eapply compiles_field; [exact HC|exact Eg]. }
  rewrite (decode_fields _ fuel (length S) (pick dn fs)); [|unfold with_part; rewrite nth_error_app2 by lia; rewrite Nat.sub_diag; reflexivity|exact FC].
  unfold if_nil. rewrite EN. rewrite (Hfail _ _ _ EN).
  rewrite (order_prefix fs dn todo E). rewrite <- (pick_length dn fs Hd) at 1.
  rewrite (pass_same _ (step v2 prim S fuel)).
  2: { intros i f _ Ef o b0. apply step_more; [exact HC|]. rewrite forallb_forall in FC. apply FC. eapply nth_error_In; exact Ef. }
  pose proof (pass_seq (step v2 prim S fuel) (pick dn fs) (pick dn x) [] [] b eq_refl) as P. cbn [app length] in P. rewrite P.
  2: { rewrite !pick_length; [reflexivity|exact Hd|rewrite L; exact Hd]. }
  rewrite (pass_runs _ fs dn x b); [|pose proof (order_nodup fs) as ND; rewrite E in ND; apply NoDup_app_l in ND; exact ND|exact Hd|exact L].
  destruct (pass (step v2 prim S fuel) fs dn x b); reflexivity.
Qed.
Theorem where_decode fuel m x b l e y : struct_type S x m -> t_decode unlimited v2 prim S (Datatypes.S fuel) m x b = (l, TErr e y) ->
  exists dn i todo b' f old z l1 l2 x', wire_order (fields_of S m) = dn ++ i :: todo /\
    decode v2 prim (with_part S m dn) (Datatypes.S fuel) (length S) (pick dn x) b = GDone b' (pick dn y) /\
    decode v2 prim (with_part S m (dn ++ [i])) (Datatypes.S fuel) (length S) (pick (dn ++ [i]) x) b = GErr e /\
    (forall j, In j todo -> nth_error y j = nth_error x j) /\
    nth_error (fields_of S m) i = Some f /\ nth_error x i = Some old /\ nth_error y i = Some z /\
    t_pass (t_step unlimited v2 prim S fuel) (fields_of S m) dn x b = (l1, TDone b' x') /\
    t_step unlimited v2 prim S fuel f old b' = (l2, TErr e z).
Proof.
  intros HT E. apply ht_msg in HT. destruct HT as [L HT]. pose proof (Forall2_length _ _ _ HT) as Len.
  rewrite decode_pass in E by assumption. unfold t_nil in E. destruct (prim None RNil b) as [r v|r e'|] eqn:EN; try discriminate E.
  rewrite (Hfail _ _ _ EN) in E. pose proof (order_nodup (fields_of S m)) as ND.
  destruct (pass_err_at _ _ _ _ _ _ _ _ ND E) as (dn & i & todo & f & old & l1 & b' & x' & l2 & z & E1 & E2 & E3 & E4 & E5 & E6 & E7 & E8).
  exists dn, i, todo, b', f, old, z, l1, l2, x'. change (wire_order (fields_of S m)) with (order (fields_of S m)). split; [exact E1|].
  assert (P : pass (step v2 prim S fuel) (fields_of S m) dn x b = GDone b' x').
  { rewrite <- (er_pass (t_step unlimited v2 prim S fuel)) by (intros; apply er_step). rewrite E4. reflexivity. }
  rewrite E1 in ND. assert (Ni : ~ In i dn). { intros C. apply NoDup_app_disj with (1 := ND) (2 := C). left. reflexivity. }
  split; [|split; [|split]].
  - rewrite (decode_part fuel m dn (i :: todo) x b _ _ E1 Len EN). rewrite P. cbn [gbind]. f_equal. apply pick_same. intros j Hj. rewrite E6. symmetry. apply set_same. intros ->. contradiction.
  - assert (E1' : order (fields_of S m) = (dn ++ [i]) ++ todo) by (rewrite <- app_assoc; exact E1).
    rewrite (decode_part fuel m (dn ++ [i]) todo x b _ _ E1' Len EN).
    assert (P' : pass (step v2 prim S fuel) (fields_of S m) (dn ++ [i]) x b = GErr e); [|rewrite P'; reflexivity].
    rewrite <- (er_pass (t_step unlimited v2 prim S fuel)) by (intros; apply er_step). rewrite t_pass_app, E4. cbn [tbind t_pass]. rewrite E2, (E7 i Ni), E3, E5. reflexivity.
  - intros j Hj. rewrite E6. assert (j <> i). { intros ->. apply NoDup_remove_2 in ND. apply ND, in_or_app. right. exact Hj. }
    rewrite set_same by assumption. apply E7. intros C. apply NoDup_app_disj with (1 := ND) (2 := C). right. exact Hj.
  - split; [exact E2|]. split; [exact E3|]. split; [rewrite E6; apply set_at; rewrite E8; apply nth_error_Some; congruence|]. split; [exact E4|exact E5].
Qed.
End Where.
