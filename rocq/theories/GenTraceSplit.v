(** Which fields a failed decode has changed. *)
From Coq Require Import String.
From Verif Require Import Base Spec SpecProofs GoSpec GoIdeal GoProps GoThms GoThms2 GoThms3 BufSpec GenTables GenModel GenSpec GenLemmas GenFields GenDec GenThms GenThms2 GenThms3 GenTerm GenTerm2 GenTerm3 GenTerm4 GenExt GenStuck GenThms4 GenTrace TraceSpec GenTraceThms.
From Verif Require V1Model V2Model.

Lemma tbind_ext {A B} (x : run A) u (k k' : bytes -> A -> run B) : (forall r a, k r a = k' r a) -> tbind x u k = tbind x u k'.
Proof. intros H. destruct x as [l [r a| | | |]]; cbn [tbind]; try reflexivity. rewrite H. reflexivity. Qed.
Lemma tbind_assoc {A B C} (x : run A) u (k : bytes -> A -> run B) u' (k' : bytes -> B -> run C) :
  tbind (tbind x u k) u' k' = tbind x (fun a => u' (u a)) (fun r a => tbind (k r a) u' k').
Proof.
  destruct x as [l [r a| | | |]]; cbn [tbind]; try reflexivity. destruct (k r a) as [l' [r' a'| | | |]]; cbn [tbind]; try reflexivity.
  destruct (k' r' a'). rewrite app_assoc. reflexivity.
Qed.

Lemma set_same i (y : gval) l : forall j, j <> i -> nth_error (set_nth i y l) j = nth_error l j.
Proof. revert i. induction l as [|a l IH]; intros [|i] [|j] H; try reflexivity; try contradiction; cbn; [apply IH; lia]. Qed.
Lemma set_at i (y : gval) l : (i < length l)%nat -> nth_error (set_nth i y l) i = Some y.
Proof. intros H. rewrite nth_error_set by exact H. destruct (Nat.eq_dec i i); congruence. Qed.
Section Pass.
Variable room : Z -> bool.
Variable v2 : bool.
Variable prim : option bytes -> request -> bytes -> outcome.
Variable S : schema.
Definition t_step (fuel : nat) (f : field) (old : gval) (b : bytes) : run gval :=
  match f with
  | One (Scalar _) => t_other v2 prim f old b
  | Many _ => t_slice room v2 prim S fuel (t_decode room v2 prim S fuel) f old b
  | _ => t_message v2 prim S fuel (t_decode room v2 prim S fuel) f old b
  end.
Lemma t_pass_app step fs : forall is is' x b, t_pass step fs (is ++ is') x b = tbind (t_pass step fs is x b) (fun x => x) (fun r x => t_pass step fs is' x r).
Proof.
  induction is as [|i is IH]; intros is' x b; cbn [app t_pass].
  - cbn. destruct (t_pass step fs is' x b). reflexivity.
  - destruct (nth_error fs i) as [f|]; [|reflexivity]. destruct (nth_error x i) as [old|]; [|reflexivity].
    rewrite tbind_assoc. apply tbind_ext. intros r y. apply IH.
Qed.
Lemma t_pass_ext step step' fs : forall is x b, (forall i f, In i is -> nth_error fs i = Some f -> forall o b, step f o b = step' f o b) ->
  t_pass step fs is x b = t_pass step' fs is x b.
Proof.
  induction is as [|i is IH]; intros x b H; [reflexivity|]. cbn [t_pass]. destruct (nth_error fs i) as [f|] eqn:Ef; [|reflexivity].
  destruct (nth_error x i) as [old|]; [|reflexivity]. rewrite (H i f (or_introl eq_refl) Ef). apply tbind_ext. intros r y. apply IH.
  intros j g Hj. apply H. right. exact Hj.
Qed.
Hypothesis HC : compiles S = true.
Lemma decode_pass fuel m x b : (m < length S)%nat -> t_decode room v2 prim S (Datatypes.S fuel) m x b =
  t_nil prim b (fun r => ret (TDone r x)) (fun b => t_pass (t_step fuel) (fields_of S m) (order (fields_of S m)) x b).
Proof.
  intros L. cbn [t_decode]. unfold t_nil. destruct (prim None RNil b) as [r v|r e|]; try reflexivity.
  rewrite (fields_nth S m L). rewrite (getFields_sel S) by (auto using compiles_msg). set (fs := fields_of S m).
  unfold order. rewrite t_pass_app. rewrite (t_pass_ext (t_step fuel) (t_other v2 prim) fs (sel p_val fs 0)).
  - apply tbind_ext. intros b1 x1. rewrite t_pass_app.
    rewrite (t_pass_ext (t_step fuel) (t_slice room v2 prim S fuel (t_decode room v2 prim S fuel)) fs (sel p_slice fs 0)).
    + apply tbind_ext. intros b2 x2. apply t_pass_ext. intros i f Hi Ef o b0. destruct (sel_field _ _ _ Hi) as (g & Eg & Pg). rewrite Ef in Eg. injection Eg as <-.
      destruct f as [[|]| |]; try discriminate Pg; reflexivity.
    + intros i f Hi Ef o b0. destruct (sel_field _ _ _ Hi) as (g & Eg & Pg). rewrite Ef in Eg. injection Eg as <-.
      destruct f as [[|]| |]; try discriminate Pg; reflexivity.
  - intros i f Hi Ef o b0. destruct (sel_field _ _ _ Hi) as (g & Eg & Pg). rewrite Ef in Eg. injection Eg as <-.
    destruct f as [[|]| |]; try discriminate Pg; reflexivity.
Qed.
(** Any failure. *)
Lemma pass_err step fs : forall is x b l e y, NoDup is -> t_pass step fs is x b = (l, TErr e y) ->
  exists dn i todo f old l' b' z, is = dn ++ i :: todo /\ nth_error fs i = Some f /\ nth_error x i = Some old /\
    step f old b' = (l', TErr e z) /\ nth_error y i = Some z /\
    (forall j, ~ In j dn -> j <> i -> nth_error y j = nth_error x j).
Proof.
  induction is as [|i is IH]; intros x b l e y ND E; cbn [t_pass] in E; [discriminate E|].
  destruct (nth_error fs i) as [f|] eqn:Ef; [|discriminate E]. destruct (nth_error x i) as [old|] eqn:Eo; [|discriminate E].
  assert (Li : (i < length x)%nat) by (apply nth_error_Some; congruence).
  inversion ND as [|? ? Ni ND']; subst.
  destruct (step f old b) as [l1 [r z|e' z| | |]] eqn:Es; cbn [tbind] in E; try discriminate E.
  - destruct (t_pass step fs is (set_nth i z x) r) as [l2 w] eqn:Ep. injection E as <- ->.
    destruct (IH _ _ _ _ _ ND' Ep) as (dn & i' & todo & f' & old' & l' & b' & z' & -> & H1 & H2 & H3 & H4 & H5).
    exists (i :: dn), i', todo, f', old', l', b', z'. split; [reflexivity|]. split; [exact H1|].
    assert (i' <> i) by (intros ->; apply Ni, in_or_app; right; left; reflexivity).
    rewrite set_same in H2 by assumption. split; [exact H2|]. split; [exact H3|]. split; [exact H4|].
    intros j Hj Hji. rewrite H5; [|intros C; apply Hj; right; exact C|exact Hji]. apply set_same. intros ->. apply Hj. left. reflexivity.
  - injection E as <- <- <-. exists [], i, is, f, old, l1, b, z. split; [reflexivity|]. split; [exact Ef|]. split; [exact Eo|]. split; [exact Es|].
    split; [apply set_at; exact Li|]. intros j _ Hj. apply set_same. exact Hj.
Qed.
(** A truncated input. *)
Variable W : Z.
Lemma trunc_pass step fs (Lf : nat -> bytes) (res : nat -> option gval) : forall is x p q l e y, NoDup is -> length x = length fs ->
  flat_map Lf is = p ++ q -> q <> [] -> okb W (p ++ q) ->
  (forall i, In i is -> exists f o z, nth_error fs i = Some f /\ nth_error x i = Some o /\ res i = Some z /\
     (forall r, okb W (Lf i ++ r) -> er (step f o (Lf i ++ r)) = GDone r z) /\
     (forall b q' r a, okb W (b ++ q') -> er (step f o b) = GDone r a -> er (step f o (b ++ q')) = GDone (r ++ q') a)) ->
  t_pass step fs is x p = (l, TErr e y) ->
  exists dn i todo, is = dn ++ i :: todo /\ (forall j, In j dn -> nth_error y j = res j) /\
    (forall j, ~ In j dn -> j <> i -> nth_error y j = nth_error x j) /\
    zlen (flat_map Lf dn) <= zlen p < zlen (flat_map Lf (dn ++ [i])).
Proof.
  induction is as [|i is IH]; intros x p q l e y ND Lx El Hq Hb HS E; cbn [flat_map] in El.
  { destruct p; [|discriminate El]. contradiction Hq. symmetry. exact El. }
  inversion ND as [|? ? Ni ND']; subst.
  destruct (HS i (or_introl eq_refl)) as (f & o & z & Ef & Eo & Ez & Hok & Hext).
  cbn [t_pass] in E. rewrite Ef, Eo in E. assert (Li : (i < length x)%nat) by (apply nth_error_Some; congruence).
  assert (C : (exists c, p = Lf i ++ c /\ flat_map Lf is = c ++ q) \/ (exists c, c <> [] /\ Lf i = p ++ c)).
  { clear - El. revert El. generalize (Lf i) as a, (flat_map Lf is) as b. intros a. revert p. induction a as [|w a IH]; intros p b El.
    - left. exists p. auto.
    - destruct p as [|w' p]; [right; exists (w :: a); split; [discriminate|reflexivity]|]. injection El as -> El.
      destruct (IH p b El) as [(c & -> & E2)|(c & N & E2)]; [left; exists c; auto|right; exists c; split; [exact N|cbn; congruence]]. }
  destruct C as [(c & -> & Er)|(c & Nc & Ec)].
  - assert (Hb' : okb W (Lf i ++ c)). { rewrite <- app_assoc in Hb. destruct Hb as [B1 [B2 B3]]. rewrite app_assoc in B1, B3. apply bytes_ok_app in B1. split; [apply B1|]. split; [exact B2|]. rewrite zlen_app in B3. pose proof (zlen_nonneg q). lia. }
    specialize (Hok c Hb'). unfold er in Hok. destruct (step f o (Lf i ++ c)) as [l1 [r1 z1| | | |]] eqn:Es; cbn [snd outcome_of] in Hok; try discriminate Hok.
    injection Hok as -> ->. cbn [tbind] in E. destruct (t_pass step fs is (set_nth i z x) c) as [l2 w] eqn:Ep. injection E as <- ->.
    destruct (IH (set_nth i z x) c q l2 e y) as (dn & i' & todo & -> & H1 & H2 & H3); auto.
    + rewrite set_nth_length. exact Lx.
    + eapply okb_sfx; [exact Hb|]. exists (Lf i). symmetry. apply app_assoc.
    + intros j Hj. destruct (HS j (or_intror Hj)) as (f' & o' & z' & A1 & A2 & A3). exists f', o', z'. split; [exact A1|]. split; [|exact A3].
      rewrite set_same; [exact A2|]. intros ->. contradiction.
    + exists (i :: dn), i', todo. split; [reflexivity|]. assert (i' <> i) by (intros ->; apply Ni, in_or_app; right; left; reflexivity).
      assert (Hd : ~ In i dn) by (intros C; apply Ni, in_or_app; left; exact C).
      split; [|split].
      * intros j [<-|Hj]; [|apply H1; exact Hj]. rewrite H2 by auto. rewrite set_at by exact Li. symmetry. exact Ez.
      * intros j Hj Hji. rewrite H2; [|intros C; apply Hj; right; exact C|exact Hji]. apply set_same. intros ->. apply Hj. left. reflexivity.
      * cbn [app flat_map]. rewrite !zlen_app. lia.
  - destruct (step f o p) as [l1 [r1 z1|e1 z1| | |]] eqn:Es; cbn [tbind] in E; try discriminate E.
    + exfalso. assert (Hb' : okb W (p ++ c)). { rewrite Ec in El. rewrite <- El in Hb. destruct Hb as [B1 [B2 B3]]. apply bytes_ok_app in B1. split; [apply B1|]. split; [exact B2|]. rewrite zlen_app in B3. pose proof (zlen_nonneg (flat_map Lf is)). lia. }
      pose proof (Hext p c r1 z1 Hb') as X. rewrite Es in X. specialize (X eq_refl).
      pose proof (Hok []) as Y. rewrite app_nil_r, Ec in Y. rewrite (Y Hb') in X. injection X as X _. symmetry in X. apply app_eq_nil in X. tauto.
    + injection E as <- <- <-. exists [], i, is. split; [reflexivity|]. split; [intros j []|]. split; [intros j _ Hj; apply set_same; exact Hj|].
      cbn [app flat_map]. rewrite app_nil_r, Ec, zlen_app. pose proof (zlen_nonneg p). destruct c; [contradiction|]. rewrite zlen_cons. pose proof (zlen_nonneg c). change (zlen (@nil Z)) with 0. lia.
Qed.
End Pass.

Lemma sel_shift p fs : forall i, sel p fs (Datatypes.S i) = map Datatypes.S (sel p fs i).
Proof. induction fs as [|f fs IH]; intros i; cbn [sel map]; [reflexivity|]. destruct (p f); cbn [map]; rewrite IH; reflexivity. Qed.
Lemma flat_map_shift {A} (h : nat -> list A) l : flat_map h (map Datatypes.S l) = flat_map (fun j => h (Datatypes.S j)) l.
Proof. induction l as [|a l IH]; [reflexivity|]. cbn [map flat_map]. rewrite IH. reflexivity. Qed.
Lemma group_places S p : forall xs fs, length xs = length fs ->
  group p (zw (fun x f => (f, layout S x f)) xs fs) =
  flat_map (fun j => match nth_error xs j, nth_error fs j with Some x, Some f => layout S x f | _, _ => [] end) (sel p fs 0).
Proof.
  induction xs as [|x xs IH]; intros [|f fs] L; try discriminate L; [reflexivity|]. injection L as L. cbn [zw sel]. unfold group. cbn [filter fst].
  rewrite sel_shift. destruct (p f); cbn [map concat snd flat_map nth_error]; rewrite ?flat_map_shift; cbn [nth_error]; rewrite <- IH by exact L; reflexivity.
Qed.
Lemma layout_pieces S m xs : length xs = length (fields_of S m) ->
  layout S (GMsg (Some xs)) (One (Msg m)) = flat_map (piece S m xs) (wire_order (fields_of S m)).
Proof. intros L. rewrite layout_msg. cbv zeta. rewrite !group_places by exact L. unfold wire_order. rewrite !flat_map_app. reflexivity. Qed.
Lemma wire_order_order fs : wire_order fs = order fs. Proof. reflexivity. Qed.

Lemma NoDup_app_disj {A} (a b : list A) : NoDup (a ++ b) -> forall x, In x a -> In x b -> False.
Proof. induction a as [|y a IH]; intros ND x Ha Hb; [contradiction|]. inversion ND; subst. destruct Ha as [->|Ha]; [apply H1, in_or_app; right; exact Hb|eapply IH; eassumption]. Qed.
Section Trunc.
Variable v2 : bool.
Variable prim : option bytes -> request -> bytes -> outcome.
Variable S : schema.
Variable W : Z.
Variable K : nat.
Variable blank : nat -> list gval.
Hypothesis HC : compiles S = true.
Hypothesis Hprim : forall dst v r, (v2 = false -> dst = None) -> valid v -> bytes_ok r ->
  int_ok W (wire v ++ r) -> prim dst (want v) (wire v ++ r) = Done r v.
Hypothesis Hnil : forall b, (forall r, b <> 0 :: r) -> prim None RNil b = Fail b ENotNil.
Hypothesis Hnew : forall m fuel, (m < length S)%nat -> (K <= fuel)%nat -> exists r, New v2 S fuel m = GDone r (blank m).
Hypothesis Hblank : forall m, (m < length S)%nat -> sent_struct S (blank m) m.
Hypothesis Hext : forall q dst p b r v, (v2 = false -> dst = None) -> okb W (b ++ q) -> prim dst p b = Done r v ->
  prim dst p (b ++ q) = Done (r ++ q) v /\ okb W (r ++ q).
Hypothesis Hnone : forall dst p r v, prim dst p [] <> Done r v.
Hypothesis Hnilq : forall q b r e, prim None RNil b = Fail r e -> r = b /\ (b <> [] -> exists r e, prim None RNil (b ++ q) = Fail r e).
Hypothesis Hfail : forall b r e, prim None RNil b = Fail r e -> r = b.
Hypothesis HV : forall m, ~ vacuous false S m.
Lemma step_ext fuel q f old b r a : field_compiles S f = true -> okb W (b ++ q) ->
  step v2 prim S fuel f old b = GDone r a -> step v2 prim S fuel f old (b ++ q) = GDone (r ++ q) a.
Proof.
  intros FC Hb E. assert (Hnil0 : exists e, prim None RNil [] = Fail [] e) by (eexists; apply Hnil; discriminate).
  assert (HR : forall m x, (m < length S)%nat -> ext_fn W q (decode v2 prim S fuel m x)).
  { intros m x L. apply (decode_ext v2 prim S W q HC (Hext q) Hnone (Hnilq q) Hnil0 Hfail HV). exact L. }
  assert (H0 : forall m x r y, (m < length S)%nat -> decode v2 prim S fuel m x [] <> GDone r y).
  { intros m' x' r' y' L' E'. apply (decode_none v2 prim S HC Hnone Hnil0) in E'; [|exact L']. destruct E' as [_ E']. exact (HV _ E'). }
  destruct f as [[k|m]|t|kk t]; cbn [step] in *.
  - apply (ext_other v2 prim W q (Hext q) (One (Scalar k)) old b r a Hb E).
  - apply (ext_message v2 prim S W q (Hext q) Hnone (Hnilq q) Hfail fuel _ HR H0 _ old FC b r a Hb E).
  - apply (ext_slice v2 prim S W q (Hext q) fuel _ HR _ old FC b r a Hb E).
  - apply (ext_message v2 prim S W q (Hext q) Hnone (Hnilq q) Hfail fuel _ HR H0 _ old FC b r a Hb E).
Qed.
Lemma er_step fuel f old b : er (t_step unlimited v2 prim S fuel f old b) = step v2 prim S fuel f old b.
Proof.
  assert (HR : forall m x b, er (t_decode unlimited v2 prim S fuel m x b) = decode v2 prim S fuel m x b) by (apply erase_decode; reflexivity).
  destruct f as [[k|m]|t|kk t]; cbn [t_step step]; [apply er_other|apply er_message; exact HR|apply er_slice; [reflexivity|exact HR]|apply er_message; exact HR].
Qed.
Theorem trunc_decode m xs old p q fuel l e y : struct_type S xs m -> readable S (GMsg (Some xs)) (One (Msg m)) -> struct_type S old m ->
  layout S (GMsg (Some xs)) (One (Msg m)) = p ++ q -> q <> [] -> int_ok W (p ++ q) -> (depth (GMsg (Some xs)) + K <= fuel)%nat ->
  t_decode unlimited v2 prim S fuel m old p = (l, TErr e y) ->
  exists dn i todo, wire_order (fields_of S m) = dn ++ i :: todo /\
    (forall j, In j dn -> nth_error y j = field_after v2 S blank m xs old j) /\
    (forall j, In j todo -> nth_error y j = nth_error old j) /\
    zlen (flat_map (piece S m xs) dn) <= zlen p < zlen (flat_map (piece S m xs) (dn ++ [i])).
Proof.
  intros HT HR HO El Hq Hi HF E. pose proof (layout_ok S m xs HC HT) as Hb. rewrite El in Hb.
  destruct (sent_calls S m xs HC (ht_st _ _ _ HT)) as (vs & Ec & V & Ly).
  destruct (calls_sent_head S HC _ _ _ (ht_st _ _ _ HT) HR Ec) as (v & ws & EV & Nv); [discriminate|].
  apply ht_msg in HT. destruct HT as [L HT]. apply ht_msg in HO. destruct HO as [_ HO].
  pose proof (Forall2_length _ _ _ HT) as Len. pose proof (Forall2_length _ _ _ HO) as LenO.
  assert (HF' : (depth (GMsg (Some xs)) <= fuel - K)%nat) by lia.
  apply depth_msg in HF'. destruct HF' as (n & En & Hn). destruct fuel as [|fuel]; [lia|].
  rewrite decode_pass in E by assumption. unfold t_nil in E. rewrite Hnil in E.
  2: { intros t ->. rewrite EV, wires_cons in Ly. rewrite El in Ly. apply (wire_head v (wires ws) (t ++ q) Nv). exact Ly. }
  rewrite layout_pieces in El by exact Len. rewrite wire_order_order in *.
  apply ev_msg in HR; [|exact Len]. destruct HR as [_ HR].
  pose proof (order_nodup (fields_of S m)) as ND.
  destruct (trunc_pass unlimited S W (t_step unlimited v2 prim S fuel) (fields_of S m) (piece S m xs) (field_after v2 S blank m xs old)
    (order (fields_of S m)) old p q l e y) as (dn & i & todo & E1 & E2 & E3 & E4); auto.
  - split; assumption.
  - intros i Hio. apply order_in in Hio. destruct (nth_error (fields_of S m) i) as [f|] eqn:Ef; [|apply nth_error_None in Ef; lia].
    destruct (nth_error old i) as [o|] eqn:Eo; [|apply nth_error_None in Eo; lia].
    destruct (nth_error xs i) as [x|] eqn:Ex; [|apply nth_error_None in Ex; lia].
    exists f, o, (overlay v2 S blank v2 x f o). split; [reflexivity|]. split; [reflexivity|]. split; [unfold field_after; rewrite Ex, Ef, Eo; reflexivity|].
    pose proof (compiles_field S m i f HC Ef) as FC. pose proof (Forall2_nth _ _ _ _ _ _ HT Ex Ef) as Tx. pose proof (Forall2_nth _ _ _ _ _ _ HO Eo Ef) as To.
    pose proof (Forall2_nth _ _ _ _ _ _ HR Ex Ef) as Rx.
    split.
    + intros r Hr. rewrite er_step. destruct (calls_sent S HC x f (ht_st _ _ _ Tx) FC) as (wx & Ewx & Vx).
      pose proof (calls_layout S HC x f wx (ht_st _ _ _ Tx) FC Ewx) as Lx. unfold piece in *. rewrite Ex, Ef in *. rewrite <- Lx in *.
      destruct (decode_exact v2 prim S W K blank HC Hprim Hnil Hnew Hblank x) as [_ HD].
      rewrite HD; auto using ht_st.
      * rewrite (collapse_id S _ _ Tx). reflexivity.
      * destruct Hr as [Hr _]. apply bytes_ok_app in Hr. apply Hr.
      * apply Hr.
      * rewrite Forall_forall in Hn. specialize (Hn x (nth_error_In _ _ Ex)). cbv beta in Hn. lia.
    + intros b q' r a Hbq. rewrite !er_step. apply step_ext; assumption.
  - exists dn, i, todo. split; [exact E1|]. split; [exact E2|]. split; [|exact E4]. rewrite E1 in ND.
    intros j Hj. apply E3.
    + intros Hd. apply NoDup_app_disj with (1 := ND) (2 := Hd). right. exact Hj.
    + intros ->. apply NoDup_remove_2 in ND. apply ND, in_or_app. right. exact Hj.
Qed.
End Trunc.
