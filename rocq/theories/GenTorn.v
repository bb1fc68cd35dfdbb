(** What the field contains in which a decode failed. *)
From Coq Require Import String.
From Verif Require Import Base Spec SpecProofs GoSpec GoIdeal GoProps GoThms GoThms2 GoThms3 BufSpec GenTables GenModel GenSpec GenLemmas GenFields GenDec GenThms GenThms2 GenThms3 GenTerm GenTerm2 GenTerm3 GenTerm4 GenExt GenStuck GenThms4 GenTrace TraceSpec GenTraceThms GenTraceInv GenTraceSplit GenTraceEnd GenPick GenPick2.
From Verif Require V1Model V2Model.

Lemma New_noerr v2 S f m e : New v2 S f m <> GErr e.
Proof.
  destruct v2.
  - destruct f; cbn [New]; destruct (nth_error S m); discriminate.
  - revert m. induction f as [|f IH]; intros m; cbn [New]; destruct (nth_error S m) as [fs|]; try discriminate.
    induction fs as [|g fs IHf]; [discriminate|]. destruct g as [[k|k]| |]; cbn [gbind]; try (intros E; apply IHf;
      match type of E with gbind ?x _ = _ => destruct x; cbn [gbind] in E; try discriminate E; exact E end).
    destruct (New false S f k) eqn:En; cbn [gbind]; try discriminate; [|intros E; injection E as ->; eapply IH; exact En].
    intros E. apply IHf. match type of E with gbind ?x _ = _ => destruct x; cbn [gbind] in E; try discriminate E; exact E end.
Qed.
Section Torn.
Variable v2 : bool.
Variable prim : option bytes -> request -> bytes -> outcome.
Variable S : schema.
Variable W : Z.
Hypothesis HC : compiles S = true.
Hypothesis Hprim : forall v r, valid v -> bytes_ok r -> int_ok W (wire v ++ r) -> prim None (want v) (wire v ++ r) = Done r v.
Hypothesis Hnil : forall b, (forall r, b <> 0 :: r) -> prim None RNil b = Fail b ENotNil.
Hypothesis Hdone : forall dst q b r v, (v2 = false -> dst = None) -> okb W b -> prim dst q b = Done r v ->
  valid v /\ want v = q /\ sfx b r /\ (r = b -> v2 = true /\ q = RBytes).
Hypothesis Hfail : forall b r e, prim None RNil b = Fail r e -> r = b.
Variable fuel : nat.
Let create m s := exists q, New v2 S fuel m = GDone q s.
Let T := t_decode unlimited v2 prim S.
Let D S := decode v2 prim S.
Let LB := left_behind T (fun S f m x b => option_map (fun x => D S f m x b) x) (prim None) create S fuel.
Lemma slice_kind t : field_compiles S (Many t) = true -> kind_number (go_GetKind (tkind t)) = Some (announced t).
Proof. intros FC. destruct t as [k|k]; [|reflexivity]. destruct k; try discriminate FC; reflexivity. Qed.
Lemma map_kinds kk t : field_compiles S (MapOf kk t) = true -> kind_number (go_GetKind kk) = Some (announced (Scalar kk)) /\ kind_number (go_GetKind (tkind t)) = Some (announced t).
Proof.
  intros FC. cbn [field_compiles] in FC. apply andb_prop in FC. destruct FC as [FC1 FC]. apply andb_prop in FC1. destruct FC1 as [_ FC1].
  split; [destruct kk; try discriminate FC1; reflexivity|]. destruct t as [k|k]; [|reflexivity]. destruct k; try discriminate FC; reflexivity.
Qed.
Lemma announced_byte t : isbyte (announced t).
Proof. destruct t as [[]|]; cbn; unfold isbyte; lia. Qed.
(** One element *)
Lemma elem_err t x xs b l e ys : t_elems v2 prim S fuel (T fuel) t (x :: xs) b = (l, TErr e ys) ->
  (exists z, torn T create fuel true t x b e z /\ ys = z :: xs) \/
  (exists z r l', t_elems v2 prim S fuel (T fuel) t xs r = (l', TErr e (tl ys)) /\ ys = z :: tl ys /\
     forall more, dec_elems v2 prim S fuel (D S fuel) t (x :: more) b = gbind (dec_elems v2 prim S fuel (D S fuel) t more r) (fun r zs => GDone r (z :: zs))).
Proof.
  assert (HE : forall m s b, er (T fuel m s b) = D S fuel m s b) by (apply erase_decode; reflexivity).
  intros E. cbn [t_elems] in E. destruct t as [k|m].
  - destruct (dec_call prim None k b) as [r v|e'| | |] eqn:Ec; cbn [plain ret tbind] in E; try discriminate E.
    + destruct (t_elems v2 prim S fuel (T fuel) (Scalar k) xs r) as [l2 y2] eqn:E2. destruct y2 as [| e2 y2| | |]; cbn [tbind] in E; try discriminate E.
      injection E as <- <- <-. right. exists (GPrim v), r, l2. split; [exact E2|]. split; [reflexivity|]. intros more. cbn [dec_elems]. rewrite Ec. reflexivity.
    + injection E as <- <- <-. left. exists (zero (One (Scalar k))). split; [constructor|reflexivity].
  - assert (HS : forall s, or_new v2 S fuel m x = GDone [] s \/ (exists q, or_new v2 S fuel m x = GDone q s) ->
       forall y, T fuel m s b = (l, y) -> match y with TErr e0 y0 => torn T create fuel true (Msg m) x b e0 (GMsg (Some y0)) | _ => True end).
    { intros s Hs y Ey. destruct y; try exact I. destruct x as [v|zs|o|[s0|]]; cbn [or_new] in Hs;
        try (destruct Hs as [Hs|[q Hs]]; discriminate Hs).
      - assert (s0 = s) by (destruct Hs as [Hs|[q Hs]]; injection Hs; auto). subst. eapply T_again; [reflexivity|exact Ey].
      - eapply T_new; [right; reflexivity| |exact Ey]. destruct Hs as [Hs|[q Hs]]; eexists; exact Hs. }
    destruct (or_new v2 S fuel m x) as [q s|e'| | |] eqn:Eo; cbn [plain ret tbind] in E; try discriminate E.
    + unfold t_msg in E. destruct (T fuel m s b) as [l1 y1] eqn:E1. pose proof (HE m s b) as HE1. rewrite E1 in HE1.
      destruct y1 as [r1 s1|e1 s1| | |]; unfold ret in E; cbn [tbind] in E; try discriminate E.
      * destruct (t_elems v2 prim S fuel (T fuel) (Msg m) xs r1) as [l2 y2] eqn:E2. destruct y2 as [| e2 y2| | |]; cbn [tbind] in E; try discriminate E.
        injection E as <- <- <-. right. exists (GMsg (Some s1)), r1, l2. split; [exact E2|]. split; [reflexivity|]. intros more.
        unfold er in HE1. cbn [snd outcome_of] in HE1. cbn [dec_elems]. rewrite Eo. cbn [gbind]. rewrite <- HE1. reflexivity.
      * injection E as <- <- <-. left. exists (GMsg (Some s1)). split; [|reflexivity]. apply (HS s (or_intror (ex_intro _ q eq_refl)) (TErr e1 s1)). exact E1.
    + exfalso. destruct x as [v|zs|o|[s0|]]; cbn [or_new] in Eo; try discriminate Eo. exact (New_noerr _ _ _ _ _ Eo).
Qed.
Lemma elems_err t : forall xs b l e ys, t_elems v2 prim S fuel (T fuel) t xs b = (l, TErr e ys) ->
  exists n z zs r, (n < length xs)%nat /\ ys = zs ++ z :: skipn (Datatypes.S n) xs /\ torn T create fuel true t (nth n xs (zero (One t))) r e z /\
    dec_elems v2 prim S fuel (D S fuel) t (firstn n xs) b = GDone r zs.
Proof.
  induction xs as [|x xs IH]; intros b l e ys E; [discriminate E|]. destruct (elem_err _ _ _ _ _ _ _ E) as [(z & Hz & ->)|(z & r & l' & E' & Ey & HD)].
  - exists 0%nat, z, [], b. split; [cbn; lia|]. split; [reflexivity|]. split; [exact Hz|]. reflexivity.
  - destruct (IH _ _ _ _ E') as (n & z' & zs & r' & Hn & Ez & Ht & Hd). exists (Datatypes.S n), z', (z :: zs), r'. split; [cbn; lia|].
    split; [rewrite Ey, Ez; reflexivity|]. split; [exact Ht|]. cbn [firstn]. rewrite HD, Hd. reflexivity.
Qed.
Lemma entries_err kk t : forall n acc b l e y, t_entries v2 prim S fuel (T fuel) kk t n acc b = (l, TErr e y) ->
  exists n' r, (n' < n)%nat /\ dec_entries v2 prim S fuel (D S fuel) kk t n' acc b = GDone r y /\
    dec_entries v2 prim S fuel (D S fuel) kk t (Datatypes.S n') acc b = GErr e.
Proof.
  assert (HE : forall m s b, er (T fuel m s b) = D S fuel m s b) by (apply erase_decode; reflexivity).
  induction n as [|n IH]; intros acc b l e y E; [discriminate E|]. cbn [t_entries] in E.
  destruct (dec_call prim None kk b) as [r k|e'| | |] eqn:Ek; cbn [plain] in E; unfold ret in E; try discriminate E.
  2: { injection E as <- <- <-. exists 0%nat, b. split; [lia|]. split; [reflexivity|]. cbn [dec_entries]. rewrite Ek. reflexivity. }
  set (X := match t with
    | Msg m => gbind (New v2 S fuel m) (fun _ s => gbind (D S fuel m s r) (fun r s => GDone r (GMsg (Some s))))
    | Scalar kt => gbind (dec_call prim None kt r) (fun r v => GDone r (GPrim v))
    end).
  assert (HX : forall j, dec_entries v2 prim S fuel (D S fuel) kk t (Datatypes.S j) acc b = gbind X (fun r v => dec_entries v2 prim S fuel (D S fuel) kk t j (insert k v acc) r)).
  { intros j. cbn [dec_entries]. rewrite Ek. reflexivity. }
  match type of E with tbind ?Y _ _ = _ => set (Y0 := Y) in E; assert (HY : er Y0 = X) end.
  { unfold X. destruct t as [kt|m].
    - unfold Y0. destruct (dec_call prim None kt r); reflexivity.
    - unfold Y0. destruct (New v2 S fuel m) as [q s| | | |]; try reflexivity. cbn [plain gbind]. unfold t_msg. rewrite <- HE. destruct (T fuel m s r) as [l1 [r1 s1| | | |]]; reflexivity. }
  clearbody Y0. clearbody X. destruct Y0 as [l1 [r1 v1|e1 v1| | |]]; cbn [tbind] in E; try discriminate E; unfold er in HY; cbn [snd outcome_of] in HY; subst X.
  - destruct (t_entries v2 prim S fuel (T fuel) kk t n (insert k v1 acc) r1) as [l2 y2] eqn:E2. injection E as _ ->.
    destruct (IH _ _ _ _ _ E2) as (n' & r' & Hn & H1 & H2). exists (Datatypes.S n'), r'. split; [lia|]. rewrite !HX. cbn [gbind]. auto.
  - injection E as _ <- <-. exists 0%nat, b. split; [lia|]. split; [reflexivity|]. rewrite HX. reflexivity.
Qed.
Lemma int_ok_app b r v : bytes_ok b -> int_ok W b -> zlen b + 9 < 2 ^ (W - 1) -> sfx b r -> zlen (wire v) <= 9 -> bytes_ok r /\ int_ok W (wire v ++ r).
Proof.
  intros Hb Hi H9 Sf Hv. destruct (okb_sfx W b r (conj Hb Hi) Sf) as [Hr _]. split; [exact Hr|]. split; [apply Hi|].
  destruct Sf as [c ->]. rewrite !zlen_app in *. pose proof (zlen_nonneg c). lia.
Qed.
Lemma step_err f old b l e y : field_compiles S f = true -> has_type S old f -> bytes_ok b -> int_ok W b -> zlen b + 9 < 2 ^ (W - 1) ->
  t_step unlimited v2 prim S fuel f old b = (l, TErr e y) -> LB (negb v2) f old b e y.
Proof.
  intros FC HT Hb Hi H9 E. destruct f as [[k|m]|t|kk t]; cbn [t_step] in E.
  - unfold t_other, plain, ret in E. destruct (dec_other v2 prim (One (Scalar k)) old b); try discriminate E. injection E as _ <- <-. constructor. constructor.
  - assert (HM : forall s l y, t_msg (T fuel) m s b = (l, TErr e y) -> exists l ys, T fuel m s b = (l, TErr e ys) /\ y = GMsg (Some ys)).
    { intros s l0 y0 E0. unfold t_msg in E0. destruct (T fuel m s b) as [l1 [r1 s1|e1 s1| | |]]; unfold ret in E0; cbn [tbind] in E0; try discriminate E0.
      injection E0 as <- <- <-. exists l1, s1. split; reflexivity. }
    cbn [t_message] in E. unfold LB. clear LB. destruct v2 eqn:Ev.
    + unfold t_nil in E. destruct (prim None RNil b) as [r v|r e'|] eqn:En; try discriminate E. rewrite (Hfail _ _ _ En) in E.
      destruct (New true S fuel m) as [q s|e''| | |] eqn:EN; cbn [plain] in E; unfold ret in E; try discriminate E.
      * destruct (HM _ _ _ E) as (l1 & ys & E1 & ->). constructor. eapply T_new; [left; reflexivity|exists q; exact EN|exact E1].
      * rewrite New_v2 in EN by (apply Nat.ltb_lt; exact FC). discriminate EN.
    + destruct old as [v|os|o|[s0|]]; cbn [or_new plain] in E; try discriminate E.
      * destruct (HM _ _ _ E) as (l1 & ys & E1 & ->). constructor. eapply T_again; [reflexivity|exact E1].
      * destruct (New false S fuel m) as [q s|e''| | |] eqn:EN; cbn [plain] in E; unfold ret in E; try discriminate E.
        -- destruct (HM _ _ _ E) as (l1 & ys & E1 & ->). constructor. eapply T_new; [right; reflexivity|exists q; exact EN|exact E1].
        -- exfalso. exact (New_noerr _ _ _ _ _ EN).
  - unfold t_slice in E. destruct old as [v|os|o|o]; try discriminate E. rewrite slice_kind in E by exact FC.
    destruct (prim None (RSlice (announced t)) b) as [r v|r e'|] eqn:Ep; [|injection E as _ <- <-; eapply L_slice_header; exact Ep|discriminate E].
    destruct (Hdone None _ b r v (fun _ => eq_refl) (conj Hb Hi) Ep) as (Vv & Wv & Sf & _). destruct v as [| | n k'| | | | | | | | | | | |]; try discriminate Wv. injection Wv as ->.
    apply ht_many in HT. destruct HT as [Lo _]. cbv zeta in E.
    assert (Eb : exists l' ys, t_elems v2 prim S fuel (T fuel) t (if zlen os =? n then os else repeat (zero (One t)) (Z.to_nat n)) r = (l', TErr e ys) /\ y = GList ys).
    { unfold u32 in E. rewrite Z.mod_small in E by (pose proof (zlen_nonneg os); lia). cbn [unlimited] in E. unfold unlimited in E.
      destruct (zlen os =? n); cbn [tbind] in E; (match type of E with context [tbind (t_elems _ _ _ _ _ _ ?xs _)] => destruct (t_elems v2 prim S fuel (t_decode (fun _ => true) v2 prim S fuel) t xs r) as [l2 [| | | |]] eqn:E2 end);
        unfold ret in E; cbn [tbind] in E; try discriminate E; injection E as _ <- <-; do 2 eexists; (split; [exact E2|reflexivity]). }
    destruct Eb as (l' & ys & Eb & ->). destruct (elems_err _ _ _ _ _ _ Eb) as (n' & z & zs & r' & Hn & -> & Ht & Hd).
    set (base := if zlen os =? n then os else repeat (zero (One t)) (Z.to_nat n)) in *.
    assert (Lb : zlen base = n). { unfold base. destruct (zlen os =? n) eqn:Eo; [apply Z.eqb_eq; exact Eo|]. unfold zlen. rewrite repeat_length. destruct Vv. lia. }
    eapply L_slice; [exact Ep|reflexivity| |exact Hn|exact Ht]. fold base. cbn [option_map]. f_equal.
    assert (Hv' : valid (VSlice (Z.of_nat n') (announced t))). { split; [|apply announced_byte]. destruct Vv as [Vv _]. unfold zlen in Lb. lia. }
    assert (Hw : zlen (wire (VSlice (Z.of_nat n') (announced t))) <= 9).
    { destruct Hv' as [Hv' _]. cbn [wire]. rewrite !zlen_cons. pose proof (varint_le (Z.of_nat n') 5 ltac:(lia) ltac:(lia) ltac:(cbn; lia)). lia. }
    destruct (int_ok_app b r _ Hb Hi H9 Sf Hw) as [Hr Hi'].
    unfold D. rewrite (decode_fields v2 prim S _ fuel (length S) [Many t]); [|rewrite nth_error_app2 by lia; rewrite Nat.sub_diag; reflexivity|cbn [forallb]; rewrite FC; reflexivity].
    unfold if_nil. rewrite Hnil by (intros; cbn; congruence). cbn [order sel p_val p_slice p_msg app pass nth_error].
    change (order [Many t]) with [0%nat]. cbn [pass nth_error]. rewrite step_more by assumption. cbn [step dec_slice]. rewrite slice_kind by exact FC. unfold call.
    pose proof (Hprim _ _ Hv' Hr Hi') as P. cbn [want] in P. rewrite P. cbv zeta.
    replace (u32 (zlen (firstn n' base)) =? Z.of_nat n') with true.
    2: { symmetry. apply Z.eqb_eq. unfold zlen. rewrite firstn_length_le by lia. unfold u32. apply Z.mod_small. destruct Hv' as [Hv' _]. exact Hv'. }
    change (dec_elems v2 prim S fuel (decode v2 prim S fuel) t (firstn n' base) r = GDone r' zs) in Hd. rewrite Hd. reflexivity.
  - cbn [t_message] in E. unfold t_nil in E. destruct (prim None RNil b) as [r0 v0|r0 e0|] eqn:En; try discriminate E. rewrite (Hfail _ _ _ En) in E. clear r0 e0 En.
    destruct (map_kinds kk t FC) as [K1 K2]. rewrite K1, K2 in E.
    destruct (prim None (RMap (announced (Scalar kk)) (announced t)) b) as [r v|r e'|] eqn:Ep; [|injection E as _ <- <-; eapply L_map_header; exact Ep|discriminate E].
    destruct (Hdone None _ b r v (fun _ => eq_refl) (conj Hb Hi) Ep) as (Vv & Wv & Sf & _). destruct v as [|n k1 k2| | | | | | | | | | | | |]; try discriminate Wv. injection Wv as -> ->.
    cbn [tbind] in E. destruct (t_entries v2 prim S fuel (t_decode unlimited v2 prim S fuel) kk t (Z.to_nat n) [] r) as [l2 [| | | |]] eqn:E2; unfold ret in E; cbn [tbind] in E; try discriminate E.
    injection E as _ <- <-. destruct (entries_err _ _ _ _ _ _ _ _ E2) as (n' & r' & Hn & H1 & H2). destruct Vv as [Vn _].
    assert (HD : forall j, (j <= Datatypes.S n')%nat -> D (S ++ [[MapOf kk t]]) (Datatypes.S fuel) (length S) [GMap None] (wire (VMap (Z.of_nat j) (announced (Scalar kk)) (announced t)) ++ r) =
      gbind (dec_entries v2 prim S fuel (D S fuel) kk t j [] r) (fun r l => GDone r [GMap (Some l)])).
    { intros j Hj.
      assert (Hv' : valid (VMap (Z.of_nat j) (announced (Scalar kk)) (announced t))) by (split; [lia|split; apply announced_byte]).
      assert (Hw : zlen (wire (VMap (Z.of_nat j) (announced (Scalar kk)) (announced t))) <= 9).
      { cbn [wire]. rewrite !zlen_cons. pose proof (varint_le (Z.of_nat j) 5 ltac:(lia) ltac:(lia) ltac:(cbn; lia)). lia. }
      destruct (int_ok_app b r _ Hb Hi H9 Sf Hw) as [Hr Hi'].
      unfold D. rewrite (decode_fields v2 prim S _ fuel (length S) [MapOf kk t]); [|rewrite nth_error_app2 by lia; rewrite Nat.sub_diag; reflexivity|cbn [forallb]; rewrite FC; reflexivity].
      unfold if_nil. rewrite Hnil by (intros; cbn; congruence).
      change (order [MapOf kk t]) with [0%nat]. cbn [pass nth_error]. rewrite step_more by assumption. cbn [step dec_message]. rewrite K1, K2. unfold if_nil.
      rewrite Hnil by (intros; cbn; congruence). unfold call. pose proof (Hprim _ _ Hv' Hr Hi') as P. cbn [want] in P. rewrite P. rewrite Nat2Z.id.
      destruct (dec_entries v2 prim S fuel (decode v2 prim S fuel) kk t j [] r); reflexivity. }
    eapply L_map with (n' := n'); [exact Ep|lia| |].
    + cbn [option_map]. rewrite HD by lia. rewrite H1. reflexivity.
    + cbn [option_map]. replace (Z.of_nat n' + 1) with (Z.of_nat (Datatypes.S n')) by lia. rewrite HD by lia. rewrite H2. reflexivity.
Qed.
Hypothesis Hhead : forall q b r v, okb W b -> prim None q b = Done r v ->
  match q with RSlice _ | RMap _ _ => zlen r + 4 <= zlen b | _ => True end.
Theorem torn_decode m x b l e y : struct_type S x m -> bytes_ok b -> int_ok W b -> zlen b + 9 < 2 ^ (W - 1) ->
  t_decode unlimited v2 prim S (Datatypes.S fuel) m x b = (l, TErr e y) ->
  exists dn i todo b' f old z, wire_order (fields_of S m) = dn ++ i :: todo /\
    decode v2 prim (with_part S m dn) (Datatypes.S fuel) (length S) (pick dn x) b = GDone b' (pick dn y) /\
    decode v2 prim (with_part S m (dn ++ [i])) (Datatypes.S fuel) (length S) (pick (dn ++ [i]) x) b = GErr e /\
    (forall j, In j todo -> nth_error y j = nth_error x j) /\
    nth_error (fields_of S m) i = Some f /\ nth_error x i = Some old /\ nth_error y i = Some z /\ LB (negb v2) f old b' e z.
Proof.
  intros HT Hb Hi H9 E. destruct (where_decode v2 prim S HC Hfail fuel m x b l e y HT E) as (dn & i & todo & b' & f & old & z & l1 & l2 & x' & H1 & H2 & H3 & H4 & H5 & H6 & H7 & H8 & H9').
  exists dn, i, todo, b', f, old, z. repeat (split; [assumption|]). apply ht_msg in HT. destruct HT as [L HT].
  assert (FCs : forall i f, nth_error (fields_of S m) i = Some f -> field_compiles S f = true) by (intros i0 f0; apply compiles_field; exact HC).
  assert (Hin : In (fields_of S m) S) by (apply nth_In; exact L).
  pose proof (decode_tf v2 prim S W HC Hdone Hfail Hhead fuel) as HR.
  assert (Sf : sfx b b').
  { pose proof (pass_tf v2 prim S W Hfail Hhead (t_step unlimited v2 prim S fuel) (fields_of S m) dn x b) as P.
    destruct P as [_ P]; [|exact HT|split; assumption|rewrite H8 in P; apply P].
    intros j Hj. assert (Lj : (j < length (fields_of S m))%nat) by (apply order_in; change (order (fields_of S m)) with (wire_order (fields_of S m)); rewrite H1; apply in_or_app; left; exact Hj).
    destruct (nth_error (fields_of S m) j) as [g|] eqn:Eg; [|apply nth_error_None in Eg; lia]. exists g. split; [reflexivity|].
    intros o b0 Ho Hb0. pose proof (FCs j g Eg) as FC. apply nth_error_In in Eg. destruct g as [[k|k]|t|kk t]; cbn [t_step].
    - apply (other_tf v2 prim S W Hdone Hfail Hhead); auto.
    - apply (message_tf v2 prim S W HC Hdone Hfail Hhead fuel _ HR); auto.
    - apply (slice_tf v2 prim S W HC Hdone Hfail Hhead fuel _ HR); auto. exists (fields_of S m). auto.
    - apply (message_tf v2 prim S W HC Hdone Hfail Hhead fuel _ HR); auto. }
  destruct (okb_sfx W b b' (conj Hb Hi) Sf) as [Hb' Hi'].
  apply (step_err f old b' l2 e z); auto.
  - eapply FCs; exact H5.
  - exact (Forall2_nth _ _ _ _ _ _ HT H6 H5).
  - destruct Sf as [c ->]. rewrite zlen_app in H9. pose proof (zlen_nonneg c). lia.
Qed.
End Torn.
