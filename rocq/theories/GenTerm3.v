(** Termination of generated decoders, continued. *)
From Coq Require Import String.
From Verif Require Import Base Spec SpecProofs GoSpec GoIdeal GoProps GoThms GoThms2 GoThms3 BufSpec GenTables GenModel GenSpec GenLemmas GenFields GenDec GenThms GenThms2 GenThms3 GenTerm GenTerm2.
From Verif Require V1Model V2Model.

Section Bound.
Variable v2 : bool.
Variable prim : option bytes -> request -> bytes -> outcome.
Variable S : schema.
Variable W : Z.
Variables R K : nat.
Hypothesis HC : compiles S = true.
Hypothesis Hdone : forall dst q b r v, (v2 = false -> dst = None) -> okb W b -> prim dst q b = Done r v ->
  valid v /\ want v = q /\ sfx b r /\ (r = b -> v2 = true /\ q = RBytes).
Hypothesis Hfail : forall b r e, prim None RNil b = Fail r e -> r = b.
Hypothesis HT : forall m, (m < length S)%nat -> tall v2 S R m.
Hypothesis HN : forall m fuel, (m < length S)%nat -> (K <= fuel)%nat -> New v2 S fuel m <> GDeep.
Notation ok := (okb W).
Notation nb := (no_move v2 S).

Lemma gbind_nd {A B} (P : bytes -> A -> Prop) (x : gres A) (k : bytes -> A -> gres B) : x <> GDeep -> fine P x ->
  (forall r a, P r a -> k r a <> GDeep) -> gbind x k <> GDeep.
Proof. intros H F G. destruct x; cbn in *; try congruence. apply G. exact F. Qed.
Lemma call_nd {A} dst q b (k : bytes -> value -> gres A) : (v2 = false -> dst = None) -> ok b ->
  (forall r v, valid v -> want v = q -> sfx b r -> (r = b -> v2 = true /\ q = RBytes) -> k r v <> GDeep) ->
  call prim dst q b k <> GDeep.
Proof.
  intros Hd Hb H. unfold call. destruct (prim dst q b) as [r v|r e|] eqn:E; try discriminate.
  destruct (Hdone _ _ _ _ _ Hd Hb E) as (H1 & H2 & H3 & H4). apply H; assumption.
Qed.
Lemma gbind_gbind {A B C} (x : gres A) (k : bytes -> A -> gres B) (l : bytes -> B -> gres C) :
  gbind (gbind x k) l = gbind x (fun r a => gbind (k r a) l).
Proof. destruct x; reflexivity. Qed.
Lemma dec_call_nd dst k b : dec_call prim dst k b <> GDeep.
Proof.
  unfold dec_call. destruct (go_decodeLUT k); [|discriminate]. destruct (assoc s go_decoder_methods) as [[q t]|]; [|discriminate].
  unfold call. destruct (prim dst q b); discriminate.
Qed.
Lemma nil_nd {A} b (yes no : bytes -> gres A) : ok b ->
  (forall r, yes r <> GDeep) -> no b <> GDeep -> if_nil prim b yes no <> GDeep.
Proof.
  intros Hb Y N. unfold if_nil. destruct (prim None RNil b) as [r v|r e|] eqn:E; try discriminate; [apply Y|].
  rewrite (Hfail _ _ _ E). exact N.
Qed.

Section Frame.
Variable fuel : nat.
Variable rec : nat -> list gval -> bytes -> gres (list gval).
Variable b0 : bytes.                       (* the frame's input *)
Hypothesis HR : rec_fine v2 S W rec.
Hypothesis HK : (K <= fuel)%nat.
(** calls on shorter input do not overflow *)
Hypothesis HS : forall m x r, (m < length S)%nat -> struct_type S x m -> ok r -> (length r < length b0)%nat -> rec m x r <> GDeep.

Lemma or_new_nd m x : (m < length S)%nat -> or_new v2 S fuel m x <> GDeep.
Proof. intros L. destruct x as [| | |[|]]; try discriminate. apply HN; assumption. Qed.
Lemma elems_nd t : field_compiles S (One t) = true -> (forall k, t = Scalar k -> exists c a, call_compiles c a k = true) ->
  forall xs b, ok b -> (length b < length b0)%nat -> Forall (fun x => has_type S x (One t)) xs ->
  dec_elems v2 prim S fuel rec t xs b <> GDeep.
Proof.
  intros FC HKk. induction xs as [|x xs IH]; intros b Hb Hl Hx; cbn [dec_elems]; [discriminate|]. inversion Hx; subst.
  destruct t as [k|m].
  - destruct (HKk k eq_refl) as (c & a & C).
    rewrite gbind_gbind.
    eapply gbind_nd; [apply dec_call_nd|apply (dec_call_fine v2 prim W Hdone c a None k b C (fun _ => eq_refl) Hb)|].
    intros r v (Sf & _ & _). cbn [gbind]. apply gbind_deep; [|discriminate]. apply IH; [eapply okb_sfx; eassumption| |assumption].
    pose proof (sfx_len _ _ Sf). lia.
  - assert (L : (m < length S)%nat) by (apply Nat.ltb_lt; exact FC).
    eapply gbind_nd with (P := fun r y => sfx b r /\ has_type S y (One (Msg m)) /\ (r = b -> vacuous v2 S m)).
    + eapply gbind_nd; [apply or_new_nd; exact L|apply (or_new_fine v2 S HC fuel m x L H1)|]. intros r0 s Hs.
      apply gbind_deep; [apply HS; assumption|discriminate].
    + apply (msg_fine v2 S W rec HR m b _ L Hb). apply (or_new_fine v2 S HC fuel m x L H1).
    + intros r y (Sf & _ & _). apply gbind_deep; [|discriminate]. apply IH; [eapply okb_sfx; eassumption| |assumption].
      pose proof (sfx_len _ _ Sf). lia.
Qed.
Lemma entries_nd kk t : field_compiles S (MapOf kk t) = true -> forall n l b, ok b -> (length b < length b0)%nat ->
  dec_entries v2 prim S fuel rec kk t n l b <> GDeep.
Proof.
  intros FC. destruct (one_of_map _ _ _ FC) as [FO CK].
  assert (FT : match t with Scalar k => call_compiles true false k = true | Msg m => (m < length S)%nat end).
  { cbn [field_compiles] in FC. apply andb_prop in FC. destruct FC as [_ FC]. destruct t; [exact FC|apply Nat.ltb_lt; exact FC]. }
  induction n as [|n IH]; intros l b Hb Hl; cbn [dec_entries]; [discriminate|].
  eapply gbind_nd; [apply dec_call_nd|apply (dec_call_fine v2 prim W Hdone true false None kk b CK (fun _ => eq_refl) Hb)|].
  intros r k (Sf & _ & _). pose proof (okb_sfx _ _ _ Hb Sf) as Hr. pose proof (sfx_len _ _ Sf) as Hlr.
  eapply gbind_nd with (P := fun r' (y : gval) => sfx r r').
  - destruct t as [k2|m].
    + apply gbind_deep; [apply dec_call_nd|discriminate].
    + eapply gbind_nd; [apply HN; [exact FT|exact HK]|apply (new_fine v2 S HC fuel m FT)|]. intros r0 s Hs.
      apply gbind_deep; [apply HS; try assumption; lia|discriminate].
  - destruct t as [k2|m].
    + eapply fine_bind; [apply (dec_call_fine v2 prim W Hdone true false None k2 r FT (fun _ => eq_refl) Hr)|].
      intros r2 v _ (Sf2 & _). exact Sf2.
    + pose proof (msg_fine v2 S W rec HR m r (New v2 S fuel m) FT Hr (new_fine v2 S HC fuel m FT)) as F.
      destruct (gbind (New v2 S fuel m) _); cbn in *; tauto.
  - intros r2 y Sf2. apply IH; [eapply okb_sfx; eassumption|]. pose proof (sfx_len _ _ Sf2). lia.
Qed.
Lemma slice_nd f old b : is_repeated f = true -> field_compiles S f = true -> has_type S old f -> ok b -> sfx b0 b ->
  dec_slice v2 prim S fuel rec f old b <> GDeep.
Proof.
  intros Hf FC Ho Hb Sb. destruct f as [|t|]; try discriminate Hf. destruct old as [|xs|[|]|[|]]; try contradiction Ho.
  apply ht_many in Ho. destruct Ho as [HL Ho]. cbn [dec_slice].
  destruct (kind_number (go_GetKind (tkind t))); [|discriminate]. apply call_nd; [reflexivity|exact Hb|].
  intros r v V Wv Sf Er. destruct v as [| |size ke| | | | | | | | | | | | ]; try discriminate Wv. pose proof (one_of_many _ _ FC) as FO.
  apply gbind_deep; [|discriminate]. apply (elems_nd t FO).
  - intros k0 ->. cbn [field_compiles] in FC. apply andb_prop in FC. destruct FC as [FC _]. eauto.
  - eapply okb_sfx; eassumption.
  - pose proof (sfx_len _ _ Sb). enough (length r < length b)%nat by lia. apply sfx_lt; [exact Sf|]. intros E.
    destruct (Er E) as [_ C]. discriminate C.
  - destruct (Z.eqb_spec (u32 (zlen xs)) size); [exact Ho|]. apply Forall_forall. intros y Hy. apply repeat_spec in Hy. subst y.
    apply zero_type. exact FO.
Qed.
Lemma message_nd f old b : is_message f = true -> field_compiles S f = true -> has_type S old f -> ok b -> sfx b0 b ->
  (forall m, f = One (Msg m) -> b = b0 -> forall x, struct_type S x m -> rec m x b0 <> GDeep) ->
  dec_message v2 prim S fuel rec f old b <> GDeep.
Proof.
  intros Hf FC Ho Hb Sb HM. destruct f as [[|m]|t|kk t]; try discriminate Hf.
  - assert (L : (m < length S)%nat) by (apply Nat.ltb_lt; exact FC).
    assert (RC : forall x, struct_type S x m -> rec m x b <> GDeep).
    { intros x Hx. destruct (list_eq_dec Z.eq_dec b b0) as [->|N]; [apply HM; auto|]. apply HS; auto. apply sfx_lt; assumption. }
    destruct (bool_cases v2) as [E|E].
    + rewrite dm_v2 by exact E. apply nil_nd; [exact Hb|discriminate|].
      eapply gbind_nd; [apply HN; [exact L|exact HK]|apply (new_fine v2 S HC fuel m L)|]. intros r0 s Hs.
      apply gbind_deep; [apply RC; exact Hs|discriminate].
    + rewrite dm_v1 by exact E.
      eapply gbind_nd; [apply or_new_nd; exact L|apply (or_new_fine v2 S HC fuel m old L Ho)|]. intros r0 s Hs.
      apply gbind_deep; [apply RC; exact Hs|discriminate].
  - cbn [dec_message]. apply nil_nd; [exact Hb|discriminate|].
    destruct (kind_number (go_GetKind kk)); [|discriminate]. destruct (kind_number (go_GetKind (tkind t))); [|discriminate].
    apply call_nd; [reflexivity|exact Hb|]. intros r v V Wv Sf Er. destruct v; try discriminate Wv.
    apply gbind_deep; [|discriminate]. apply entries_nd; [exact FC|eapply okb_sfx; eassumption|].
    pose proof (sfx_len _ _ Sb). enough (length r < length b)%nat by lia. apply sfx_lt; [exact Sf|]. intros E.
    destruct (Er E) as [_ C]. discriminate C.
Qed.
Lemma pass_nd step fs : forall is dn x b,
  (forall i, In i is -> exists f, nth_error fs i = Some f /\ forall old b, has_type S old f -> ok b -> field_fine v2 S f b (step f old b)) ->
  (forall d i rest f old b, is = d ++ i :: rest -> nth_error fs i = Some f -> has_type S old f -> ok b -> sfx b0 b ->
     (b = b0 -> forall j g, In j (dn ++ d) -> nth_error fs j = Some g -> nb g) -> step f old b <> GDeep) ->
  Forall2 (has_type S) x fs -> ok b -> sfx b0 b -> (b = b0 -> forall j g, In j dn -> nth_error fs j = Some g -> nb g) ->
  pass step fs is x b <> GDeep.
Proof.
  induction is as [|i is IH]; intros dn x b HF HD Hx Hb Sb Hn; cbn [pass]; [discriminate|].
  destruct (HF i (or_introl eq_refl)) as (f & Ef & Hf). rewrite Ef.
  destruct (nth_error x i) as [old|] eqn:Eo; [|discriminate].
  pose proof (Forall2_nth _ _ _ _ _ _ Hx Eo Ef) as Ho.
  eapply gbind_nd; [eapply (HD [] i is); eauto; rewrite app_nil_r; exact Hn|apply Hf; assumption|]. intros r y (Sf & Hy & Nm).
  apply (IH (dn ++ [i])).
  - intros j Hj. apply HF. right; exact Hj.
  - intros d j rest g o b' E Eg Ho' Hb' Sb' N. apply (HD (i :: d) j rest); auto.
    + cbn. rewrite E. reflexivity.
    + intros E' j' g' Hj'. apply N; [exact E'|]. rewrite <- app_assoc. exact Hj'.
  - eapply Forall2_set; eassumption.
  - eapply okb_sfx; eassumption.
  - eapply sfx_trans; eassumption.
  - intros ->. destruct (sfx_back _ _ _ Sb Sf eq_refl) as [-> _]. intros j g Hj Hg. apply in_app_iff in Hj. destruct Hj as [Hj|[<-|[]]].
    + eapply Hn; eauto.
    + rewrite Ef in Hg. injection Hg as <-. apply Nm. reflexivity.
Qed.
End Frame.

Theorem decode_nd : forall fuel h m x b, (m < length S)%nat -> struct_type S x m -> ok b -> tall v2 S h m ->
  (length b * R + h + K <= fuel)%nat -> decode v2 prim S fuel m x b <> GDeep.
Proof.
  induction fuel as [|fuel IH]; intros h m x b L Hx Hb Hh HF.
  { destruct h; [contradiction|lia]. }
  destruct h as [|h]; [contradiction|].
  assert (HR1 : (1 <= R)%nat). { pose proof (HT m L) as Q. destruct R; [contradiction|lia]. }
  assert (HS : forall m x r, (m < length S)%nat -> struct_type S x m -> ok r -> (length r < length b)%nat -> decode v2 prim S fuel m x r <> GDeep).
  { intros m' x' r L' Hx' Hr Hl. apply (IH R); auto. assert (length r * R + R <= length b * R)%nat by nia. lia. }
  assert (HK : (K <= fuel)%nat) by lia.
  cbn [decode]. apply nil_nd; [exact Hb|discriminate|].
  rewrite (fields_nth S m L). rewrite (getFields_sel S) by (auto using compiles_msg).
  pose proof (decode_fine v2 prim S W HC Hdone Hfail fuel) as RF.
  apply ht_msg in Hx. destruct Hx as [_ Hx]. remember (fields_of S m) as fs eqn:Efs.
  assert (FCs : forall i f, nth_error fs i = Some f -> field_compiles S f = true) by (intros i f; rewrite Efs; apply compiles_field; exact HC).
  assert (F1 : forall i, In i (sel p_val fs 0) -> exists f, nth_error fs i = Some f /\ forall old b, has_type S old f -> ok b -> field_fine v2 S f b (dec_other v2 prim f old b)).
  { intros i Hi. destruct (sel_field _ _ _ Hi) as (f & Ef & Pf). exists f. split; [exact Ef|]. intros old b' Ho Hb'.
    eapply other_fine; eauto. }
  assert (F2 : forall i, In i (sel p_slice fs 0) -> exists f, nth_error fs i = Some f /\ forall old b, has_type S old f -> ok b -> field_fine v2 S f b (dec_slice v2 prim S fuel (decode v2 prim S fuel) f old b)).
  { intros i Hi. destruct (sel_field _ _ _ Hi) as (f & Ef & Pf). exists f. split; [exact Ef|]. intros old b' Ho Hb'.
    eapply slice_fine; eauto. }
  assert (F3 : forall i, In i (sel p_msg fs 0) -> exists f, nth_error fs i = Some f /\ forall old b, has_type S old f -> ok b -> field_fine v2 S f b (dec_message v2 prim S fuel (decode v2 prim S fuel) f old b)).
  { intros i Hi. destruct (sel_field _ _ _ Hi) as (f & Ef & Pf). exists f. split; [exact Ef|]. intros old b' Ho Hb'.
    eapply message_fine; eauto. }
  eapply gbind_nd with (P := fun r y => sfx b r /\ Forall2 (has_type S) y fs /\ (r = b -> forall i f, In i (sel p_val fs 0) -> nth_error fs i = Some f -> nb f)).
  { apply (pass_nd b (dec_other v2 prim) fs _ []); auto using sfx_refl.
    - intros d i rest f old b' E Ef Ho Hb' Sb _. destruct f as [[k|]| |]; try discriminate. cbn [dec_other].
      apply gbind_deep; [apply dec_call_nd|discriminate].
    - intros _ j g []. }
  { apply (pass_fine v2 S W _ fs (fun _ _ _ _ => eq_refl)); auto. }
  intros b1 x1 (S1 & T1 & N1). pose proof (okb_sfx _ _ _ Hb S1) as Hb1.
  eapply gbind_nd with (P := fun r y => sfx b1 r /\ Forall2 (has_type S) y fs /\ (r = b1 -> forall i f, In i (sel p_slice fs 0) -> nth_error fs i = Some f -> nb f)).
  { apply (pass_nd b _ fs _ []); auto.
    - intros d i rest f old b' E Ef Ho Hb' Sb _.
      assert (Hi : In i (sel p_slice fs 0)) by (cbn [app] in E; rewrite E; apply in_app_iff; right; left; reflexivity).
      destruct (sel_field _ _ _ Hi) as (f' & Ef' & Pf). rewrite Ef in Ef'. injection Ef' as <-.
      eapply (slice_nd fuel (decode v2 prim S fuel) b); eauto.
    - intros _ j g []. }
  { apply (pass_fine v2 S W _ fs (fun _ _ _ _ => eq_refl)); auto. }
  intros b2 x2 (S2 & T2 & N2). pose proof (okb_sfx _ _ _ Hb1 S2) as Hb2. pose proof (sfx_trans _ _ _ S1 S2) as S12.
  apply (pass_nd b _ fs _ (sel p_val fs 0 ++ sel p_slice fs 0)); auto.
  - intros d i rest f old b' E Ef Ho Hb' Sb Nd.
    assert (Hi : In i (sel p_msg fs 0)) by (rewrite E; apply in_app_iff; right; left; reflexivity).
    destruct (sel_field _ _ _ Hi) as (f' & Ef' & Pf). rewrite Ef in Ef'. injection Ef' as <-.
    eapply (message_nd fuel (decode v2 prim S fuel) b); eauto.
    intros q -> Eb y Hy. specialize (Nd Eb). apply (IH h); auto.
    + apply Nat.ltb_lt. exact (FCs _ _ Ef).
    + apply Hh. split.
      * rewrite <- Efs. intros g Hg. apply In_nth_error in Hg. destruct Hg as [j Hj].
        assert (Hjo : In j (order fs)) by (apply order_in, nth_error_Some; congruence).
        unfold order in Hjo. rewrite !in_app_iff in Hjo.
        destruct g as [[k|q']|t|k t]; cbn [is_repeated is_scalar]; try (split; [reflexivity|discriminate]).
        -- split; [reflexivity|]. intros _. assert (Hv : In j (sel p_val fs 0)).
           { apply sel_in. split; [lia|]. rewrite Nat.sub_0_r. eexists. split; [exact Hj|reflexivity]. }
           destruct (Nd j _ ltac:(rewrite !in_app_iff; auto) Hj) as [H|(q' & C & _)]; [exact H|discriminate C].
        -- exfalso. assert (Hv : In j (sel p_slice fs 0)).
           { apply sel_in. split; [lia|]. rewrite Nat.sub_0_r. eexists. split; [exact Hj|reflexivity]. }
           destruct (Nd j _ ltac:(rewrite !in_app_iff; auto) Hj) as [(_ & C)|(q' & C & _)]; discriminate C.
      * rewrite <- Efs. destruct (nth_error_split fs i Ef) as (pre & post & E1 & Li). exists pre, post. split; [exact E1|].
        intros g Hg Mg. apply In_nth_error in Hg. destruct Hg as [j Hj].
        assert (Hji : (j < i)%nat) by (rewrite <- Li; apply nth_error_Some; congruence).
        assert (Hj' : nth_error fs j = Some g) by (rewrite E1, nth_error_app1 by lia; exact Hj).
        assert (Hm : In j (sel p_msg fs 0)).
        { apply sel_in. split; [lia|]. rewrite Nat.sub_0_r. exists g. split; [exact Hj'|]. destruct g as [[|]| |]; try discriminate Mg; reflexivity. }
        assert (Hd : In j d).
        { rewrite E in Hm. apply in_app_iff in Hm. destruct Hm as [Hm|[Hm|Hm]]; [exact Hm|lia|].
          pose proof (sel_rest _ _ _ _ _ _ E j Hm). lia. }
        destruct (Nd j g ltac:(rewrite !in_app_iff; auto) Hj') as [(_ & ->)|H]; [discriminate Mg|exact H].
    + lia.
  - intros Eb. destruct (sfx_back _ _ _ S1 S2 Eb) as [E1 E2]. intros j g Hj Hg. apply in_app_iff in Hj.
    destruct Hj as [Hj|Hj]; [eapply N1|eapply N2]; eauto.
Qed.
End Bound.
