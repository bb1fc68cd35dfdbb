(** GenTraceInv and GenTraceSplit for the two versions. *)
From Coq Require Import String.
From Verif Require Import Base Spec SpecProofs GoSpec GoIdeal GoProps GoThms GoThms2 GoThms3 BufSpec GenTables GenModel GenSpec GenLemmas GenFields GenDec GenThms GenThms2 GenThms3 GenTerm GenTerm2 GenTerm3 GenTerm4 GenExt GenStuck GenThms4 GenTrace TraceSpec GenTraceThms GenTraceInv GenTraceSplit.
From Verif Require V1Model V2Model.

Lemma length_at_shorter t ds r : length_at t ds r -> zlen r + 2 <= zlen t.
Proof. intros (u & -> & -> & _ & cs & c & -> & _). rewrite zlen_cons, !zlen_app, zlen_cons. pose proof (zlen_nonneg cs). change (zlen (@nil Z)) with 0. lia. Qed.
Lemma accepts_head v2 q b r v : accepts v2 q b r v -> match q with RSlice _ | RMap _ _ => zlen r + 4 <= zlen b | _ => True end.
Proof.
  intros H. inversion H; subst; try exact I; try (apply length_at_shorter in H0; rewrite !zlen_cons; lia).
  destruct q; try exact I; discriminate.
Qed.
Lemma head1 W q b r v : okb W b -> prim1 W None q b = Done r v -> match q with RSlice _ | RMap _ _ => zlen r + 4 <= zlen b | _ => True end.
Proof. intros Hb E. apply (accepts_head false q b r v). apply (dec1_done W); [apply Hb|apply Hb|exact E]. Qed.
Lemma head2 W q b r v : okb W b -> prim2 W None q b = Done r v -> match q with RSlice _ | RMap _ _ => zlen r + 4 <= zlen b | _ => True end.
Proof. intros Hb E. apply (accepts_head true q b r v). eapply (dec2_done W); [apply Hb|apply Hb|exact E]. Qed.

Lemma trace1_outcome W S fuel m x b : Some (outcome_of (snd (Trace1 W unlimited S fuel m x b))) = Decode1 W S fuel m (Some x) b.
Proof. unfold Decode1. cbn [option_map]. f_equal. apply (erase_decode unlimited (fun _ => eq_refl) false (V1Model.decode W) S fuel m x b). Qed.
Lemma trace2_outcome W S fuel m x b : Some (outcome_of (snd (Trace2 W unlimited S fuel m x b))) = Decode2 W S fuel m (Some x) b.
Proof. unfold Decode2. cbn [option_map]. f_equal. apply (erase_decode unlimited (fun _ => eq_refl) true _ S fuel m x b). Qed.
Lemma trace1_limit W room S fuel m x b : Trace1 W room S fuel m x b = limit room (Trace1 W unlimited S fuel m x b).
Proof. apply limit_decode. Qed.
Lemma trace2_limit W room S fuel m x b : Trace2 W room S fuel m x b = limit room (Trace2 W unlimited S fuel m x b).
Proof. apply limit_decode. Qed.

Lemma trace1_tf W S fuel m x b : compiles S = true -> struct_type S x m -> okb W b ->
  tf (gain false S) b (fun r y => struct_type S y m /\ (r = b -> vacuous false S m)) (fun y => struct_type S y m) (Trace1 W unlimited S fuel m x b).
Proof.
  intros HC HT Hb. apply (decode_tf false (prim1 W) S W HC (hdone1 W) (prim1_fail W) (head1 W) fuel m x b); [|exact HT|exact Hb].
  apply ht_msg in HT. apply HT.
Qed.
Lemma trace2_tf W S fuel m x b : compiles S = true -> struct_type S x m -> okb W b ->
  tf (gain true S) b (fun r y => struct_type S y m /\ (r = b -> vacuous true S m)) (fun y => struct_type S y m) (Trace2 W unlimited S fuel m x b).
Proof.
  intros HC HT Hb. apply (decode_tf true (prim2 W) S W HC (hdone2 W) (prim2_fail W) (head2 W) fuel m x b); [|exact HT|exact Hb].
  apply ht_msg in HT. apply HT.
Qed.

Lemma trunc1 W S K m xs old p q fuel l e y : compiles S = true -> new_ok S K -> (forall k, ~ vacuous false S k) ->
  struct_type S xs m -> readable S (GMsg (Some xs)) (One (Msg m)) -> struct_type S old m ->
  layout S (GMsg (Some xs)) (One (Msg m)) = p ++ q -> q <> [] -> int_ok W (p ++ q) -> (depth (GMsg (Some xs)) + K <= fuel)%nat ->
  Trace1 W unlimited S fuel m old p = (l, TErr e y) ->
  exists dn i todo, wire_order (fields_of S m) = dn ++ i :: todo /\
    (forall j, In j dn -> nth_error y j = field_after false S (blank1 S K) m xs old j) /\
    (forall j, In j todo -> nth_error y j = nth_error old j) /\
    zlen (flat_map (piece S m xs) dn) <= zlen p < zlen (flat_map (piece S m xs) (dn ++ [i])).
Proof.
  intros HC HN HV HT HR HO El Hq Hi HF E. assert (HW : W = 64 \/ W = 32) by apply Hi.
  apply (trunc_decode false (prim1 W) S W K (blank1 S K) HC) with (p := p) (q := q) (fuel := fuel) (l := l) (e := e); try assumption.
  - intros dst v r' Hd Hv Hr' HW'. rewrite Hd by reflexivity. apply dec1_wire; assumption.
  - intros b. apply nil1.
  - intros k f Lk Hf. destruct (HN k Lk) as (q0 & s & Es). exists q0. unfold blank1. rewrite Es.
    apply (New_v1_ok S HC _ _ _ _ Es). exact Hf.
  - intros k Lk. destruct (HN k Lk) as (q0 & s & Es). unfold blank1. rewrite Es. apply ht_st, (New_v1_ok S HC _ _ _ _ Es).
  - intros q0. apply ext_done1; assumption.
  - intros. apply none1; assumption.
  - intros q0. apply nilq1.
  - apply prim1_fail.
Qed.
Lemma trunc2 W S m xs old p q fuel l e y : compiles S = true -> (forall k, ~ vacuous false S k) ->
  struct_type S xs m -> readable S (GMsg (Some xs)) (One (Msg m)) -> struct_type S old m ->
  layout S (GMsg (Some xs)) (One (Msg m)) = p ++ q -> q <> [] -> int_ok W (p ++ q) -> (depth (GMsg (Some xs)) <= fuel)%nat ->
  Trace2 W unlimited S fuel m old p = (l, TErr e y) ->
  exists dn i todo, wire_order (fields_of S m) = dn ++ i :: todo /\
    (forall j, In j dn -> nth_error y j = field_after true S (zero_struct S) m xs old j) /\
    (forall j, In j todo -> nth_error y j = nth_error old j) /\
    zlen (flat_map (piece S m xs) dn) <= zlen p < zlen (flat_map (piece S m xs) (dn ++ [i])).
Proof.
  intros HC HV HT HR HO El Hq Hi HF E. assert (HW : W = 64 \/ W = 32) by apply Hi.
  apply (trunc_decode true (prim2 W) S W 0 (zero_struct S) HC) with (p := p) (q := q) (fuel := fuel) (l := l) (e := e); try assumption; try lia.
  - intros dst v r' _ Hv Hr' HW'. apply dec2_wire; assumption.
  - intros b. apply nil2.
  - intros k f Lk _. exists []. apply New_v2. exact Lk.
  - intros k Lk. apply ht_st, zero_struct_type; assumption.
  - intros q0. apply ext_done2; assumption.
  - intros. apply none2; assumption.
  - intros q0. apply nilq2.
  - apply prim2_fail.
Qed.

(** The first field in wire order is repeated. *)
Section First.
Variable v2 : bool.
Variable prim : option bytes -> request -> bytes -> outcome.
Variable S : schema.
Variable W : Z.
Hypothesis HC : compiles S = true.
Hypothesis Hprim : forall v r, valid v -> bytes_ok r -> int_ok W (wire v ++ r) -> prim None (want v) (wire v ++ r) = Done r v.
Hypothesis Hnil : forall b, (forall r, b <> 0 :: r) -> prim None RNil b = Fail b ENotNil.
Lemma first_slice room fuel m x i rest t xs n q : struct_type S x m -> wire_order (fields_of S m) = i :: rest ->
  nth_error (fields_of S m) i = Some (Many t) -> nth_error x i = Some (GList xs) -> zlen xs <> n -> 0 <= n < 2 ^ 32 -> bytes_ok q ->
  int_ok W (wire (VSlice n (announced t)) ++ q) ->
  exists l y, t_decode room v2 prim S (Datatypes.S fuel) m x (wire (VSlice n (announced t)) ++ q) = (MakeSlice n :: l, y) /\
    (room n = false -> l = [] /\ y = TPanic).
Proof.
  intros HT E Ef Ex Hl Hn Hq HW. apply ht_msg in HT. destruct HT as [L HT].
  pose proof (compiles_field S m i _ HC Ef) as FC. pose proof (Forall2_nth _ _ _ _ _ _ HT Ex Ef) as Tx. apply ht_many in Tx.
  destruct Tx as [Tx _].
  rewrite decode_pass by assumption. unfold t_nil. rewrite Hnil by (intros r; cbn; congruence).
  change (order (fields_of S m)) with (wire_order (fields_of S m)). rewrite E. cbn [t_pass]. rewrite Ef, Ex. cbn [t_step t_slice].
  assert (HK : kind_number (go_GetKind (tkind t)) = Some (announced t)).
  { destruct t as [k|k]; [|reflexivity]. destruct k; try discriminate FC; reflexivity. }
  assert (HB : isbyte (announced t)) by (destruct t as [[]|]; cbn; unfold isbyte; lia).
  rewrite HK. change (RSlice (announced t)) with (want (VSlice n (announced t))). rewrite Hprim; [|cbn; auto|exact Hq|exact HW].
  cbv zeta. replace (u32 (zlen xs) =? n) with false.
  2: { symmetry. apply Z.eqb_neq. unfold u32. rewrite Z.mod_small; [exact Hl|]. pose proof (zlen_nonneg xs). lia. }
  destruct (room n) eqn:ER.
  - cbn [tbind]. destruct (tbind (t_elems _ _ _ _ _ _ _ _) _ _) as [l1 y1]. destruct y1; cbn [tbind]; try (do 2 eexists; split; [reflexivity|discriminate]).
    destruct (t_pass _ _ _ _ _). do 2 eexists; split; [reflexivity|discriminate].
  - do 2 eexists. split; [reflexivity|]. auto.
Qed.
Lemma first_map room fuel m x i rest kk t n q : struct_type S x m -> wire_order (fields_of S m) = i :: rest ->
  nth_error (fields_of S m) i = Some (MapOf kk t) -> 0 <= n < 2 ^ 32 -> bytes_ok q ->
  int_ok W (wire (VMap n (announced (Scalar kk)) (announced t)) ++ q) ->
  exists l y, t_decode room v2 prim S (Datatypes.S fuel) m x (wire (VMap n (announced (Scalar kk)) (announced t)) ++ q) = (MakeMap n :: l, y).
Proof.
  intros HT E Ef Hn Hq HW. apply ht_msg in HT. destruct HT as [L HT]. pose proof (Forall2_length _ _ _ HT) as Len.
  destruct (nth_error x i) as [o|] eqn:Ex; [|apply nth_error_None in Ex; assert (i < length (fields_of S m))%nat by (apply nth_error_Some; congruence); lia].
  pose proof (compiles_field S m i _ HC Ef) as FC.
  rewrite decode_pass by assumption. unfold t_nil. rewrite Hnil by (intros r; cbn; congruence).
  change (order (fields_of S m)) with (wire_order (fields_of S m)). rewrite E. cbn [t_pass]. rewrite Ef, Ex. cbn [t_step t_message].
  unfold t_nil. rewrite Hnil by (intros r; cbn; congruence).
  assert (HK : kind_number (go_GetKind kk) = Some (announced (Scalar kk)) /\ kind_number (go_GetKind (tkind t)) = Some (announced t)).
  { cbn [field_compiles] in FC. apply andb_prop in FC. destruct FC as [FC1 FC]. apply andb_prop in FC1. destruct FC1 as [_ FC1].
    split; [destruct kk; try discriminate FC1; reflexivity|]. destruct t as [k|k]; [|reflexivity]. destruct k; try discriminate FC; reflexivity. }
  destruct HK as [-> ->].
  assert (HB : isbyte (announced t)) by (destruct t as [[]|]; cbn; unfold isbyte; lia).
  assert (HB' : isbyte (announced (Scalar kk))) by (destruct kk; cbn; unfold isbyte; lia).
  change (RMap (announced (Scalar kk)) (announced t)) with (want (VMap n (announced (Scalar kk)) (announced t))). rewrite Hprim; [|cbn; auto|exact Hq|exact HW].
  cbn [tbind]. destruct (tbind (t_entries _ _ _ _ _ _ _ _ _ _) _ _) as [l1 y1]. destruct y1; cbn [tbind]; try (do 2 eexists; reflexivity).
  destruct (t_pass _ _ _ _ _). do 2 eexists; reflexivity.
Qed.
End First.
Lemma first1 W room S fuel m x i rest t xs n q : compiles S = true -> struct_type S x m -> wire_order (fields_of S m) = i :: rest ->
  nth_error (fields_of S m) i = Some (Many t) -> nth_error x i = Some (GList xs) -> zlen xs <> n -> 0 <= n < 2 ^ 32 -> bytes_ok q ->
  int_ok W (wire (VSlice n (announced t)) ++ q) ->
  exists l y, Trace1 W room S (Datatypes.S fuel) m x (wire (VSlice n (announced t)) ++ q) = (MakeSlice n :: l, y) /\
    (room n = false -> l = [] /\ y = TPanic).
Proof.
  intros HC. apply (first_slice false (prim1 W) S W HC).
  - intros v r Hv Hr HW. apply dec1_wire; assumption.
  - intros b. apply nil1.
Qed.
Lemma first2 W room S fuel m x i rest t xs n q : compiles S = true -> struct_type S x m -> wire_order (fields_of S m) = i :: rest ->
  nth_error (fields_of S m) i = Some (Many t) -> nth_error x i = Some (GList xs) -> zlen xs <> n -> 0 <= n < 2 ^ 32 -> bytes_ok q ->
  int_ok W (wire (VSlice n (announced t)) ++ q) ->
  exists l y, Trace2 W room S (Datatypes.S fuel) m x (wire (VSlice n (announced t)) ++ q) = (MakeSlice n :: l, y) /\
    (room n = false -> l = [] /\ y = TPanic).
Proof.
  intros HC. apply (first_slice true (prim2 W) S W HC).
  - intros v r Hv Hr HW. apply dec2_wire; assumption.
  - intros b. apply nil2.
Qed.

Lemma firstmap1 W room S fuel m x i rest kk t n q : compiles S = true -> struct_type S x m -> wire_order (fields_of S m) = i :: rest ->
  nth_error (fields_of S m) i = Some (MapOf kk t) -> 0 <= n < 2 ^ 32 -> bytes_ok q ->
  int_ok W (wire (VMap n (announced (Scalar kk)) (announced t)) ++ q) ->
  exists l y, Trace1 W room S (Datatypes.S fuel) m x (wire (VMap n (announced (Scalar kk)) (announced t)) ++ q) = (MakeMap n :: l, y).
Proof.
  intros HC. apply (first_map false (prim1 W) S W HC).
  - intros v r Hv Hr HW. apply dec1_wire; assumption.
  - intros b. apply nil1.
Qed.
Lemma firstmap2 W room S fuel m x i rest kk t n q : compiles S = true -> struct_type S x m -> wire_order (fields_of S m) = i :: rest ->
  nth_error (fields_of S m) i = Some (MapOf kk t) -> 0 <= n < 2 ^ 32 -> bytes_ok q ->
  int_ok W (wire (VMap n (announced (Scalar kk)) (announced t)) ++ q) ->
  exists l y, Trace2 W room S (Datatypes.S fuel) m x (wire (VMap n (announced (Scalar kk)) (announced t)) ++ q) = (MakeMap n :: l, y).
Proof.
  intros HC. apply (first_map true (prim2 W) S W HC).
  - intros v r Hv Hr HW. apply dec2_wire; assumption.
  - intros b. apply nil2.
Qed.

(** Schemas without repeated fields and maps. *)
Section Flat.
Variable room : Z -> bool.
Variable v2 : bool.
Variable prim : option bytes -> request -> bytes -> outcome.
Variable S : schema.
Hypothesis HC : compiles S = true.
Hypothesis HF : singular_only S.
Lemma quiet_bind {A B} (x : run A) u (k : bytes -> A -> run B) : fst x = [] -> (forall r a, fst (k r a) = []) -> fst (tbind x u k) = [].
Proof. destruct x as [l [r a| | | |]]; cbn [fst tbind]; intros -> H; auto. specialize (H r a). destruct (k r a). exact H. Qed.
Lemma quiet_plain {A B} (x : gres A) (o : B) (k : bytes -> A -> run B) : (forall r a, fst (k r a) = []) -> fst (plain x o k) = [].
Proof. destruct x; cbn; auto. Qed.
Lemma quiet_pass step fs : (forall f o b, In f fs -> fst (step f o b) = []) -> forall is x b, fst (t_pass step fs is x b) = [].
Proof.
  intros H. induction is as [|i is IH]; intros x b; [reflexivity|]. cbn [t_pass]. destruct (nth_error fs i) as [f|] eqn:E; [|reflexivity].
  destruct (nth_error x i); [|reflexivity]. apply quiet_bind; [apply H; eapply nth_error_In; exact E|]. intros. apply IH.
Qed.
Lemma quiet_decode : forall fuel m x b, fst (t_decode room v2 prim S fuel m x b) = [].
Proof.
  induction fuel as [|fuel IH]; intros m x b; [reflexivity|]. destruct (Nat.lt_ge_cases m (length S)) as [L|L].
  - rewrite decode_pass by assumption. unfold t_nil. destruct (prim None RNil b) as [r v|r e|]; [reflexivity| |reflexivity]. apply quiet_pass.
    intros f o b0 Hf. pose proof (HF _ f (nth_In S [] L) Hf) as HO. destruct f as [[k|k]| |]; try contradiction; cbn [t_step].
    + unfold t_other. apply quiet_plain. reflexivity.
    + assert (Q : forall s b, fst (t_msg (t_decode room v2 prim S fuel) k s b) = []) by (intros s b1; unfold t_msg; apply quiet_bind; [apply IH|reflexivity]).
      cbn [t_message]. destruct v2; [|apply quiet_plain; intros; apply Q]. unfold t_nil. destruct (prim None RNil b0) as [r' v'|r' e'|]; [reflexivity| |reflexivity]. apply quiet_plain. intros; apply Q.
  - cbn [t_decode]. unfold t_nil. destruct (prim None RNil b) as [r v|r e|]; [reflexivity| |reflexivity]. apply nth_error_None in L. rewrite L. reflexivity.
Qed.
End Flat.
