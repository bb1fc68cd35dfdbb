(** Termination of generated version 1 decoders: the converse. *)
From Coq Require Import String.
From Verif Require Import Base Spec SpecProofs GoSpec GoIdeal GoProps GoThms GoThms2 GoThms3 BufSpec GenTables GenModel GenSpec GenLemmas GenFields GenDec GenThms GenThms2 GenThms3 GenTerm GenTerm2 GenTerm3 GenTerm4.
From Verif Require V1Model V2Model.

Definition clean (b : bytes) : Prop := forall t, b <> 0 :: t.
Definition zval (k : pkind) : value := match scalar_type k with Some q => zero_prim q | None => VNil end.
(** the shortest input for a field *)
Definition fword (f : field) : bytes :=
  match f with
  | One (Scalar k) => wire (zval k)
  | One (Msg _) => [0]
  | Many t => wire (VSlice 0 (announced t))
  | MapOf k t => wire (VMap 0 (announced (Scalar k)) (announced t))
  end.
Lemma announced_b t : isbyte (announced t).
Proof. destruct t as [[]|]; cbn; unfold isbyte; lia. Qed.
Lemma fword_ok S f : field_compiles S f = true -> bytes_ok (fword f) /\ zlen (fword f) <= 9 /\ fword f <> [] /\
  (p_msg f = false -> clean (fword f)).
Proof.
  assert (Hb : forall z, isbyte z -> isbyte z) by auto.
  destruct f as [[k|m]|t|k t]; intros H; cbn [fword].
  - cbn [field_compiles] in H. destruct k; try discriminate H; cbn; (split; [repeat constructor; unfold isbyte; lia|]); (split; [unfold zlen; cbn; lia|]);
      (split; [discriminate|intros _ t; discriminate]).
  - split; [repeat constructor; unfold isbyte; lia|]. split; [unfold zlen; cbn; lia|]. split; [discriminate|]. intros C. discriminate C.
  - split; [apply wire_ok; split; [lia|apply announced_b]|]. split; [unfold zlen; cbn; lia|]. split; [discriminate|intros _ r; discriminate].
  - split; [apply wire_ok; split; [lia|split; apply announced_b]|]. split; [unfold zlen; cbn; lia|]. split; [discriminate|intros _ r; discriminate].
Qed.
Lemma zval_holds k : call_compiles true true k = true -> holds k (zval k).
Proof. intros H. destruct k; try discriminate H; cbn; repeat split; cbn; auto; try lia; constructor. Qed.

Lemma pass_keep step fs : forall is x b r y j, pass step fs is x b = GDone r y -> ~ In j is -> nth_error y j = nth_error x j.
Proof.
  induction is as [|i is IH]; intros x0 b r0 y j E N; cbn [pass] in E; [injection E as _ ->; reflexivity|].
  destruct (nth_error fs i) as [f|]; [|discriminate E]. destruct (nth_error x0 i) as [old|] eqn:Eo; [|discriminate E].
  destruct (step f old b) as [r1 z| | | |]; cbn [gbind] in E; try discriminate E.
  rewrite (IH _ _ _ _ j E) by (intros C; apply N; right; exact C).
  assert (Nij : i <> j) by (intros ->; apply N; left; reflexivity). clear -Nij. revert i j Nij.
  induction x0 as [|a x0 IHx]; intros [|i] [|j] Nij; cbn [set_nth nth_error]; try reflexivity; try congruence. apply IHx. congruence.
Qed.
Lemma nth_firstn {A} (l : list A) : forall n k, (k < n)%nat -> nth_error (firstn n l) k = nth_error l k.
Proof. induction l as [|a l IH]; intros [|n] [|k] H; cbn [firstn nth_error]; try reflexivity; try lia. apply IH. lia. Qed.
Section One.
Variable W : Z.
Variable S : schema.
Hypothesis HC : compiles S = true.
Notation dec := (decode false (prim1 W) S).

(** [step] gets over field [f] with input [w], or exhausts the stack *)
Definition over {A} (P : A -> Prop) (r : bytes) (x : gres A) : Prop := x = GDeep \/ exists y, x = GDone r y /\ P y.
Definition crosses (step : field -> gval -> bytes -> gres gval) (f : field) (w : bytes) : Prop :=
  forall old r, has_type S old f -> okb W (w ++ r) -> over (fun y => has_type S y f) r (step f old (w ++ r)).

Lemma okb_tail w r : okb W (w ++ r) -> okb W r.
Proof. intros H. eapply okb_sfx; [exact H|]. exists w. reflexivity. Qed.
Lemma prim_wire v r : valid v -> okb W (wire v ++ r) -> prim1 W None (want v) (wire v ++ r) = Done r v.
Proof. intros Hv H. pose proof (okb_tail _ _ H) as [Hr _]. destruct H as [_ Hi]. unfold prim1. apply dec1_wire; assumption. Qed.
Lemma nil_no {A} b (yes no : bytes -> gres A) : clean b -> if_nil (prim1 W) b yes no = no b.
Proof. intros H. unfold if_nil, prim1. rewrite nil1; [reflexivity|exact H]. Qed.
Lemma nil_yes {A} b (yes no : bytes -> gres A) : if_nil (prim1 W) (0 :: b) yes no = yes b.
Proof. unfold if_nil, prim1. rewrite nil1_yes. reflexivity. Qed.

Lemma val_crosses f : p_val f = true -> field_compiles S f = true -> crosses (dec_other false (prim1 W)) f (fword f).
Proof.
  destruct f as [[k|]| |]; intros P FC; try discriminate P. intros old r _ Hok. pose proof (zval_holds k FC) as Hz. cbn [fword] in *.
  right. exists (GPrim (zval k)). split; [|exact Hz]. cbn [dec_other]. rewrite (dec_call_holds (prim1 W) None k (zval k) _ Hz). unfold call.
  rewrite (prim_wire (zval k) r (proj1 Hz) Hok). reflexivity.
Qed.
Section Frame.
Variable fuel : nat.
Lemma slice_crosses f : p_slice f = true -> field_compiles S f = true -> crosses (dec_slice false (prim1 W) S fuel (dec fuel)) f (fword f).
Proof.
  destruct f as [|t|]; intros P FC; try discriminate P. intros old r Ho Hok.
  destruct old as [|xs|[|]|[|]]; try contradiction Ho. apply ht_many in Ho. destruct Ho as [HL Ho].
  assert (K : kind_number (go_GetKind (tkind t)) = Some (announced t)).
  { destruct t as [k|m]; [|reflexivity]. cbn [field_compiles] in FC. apply andb_prop in FC. destruct FC as [FC _]. apply (announced_call _ _ _ FC). }
  right. exists (GList []). split; [|apply ht_many; split; [cbn; lia|constructor]]. cbn [fword] in *. cbn [dec_slice]. rewrite K. unfold call.
  assert (Hv : valid (VSlice 0 (announced t))) by (split; [lia|apply announced_b]).
  pose proof (prim_wire _ r Hv Hok) as E. cbn [want] in E. rewrite E. cbv zeta.
  assert (Ex : (if u32 (zlen xs) =? 0 then xs else repeat (zero (One t)) (Z.to_nat 0)) = []).
  { destruct (Z.eqb_spec (u32 (zlen xs)) 0) as [E0|E0]; [|reflexivity]. unfold u32 in E0. pose proof (zlen_nonneg xs). rewrite Z.mod_small in E0 by lia.
    destruct xs; [reflexivity|]. rewrite zlen_cons in E0. pose proof (zlen_nonneg xs). lia. }
  rewrite Ex. reflexivity.
Qed.
Lemma map_crosses k t : field_compiles S (MapOf k t) = true -> crosses (dec_message false (prim1 W) S fuel (dec fuel)) (MapOf k t) (fword (MapOf k t)).
Proof.
  intros FC old r Ho Hok. right. exists (GMap (Some [])). split; [|apply ht_map; split; [cbn; lia|split; constructor]].
  cbn [fword] in *. cbn [dec_message]. rewrite nil_no by (intros t'; discriminate).
  cbn [field_compiles] in FC. apply andb_prop in FC. destruct FC as [FC FT]. apply andb_prop in FC. destruct FC as [_ FK].
  rewrite (proj1 (announced_call _ _ _ FK)).
  assert (K : kind_number (go_GetKind (tkind t)) = Some (announced t)).
  { destruct t as [k'|m]; [|reflexivity]. apply (announced_call _ _ _ FT). }
  rewrite K. unfold call. assert (Hv : valid (VMap 0 (announced (Scalar k)) (announced t))) by (split; [lia|split; apply announced_b]).
  pose proof (prim_wire _ r Hv Hok) as E. cbn [want] in E. rewrite E. reflexivity.
Qed.
Lemma or_new_over m x : (m < length S)%nat -> has_type S x (One (Msg m)) ->
  or_new false S fuel m x = GDeep \/ exists q s, or_new false S fuel m x = GDone q s /\ struct_type S s m.
Proof.
  intros L H. destruct x as [|?|[|]|[s|]]; try contradiction H; cbn [or_new].
  - right. exists [], s. split; [reflexivity|exact H].
  - destruct (New_v1_deep S HC fuel m L) as [D|(q & s & D)]; rewrite D; [left; reflexivity|]. right. exists q, s. split; [reflexivity|].
    apply (New_v1_ok S HC _ _ _ _ D).
Qed.
Lemma zero_crosses f : p_msg f = true -> field_compiles S f = true -> crosses (dec_message false (prim1 W) S fuel (dec fuel)) f [0].
Proof.
  intros P FC old r Ho Hok. cbn [app]. destruct f as [[|q]|t|k t]; try discriminate P.
  - assert (L : (q < length S)%nat) by (apply Nat.ltb_lt; exact FC). cbn [dec_message].
    destruct (or_new_over q old L Ho) as [-> |(q0 & s & -> & Hs)]; [left; reflexivity|]. cbn [gbind]. destruct fuel as [|n]; [left; reflexivity|].
    cbn [decode]. rewrite nil_yes. cbn [gbind]. right. exists (GMsg (Some s)). split; [reflexivity|exact Hs].
  - cbn [dec_message]. rewrite nil_yes. right. exists old. split; [reflexivity|exact Ho].
Qed.
Lemma msg_crosses q w : (q < length S)%nat ->
  (forall x r, struct_type S x q -> okb W (w ++ r) -> clean (w ++ r) -> over (fun y => struct_type S y q) r (dec fuel q x (w ++ r))) ->
  forall old r, has_type S old (One (Msg q)) -> okb W (w ++ r) -> clean (w ++ r) ->
  over (fun y => has_type S y (One (Msg q))) r (dec_message false (prim1 W) S fuel (dec fuel) (One (Msg q)) old (w ++ r)).
Proof.
  intros L H old r Ho Hok Hc. cbn [dec_message]. destruct (or_new_over q old L Ho) as [-> |(q0 & s & -> & Hs)]; [left; reflexivity|]. cbn [gbind].
  destruct (H s r Hs Hok Hc) as [-> |(y & -> & Hy)]; [left; reflexivity|]. right. exists (GMsg (Some y)). split; [reflexivity|exact Hy].
Qed.
End Frame.

Lemma pass_crosses step fs wf : forall is x r, Forall2 (has_type S) x fs ->
  (forall i, In i is -> exists f, nth_error fs i = Some f /\ crosses step f (wf f)) ->
  okb W (flat_map (fun i => wf (nth i fs (Many (Msg 0)))) is ++ r) ->
  over (fun y => Forall2 (has_type S) y fs) r (pass step fs is x (flat_map (fun i => wf (nth i fs (Many (Msg 0)))) is ++ r)).
Proof.
  induction is as [|i is IH]; intros x r Hx H Hok; cbn [pass flat_map app] in *; [right; eauto|].
  destruct (H i (or_introl eq_refl)) as (f & Ef & Hf). rewrite Ef.
  destruct (nth_error x i) as [old|] eqn:Eo.
  2: { apply nth_error_None in Eo. rewrite (Forall2_length _ _ _ Hx) in Eo. apply nth_error_None in Eo. congruence. }
  rewrite (nth_error_nth fs i (Many (Msg 0)) Ef) in *. rewrite <- app_assoc in *.
  destruct (Hf old _ (Forall2_nth _ _ _ _ _ _ Hx Eo Ef) Hok) as [-> |(y & -> & Hy)]; [left; reflexivity|]. cbn [gbind].
  apply IH; [eapply Forall2_set; eassumption| |eapply okb_tail; exact Hok]. intros j Hj. apply H. right; exact Hj.
Qed.

(** ** Chains of types *)
Inductive reaches : nat -> nat -> Prop :=
| reaches_refl a : reaches a a
| reaches_step a b c : creates S a b -> reaches b c -> reaches a c.
Lemma reaches_one a b c : reaches a b -> creates S b c -> reaches a c.
Proof. intros H1 H2. induction H1; [eapply reaches_step; [exact H2|apply reaches_refl]|eapply reaches_step; eauto]. Qed.
Lemma acc_cycle q : Acc (fun b a => creates S a b) q -> forall s, creates S q s -> ~ reaches s q.
Proof.
  intros A. induction A as [q _ IH]. intros s Hs Hr. destruct Hr as [a|a b c Hab Hbc].
  - exact (IH a Hs a Hs (reaches_refl a)).
  - apply (IH a Hs b Hab). eapply reaches_one; eassumption.
Qed.
Definition weight (l : list nat) : Z := fold_right (fun t n => zlen (fields_of S t) + n) 0 l.
Lemma weight_app a b : weight (a ++ b) = weight a + weight b.
Proof. induction a as [|x a IH]; cbn [weight fold_right app]; [reflexivity|]. fold (weight (a ++ b)) (weight a). lia. Qed.
Lemma weight_nonneg l : 0 <= weight l.
Proof. induction l as [|x l IH]; cbn [weight fold_right]; [lia|]. fold (weight l). pose proof (zlen_nonneg (fields_of S x)). lia. Qed.
Lemma weight_incl l : NoDup l -> forall l', incl l l' -> weight l <= weight l'.
Proof.
  induction 1 as [|x l Hx _ IH]; intros l' Hi; [apply weight_nonneg|].
  destruct (in_split x l') as (a & b & ->); [apply Hi; left; reflexivity|].
  rewrite weight_app. cbn [weight fold_right]. fold (weight l) (weight b).
  enough (weight l <= weight (a ++ b)) by (rewrite weight_app in *; lia). apply IH. intros y Hy.
  assert (Hy' : In y (a ++ x :: b)) by (apply Hi; right; exact Hy). rewrite in_app_iff in *. destruct Hy' as [?|[->|?]]; auto. contradiction.
Qed.
Lemma weight_all : weight (seq 0 (length S)) = zlen (concat S).
Proof.
  assert (G : forall T a : schema, fold_right (fun t n => zlen (nth t (a ++ T) []) + n) 0 (seq (length a) (length T)) = zlen (concat T)).
  { induction T as [|fs T IH]; intros a; cbn [length seq fold_right concat]; [reflexivity|].
    rewrite app_nth2, Nat.sub_diag by lia. cbn [nth]. rewrite zlen_app. f_equal.
    specialize (IH (a ++ [fs])). rewrite app_length in IH. cbn [length] in IH. rewrite Nat.add_1_r, <- app_assoc in IH. exact IH. }
  exact (G S []).
Qed.
Lemma weight_bound l : NoDup l -> (forall t, In t l -> (t < length S)%nat) -> weight l <= zlen (concat S).
Proof. intros H1 H2. rewrite <- weight_all. apply weight_incl; [exact H1|]. intros t Ht. apply in_seq. specialize (H2 t Ht). lia. Qed.

(** ** Input words for messages *)
Definition word (q : nat) (w : bytes) (l : list nat) : Prop :=
  bytes_ok w /\ clean w /\ NoDup l /\ (forall t, In t l -> (t < length S)%nat /\ reaches q t) /\ zlen w <= 9 * weight l /\
  forall fuel x r, struct_type S x q -> okb W (w ++ r) -> clean (w ++ r) -> over (fun y => struct_type S y q) r (dec fuel q x (w ++ r)).
Lemma clean_app w r : clean w -> w <> [] -> clean (w ++ r).
Proof. intros H N t E. destruct w as [|c w]; [contradiction|]. cbn in E. injection E as -> _. exact (H w eq_refl). Qed.
Lemma zeros_ok n : bytes_ok (repeat 0 n).
Proof. apply Forall_forall. intros z Hz. apply repeat_spec in Hz. subst z. unfold isbyte; lia. Qed.
Lemma zeros_map {A} (l : list A) : flat_map (fun _ => [0]) l = repeat 0 (length l).
Proof. induction l; cbn; congruence. Qed.

Lemma group_word fs : forallb (field_compiles S) fs = true -> forall is,
  (forall i, In i is -> exists f, nth_error fs i = Some f /\ p_msg f = true) ->
  (forall i q, In i is -> nth_error fs i = Some (One (Msg q)) -> exists w l, word q w l) ->
  exists w l, bytes_ok w /\ clean w /\ NoDup l /\
    (forall t, In t l -> (t < length S)%nat /\ exists i q, In i is /\ nth_error fs i = Some (One (Msg q)) /\ reaches q t) /\
    zlen w <= 9 * weight l + 9 * zlen is /\
    forall fuel x r, Forall2 (has_type S) x fs -> okb W (w ++ r) -> clean (w ++ r) ->
      over (fun y => Forall2 (has_type S) y fs) r (pass (dec_message false (prim1 W) S fuel (dec fuel)) fs is x (w ++ r)).
Proof.
  intros FC. assert (FCs : forall i f, nth_error fs i = Some f -> field_compiles S f = true).
  { intros i f E. rewrite forallb_forall in FC. apply FC. eapply nth_error_In. exact E. }
  induction is as [|i is IH]; intros HF HQ.
  { exists [], []. split; [constructor|]. split; [intros t; discriminate|]. split; [constructor|]. split; [intros t []|]. split; [cbn; lia|].
    intros fuel x r Hx _ _. right. exists x. auto. }
  destruct (HF i (or_introl eq_refl)) as (f & Ef & Pf).
  (* a non-empty word for field i, then zeros *)
  assert (G : forall w l, bytes_ok w -> clean w -> w <> [] -> NoDup l ->
      (forall t, In t l -> (t < length S)%nat /\ exists i' q, In i' (i :: is) /\ nth_error fs i' = Some (One (Msg q)) /\ reaches q t) ->
      zlen w <= 9 * weight l + 9 ->
      (forall fuel old r, has_type S old f -> okb W (w ++ r) -> over (fun y => has_type S y f) r (dec_message false (prim1 W) S fuel (dec fuel) f old (w ++ r))) ->
      exists w l, bytes_ok w /\ clean w /\ NoDup l /\
    (forall t, In t l -> (t < length S)%nat /\ exists i' q, In i' (i :: is) /\ nth_error fs i' = Some (One (Msg q)) /\ reaches q t) /\
    zlen w <= 9 * weight l + 9 * zlen (i :: is) /\
    forall fuel x r, Forall2 (has_type S) x fs -> okb W (w ++ r) -> clean (w ++ r) ->
      over (fun y => Forall2 (has_type S) y fs) r (pass (dec_message false (prim1 W) S fuel (dec fuel)) fs (i :: is) x (w ++ r))).
  { intros w l Bw Cw Nw Nl Hl Hz Hw. exists (w ++ repeat 0 (length is)), l.
    split; [apply bytes_ok_app; split; [exact Bw|apply zeros_ok]|]. split; [apply clean_app; assumption|]. split; [exact Nl|]. split; [exact Hl|].
    split. { rewrite zlen_app, zlen_cons. unfold zlen at 2. rewrite repeat_length. fold (zlen is). pose proof (zlen_nonneg is). lia. }
    intros fuel x r Hx Hok _. rewrite <- app_assoc in *. cbn [pass]. rewrite Ef.
    destruct (nth_error x i) as [old|] eqn:Eo.
    2: { apply nth_error_None in Eo. rewrite (Forall2_length _ _ _ Hx) in Eo. apply nth_error_None in Eo. congruence. }
    destruct (Hw fuel old _ (Forall2_nth _ _ _ _ _ _ Hx Eo Ef) Hok) as [-> |(y & -> & Hy)]; [left; reflexivity|]. cbn [gbind].
    rewrite <- (zeros_map is). apply (pass_crosses _ fs (fun _ => [0])).
    - eapply Forall2_set; eassumption.
    - intros j Hj. destruct (HF j (or_intror Hj)) as (g & Eg & Pg). exists g. split; [exact Eg|]. apply zero_crosses; [exact Pg|eapply FCs; exact Eg].
    - rewrite zeros_map. eapply okb_tail. exact Hok. }
  destruct f as [[|q]|t|k t]; try discriminate Pf.
  - destruct (HQ i q (or_introl eq_refl) Ef) as (w & l & Hw). pose proof Hw as (Bw & Cw & Nl & Hl & Hz & Hd).
    assert (Lq : (q < length S)%nat) by (apply Nat.ltb_lt; exact (FCs _ _ Ef)).
    destruct w as [|c w].
    + (* nothing is read for this field *)
      destruct IH as (w' & l' & B' & C' & N' & H' & Z' & P'); [intros j Hj; apply HF; right; exact Hj|intros j q' Hj; apply HQ; right; exact Hj|].
      exists w', l'. split; [exact B'|]. split; [exact C'|]. split; [exact N'|]. split.
      { intros t Ht. destruct (H' t Ht) as (L & j & q' & Hj & E). split; [exact L|]. exists j, q'. split; [right; exact Hj|exact E]. }
      split; [rewrite zlen_cons; lia|]. intros fuel x r Hx Hok Hc. cbn [pass]. rewrite Ef.
      destruct (nth_error x i) as [old|] eqn:Eo.
      2: { apply nth_error_None in Eo. rewrite (Forall2_length _ _ _ Hx) in Eo. apply nth_error_None in Eo. congruence. }
      destruct (msg_crosses fuel q [] Lq (fun x r => Hd fuel x r) old (w' ++ r) (Forall2_nth _ _ _ _ _ _ Hx Eo Ef) Hok Hc) as [E|(y & E & Hy)];
        cbn [app] in E; rewrite E; [left; reflexivity|]. cbn [gbind]. apply P'; [eapply Forall2_set; eassumption|exact Hok|exact Hc].
    + apply (G (c :: w) l); try assumption; [discriminate| |lia|].
      * intros t Ht. destruct (Hl t Ht) as (L & R). split; [exact L|]. exists i, q. split; [left; reflexivity|]. auto.
      * intros fuel old r Ho Hok. apply msg_crosses; [exact Lq|apply Hd|exact Ho|exact Hok|]. apply clean_app; [exact Cw|discriminate].
  - destruct (fword_ok S (MapOf k t) (FCs _ _ Ef)) as (B & L9 & N & _).
    apply (G (fword (MapOf k t)) []); [exact B|intros t'; discriminate|exact N|constructor|intros t' []|cbn [weight fold_right]; lia|].
    intros fuel old r Ho Hok. apply map_crosses; [exact (FCs _ _ Ef)|exact Ho|exact Hok].
Qed.

Definition words (fs : list field) (is : list nat) : bytes := flat_map (fun i => fword (nth i fs (Many (Msg 0)))) is.
Lemma words_ok fs is : forallb (field_compiles S) fs = true -> (forall i, In i is -> exists f, nth_error fs i = Some f /\ p_msg f = false) ->
  bytes_ok (words fs is) /\ clean (words fs is) /\ zlen (words fs is) <= 9 * zlen is /\ (words fs is = [] -> is = []).
Proof.
  intros FC. rewrite forallb_forall in FC. induction is as [|i is IH]; intros H; cbn [words flat_map].
  { split; [constructor|]. split; [intros t; discriminate|]. split; [cbn; lia|auto]. }
  destruct (H i (or_introl eq_refl)) as (f & Ef & Pf). rewrite (nth_error_nth fs i (Many (Msg 0)) Ef).
  destruct (fword_ok S f (FC f (nth_error_In _ _ Ef))) as (B & L9 & N & C). destruct IH as (B' & C' & L' & _); [intros j Hj; apply H; right; exact Hj|].
  fold (words fs is). split; [apply bytes_ok_app; split; assumption|]. split; [apply clean_app; [apply C; exact Pf|exact N]|].
  split; [rewrite zlen_app, zlen_cons; lia|]. intros E. apply app_eq_nil in E. destruct E as [E _]. contradiction.
Qed.
Lemma sel_sum fs : forall i, zlen (sel p_val fs i) + zlen (sel p_slice fs i) + zlen (sel p_msg fs i) = zlen fs.
Proof.
  induction fs as [|f fs IH]; intros i; [reflexivity|]. specialize (IH (Datatypes.S i)).
  destruct f as [[]| |]; cbn [sel p_val p_slice p_msg]; rewrite !zlen_cons; lia.
Qed.
(** the input up to the message fields *)
Definition front (m : nat) : bytes := words (fields_of S m) (sel p_val (fields_of S m) 0) ++ words (fields_of S m) (sel p_slice (fields_of S m) 0).
Lemma front_ok m : (m < length S)%nat -> bytes_ok (front m) /\ clean (front m) /\
  zlen (front m) + 9 * zlen (sel p_msg (fields_of S m) 0) <= 9 * zlen (fields_of S m).
Proof.
  intros L. pose proof (compiles_msg S m HC L) as FC.
  destruct (words_ok _ (sel p_val (fields_of S m) 0) FC) as (B1 & C1 & L1 & N1).
  { intros i Hi. destruct (sel_field _ _ _ Hi) as (f & Ef & Pf). exists f. split; [exact Ef|]. destruct f as [[]| |]; try discriminate Pf; reflexivity. }
  destruct (words_ok _ (sel p_slice (fields_of S m) 0) FC) as (B2 & C2 & L2 & N2).
  { intros i Hi. destruct (sel_field _ _ _ Hi) as (f & Ef & Pf). exists f. split; [exact Ef|]. destruct f as [[]| |]; try discriminate Pf; reflexivity. }
  pose proof (sel_sum (fields_of S m) 0). unfold front. split; [apply bytes_ok_app; split; assumption|]. split; [|rewrite zlen_app; lia].
  destruct (words (fields_of S m) (sel p_val (fields_of S m) 0)); [exact C2|apply clean_app; [exact C1|discriminate]].
Qed.
Lemma front_crosses m fuel x r : (m < length S)%nat -> struct_type S x m -> okb W (front m ++ r) -> clean (front m ++ r) ->
  dec (Datatypes.S fuel) m x (front m ++ r) = GDeep \/
  exists y, Forall2 (has_type S) y (fields_of S m) /\ (forall j, In j (sel p_msg (fields_of S m) 0) -> nth_error y j = nth_error x j) /\
    dec (Datatypes.S fuel) m x (front m ++ r) = pass (dec_message false (prim1 W) S fuel (dec fuel)) (fields_of S m) (sel p_msg (fields_of S m) 0) y r.
Proof.
  intros L Hx Hok Hc. cbn [decode]. rewrite nil_no by exact Hc. rewrite (fields_nth S m L), (getFields_sel S) by (auto using compiles_msg).
  apply ht_msg in Hx. destruct Hx as [_ Hx]. pose proof (compiles_msg S m HC L) as FC.
  unfold front in *. rewrite <- app_assoc in *. remember (fields_of S m) as fs eqn:Efs.
  assert (FCs : forall i f, nth_error fs i = Some f -> field_compiles S f = true).
  { intros i f E. rewrite forallb_forall in FC. apply FC. eapply nth_error_In. exact E. }
  pose proof (fun step => pass_keep step fs) as KP.
  destruct (pass_crosses (dec_other false (prim1 W)) fs fword (sel p_val fs 0) x (words fs (sel p_slice fs 0) ++ r) Hx) as [E1|(x1 & E1 & H1)].
  { intros i Hi. destruct (sel_field _ _ _ Hi) as (f & Ef & Pf). exists f. split; [exact Ef|]. apply val_crosses; [exact Pf|eapply FCs; exact Ef]. }
  { exact Hok. }
  { unfold words in *. rewrite E1. left. reflexivity. }
  fold (words fs (sel p_val fs 0)) in E1. rewrite E1. cbn [gbind].
  destruct (pass_crosses (dec_slice false (prim1 W) S fuel (dec fuel)) fs fword (sel p_slice fs 0) x1 r H1) as [E2|(x2 & E2 & H2)].
  { intros i Hi. destruct (sel_field _ _ _ Hi) as (f & Ef & Pf). exists f. split; [exact Ef|]. apply slice_crosses; [exact Pf|eapply FCs; exact Ef]. }
  { eapply okb_tail. exact Hok. }
  { unfold words in *. rewrite E2. left. reflexivity. }
  fold (words fs (sel p_slice fs 0)) in E2. rewrite E2. cbn [gbind]. right. exists x2. split; [exact H2|]. split; [|reflexivity].
  assert (X : forall j p, In j (sel p_msg fs 0) -> (forall f, p f = true -> p_msg f = false) -> ~ In j (sel p fs 0)).
  { intros j p Hj Hp Hv. destruct (sel_field _ _ _ Hj) as (f & Ef & Pf). destruct (sel_field _ _ _ Hv) as (g & Eg & Pg). rewrite Ef in Eg. injection Eg as <-.
    rewrite (Hp f Pg) in Pf. discriminate Pf. }
  intros j Hj. rewrite (KP _ _ _ _ _ _ j E2), (KP _ _ _ _ _ _ j E1); [reflexivity| |].
  - apply X; [exact Hj|]. intros f. destruct f as [[]| |]; cbn; congruence.
  - apply X; [exact Hj|]. intros f. destruct f as [[]| |]; cbn; congruence.
Qed.
Lemma acc_word q : Acc (fun b a => creates S a b) q -> (q < length S)%nat -> exists w l, word q w l.
Proof.
  intros A. induction A as [q HA IH]. intros L. pose proof (compiles_msg S q HC L) as FC.
  destruct (front_ok q L) as (B1 & C1 & L1). set (is := sel p_msg (fields_of S q) 0) in *.
  assert (HF : forall i, In i is -> exists f, nth_error (fields_of S q) i = Some f /\ p_msg f = true) by (intros i Hi; exact (sel_field _ _ _ Hi)).
  destruct (front q) as [|c fr] eqn:EF.
  - destruct (group_word (fields_of S q) FC is HF) as (w & l & Bw & Cw & Nl & Hl & Hz & Hw).
    { intros i s Hi E. apply IH; [eapply nth_error_In; exact E|]. apply Nat.ltb_lt. exact (compiles_field S q i _ HC E). }
    exists w, (q :: l). split; [exact Bw|]. split; [exact Cw|]. split.
    { constructor; [|exact Nl]. intros Hq. destruct (Hl q Hq) as (_ & i & s & _ & E & R).
      assert (Hs : creates S q s) by (eapply nth_error_In; exact E). exact (acc_cycle q (Acc_intro q HA) s Hs R). }
    split. { intros t [<-|Ht]; [split; [exact L|apply reaches_refl]|]. destruct (Hl t Ht) as (Lt & i & s & _ & E & R).
             split; [exact Lt|]. eapply reaches_step; [|exact R]. eapply nth_error_In; exact E. }
    split. { cbn [weight fold_right]. fold (weight l). change (zlen (@nil Z)) with 0 in L1. lia. }
    intros fuel x r Hx Hok Hc. destruct fuel as [|fuel]; [left; reflexivity|].
    pose proof (front_crosses q fuel x (w ++ r) L Hx) as FX. rewrite EF in FX. cbn [app] in FX. destruct (FX Hok Hc) as [E|(y & Hy & _ & E)]; rewrite E; [left; reflexivity|].
    fold is. destruct (Hw fuel y r Hy Hok Hc) as [E'|(z & E' & Hz')]; rewrite E'; [left; reflexivity|].
      right. exists z. split; [reflexivity|]. apply ht_msg. auto.
  - exists ((c :: fr) ++ repeat 0 (length is)), [q]. split; [apply bytes_ok_app; split; [exact B1|apply zeros_ok]|].
    split; [apply clean_app; [exact C1|discriminate]|]. split; [constructor; [intros []|constructor]|].
    split; [intros t [<-|[]]; split; [exact L|apply reaches_refl]|].
    split. { rewrite zlen_app. unfold zlen at 2. rewrite repeat_length. fold (zlen is). cbn [weight fold_right]. pose proof (zlen_nonneg is). lia. }
    intros fuel x r Hx Hok Hc. destruct fuel as [|fuel]; [left; reflexivity|]. rewrite <- app_assoc in *. rewrite <- EF in *.
    destruct (front_crosses q fuel x (repeat 0 (length is) ++ r) L Hx Hok Hc) as [E|(y & Hy & _ & E)]; rewrite E; [left; reflexivity|].
    fold is. rewrite <- zeros_map.
    destruct (pass_crosses (dec_message false (prim1 W) S fuel (dec fuel)) (fields_of S q) (fun _ => [0]) is y r Hy) as [E'|(z & E' & Hz')].
    + intros i Hi. destruct (HF i Hi) as (f & Ef & Pf). exists f. split; [exact Ef|]. apply zero_crosses; [exact Pf|]. exact (compiles_field S q i f HC Ef).
    + rewrite zeros_map. eapply okb_tail. exact Hok.
    + rewrite E'. left. reflexivity.
    + rewrite E'. right. exists z. split; [reflexivity|]. apply ht_msg. auto.
Qed.

(** ** The theorem *)
Hypothesis HW : W = 64 \/ W = 32.
Hypothesis HN : zlen (concat S) < 2 ^ 26.
Lemma sel_split p fs i f : nth_error fs i = Some f -> p f = true ->
  sel p fs 0 = sel p (firstn i fs) 0 ++ i :: sel p (skipn (Datatypes.S i) fs) (Datatypes.S i).
Proof.
  intros E P. destruct (nth_error_split fs i E) as (a & b & -> & La). rewrite sel_app. cbn [sel Nat.add]. rewrite P, La.
  rewrite firstn_app, La, Nat.sub_diag, firstn_O, app_nil_r, <- La, firstn_all. f_equal. f_equal. f_equal.
  rewrite skipn_app. replace (Datatypes.S (length a) - length a)%nat with 1%nat by lia. rewrite skipn_all2 by lia. reflexivity.
Qed.
Theorem terminates1_conv m : (m < length S)%nat ->
  (forall x b, struct_type S x m -> bytes_ok b -> int_ok W b -> exists fuel, Decode1 W S fuel m (Some x) b <> Some GDeep) ->
  Acc (fun b a => creates S a b) m.
Proof.
  intros L HT. assert (G : forall i q, nth_error (fields_of S m) i = Some (One (Msg q)) -> Acc (fun b a => creates S a b) q).
  2: { constructor. intros q Hq. apply In_nth_error in Hq. destruct Hq as [i Hi]. exact (G i q Hi). }
  induction i as [i IH] using (well_founded_induction lt_wf). intros q Ei.
  pose proof (compiles_msg S m HC L) as FC. set (fs := fields_of S m) in *.
  assert (Lq : (q < length S)%nat) by (apply Nat.ltb_lt; exact (compiles_field S m i _ HC Ei)).
  set (is := sel p_msg (firstn i fs) 0).
  assert (Hlt : forall j, In j is -> (j < i)%nat /\ exists f, nth_error fs j = Some f /\ p_msg f = true).
  { intros j Hj. destruct (sel_field _ _ _ Hj) as (f & Ef & Pf). assert (Lj : (j < length (firstn i fs))%nat) by (apply nth_error_Some; congruence).
    rewrite firstn_length in Lj. split; [lia|]. exists f. split; [|exact Pf]. rewrite <- Ef. symmetry. apply nth_firstn. lia. }
  assert (Zis : zlen is <= zlen fs).
  { pose proof (sel_sum fs 0) as Hs. rewrite (sel_split p_msg fs i _ Ei eq_refl), zlen_app in Hs. fold is in Hs.
    pose proof (zlen_nonneg (sel p_val fs 0)). pose proof (zlen_nonneg (sel p_slice fs 0)). rewrite zlen_cons in Hs.
    pose proof (zlen_nonneg (sel p_msg (skipn (Datatypes.S i) fs) (Datatypes.S i))). lia. }
  destruct (group_word fs FC is) as (w & l & Bw & Cw & Nl & Hl & Hz & Hw).
  { intros j Hj. apply (Hlt j Hj). }
  { intros j s Hj E. destruct (Hlt j Hj) as [Lj _]. apply acc_word; [exact (IH j Lj s E)|]. apply Nat.ltb_lt. exact (compiles_field S m j _ HC E). }
  pose proof (weight_bound l Nl (fun t Ht => proj1 (Hl t Ht))) as WB.
  destruct (front_ok m L) as (B1 & C1 & L1). fold fs in L1.
  assert (Zfs : zlen fs <= zlen (concat S)).
  { pose proof (weight_bound [m]) as B. cbn [weight fold_right] in B. fold fs in B. rewrite Z.add_0_r in B. apply B; [constructor; [intros []|constructor]|].
    intros t [<-|[]]. exact L. }
  pose proof (zlen_nonneg (sel p_msg fs 0)) as Z0.
  (* the input behind the front *)
  assert (HM : exists u, bytes_ok u /\ clean (front m ++ u ++ [1]) /\ zlen u <= 9 * zlen (concat S) + 9 * zlen fs /\
     forall fuel y, Forall2 (has_type S) y fs -> okb W (u ++ [1]) ->
       over (fun z => Forall2 (has_type S) z fs) [1] (pass (dec_message false (prim1 W) S fuel (dec fuel)) fs is y (u ++ [1]))).
  { destruct (front m) as [|c fr] eqn:EF.
    - exists w. assert (Hc : clean (w ++ [1])).
      { destruct w; [intros t; discriminate|apply clean_app; [exact Cw|discriminate]]. }
      split; [exact Bw|]. split; [exact Hc|]. split; [lia|]. intros fuel y Hy Hok. apply Hw; assumption.
    - exists (repeat 0 (length is)). split; [apply zeros_ok|]. split; [apply clean_app; [exact C1|discriminate]|].
      split. { unfold zlen at 1. rewrite repeat_length. fold (zlen is). pose proof (zlen_nonneg (concat S)). pose proof (zlen_nonneg is). lia. }
      intros fuel y Hy Hok. rewrite <- zeros_map in *. apply (pass_crosses _ fs (fun _ => [0])); [exact Hy| |exact Hok].
      intros j Hj. destruct (Hlt j Hj) as (_ & f & Ef & Pf). exists f. split; [exact Ef|]. apply zero_crosses; [exact Pf|]. exact (compiles_field S m j f HC Ef). }
  destruct HM as (u & Bu & Cu & Zu & Hu).
  assert (Hok : okb W (front m ++ u ++ [1])).
  { split. { apply bytes_ok_app; split; [exact B1|]. apply bytes_ok_app; split; [exact Bu|]. apply Forall_cons; [unfold isbyte; lia|apply Forall_nil]. }
    split; [exact HW|].
    rewrite !zlen_app. change (zlen [1]) with 1. assert (2 ^ 31 <= 2 ^ (W - 1)) by (apply Z.pow_le_mono_r; [lia|destruct HW; lia]). lia. }
  destruct (HT (zero_struct S m) (front m ++ u ++ [1]) (zero_struct_type S m HC L) (proj1 Hok) (proj2 Hok)) as (fuel & N).
  unfold Decode1 in N. cbn [option_map] in N. change (V1Model.decode W) with (prim1 W) in N.
  assert (N' : dec fuel m (zero_struct S m) (front m ++ u ++ [1]) <> GDeep) by congruence. clear N.
  destruct fuel as [|fuel]; [exfalso; apply N'; reflexivity|].
  destruct (front_crosses m fuel (zero_struct S m) (u ++ [1]) L (zero_struct_type S m HC L) Hok Cu) as [E|(y & Hy & Ky & E)]; [contradiction|].
  rewrite E in N'. clear E. fold fs in N', Hy, Ky. rewrite (sel_split p_msg fs i _ Ei eq_refl) in N'. fold is in N'. rewrite pass_app in N'.
  destruct (Hu fuel y Hy (okb_tail _ _ Hok)) as [E|(z & E & Hz')]; rewrite E in N'; cbn [gbind] in N'; [congruence|].
  cbn [pass] in N'. rewrite Ei in N'.
  assert (Ez : nth_error z i = Some (GMsg None)).
  { rewrite (pass_keep _ _ _ _ _ _ _ i E) by (intros C; destruct (Hlt i C); lia).
    rewrite Ky by (rewrite (sel_split p_msg fs i _ Ei eq_refl); apply in_app_iff; right; left; reflexivity).
    unfold zero_struct. fold fs. rewrite nth_error_map, Ei. reflexivity. }
  rewrite Ez in N'. cbn [dec_message or_new] in N'.
  apply (new_terminates S q HC Lq). destruct (New_v1_deep S HC fuel q Lq) as [D|(q0 & s & D)]; [rewrite D in N'; cbn [gbind] in N'; congruence|].
  exists fuel, q0, s. exact D.
Qed.
End One.
Theorem terminates1_iff W S : compiles S = true -> W = 64 \/ W = 32 -> zlen (concat S) < 2 ^ 26 ->
  (forall m, (m < length S)%nat -> Acc (fun b a => creates S a b) m) <->
  (forall m x b, (m < length S)%nat -> struct_type S x m -> bytes_ok b -> int_ok W b ->
     exists fuel, Decode1 W S fuel m (Some x) b <> Some GDeep).
Proof.
  intros HC HW HN. split.
  - intros H. destruct (terminates1 W S HC H) as (R & K & HR). intros m x b L Hx Hb Hi.
    exists ((length b + 1) * R + K)%nat. destruct (HR m x b _ L Hx Hb Hi (Nat.le_refl _)) as (y & E & Hy). rewrite E.
    intros C. injection C as ->. exact Hy.
  - intros H m L. apply (terminates1_conv W S HC HW HN m L). intros x b Hx Hb Hi. exact (H m x b L Hx Hb Hi).
Qed.
