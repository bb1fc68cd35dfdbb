(** Changes of schema. *)
From Coq Require Import String.
From Verif Require Import Base Spec SpecProofs GoSpec GoThms2 BufSpec GenTables GenModel GenSpec GenLemmas GenFields GenDec GenThms GenThms2 GenThms3 GenTerm4 GenThms4 EvolveSpec.
From Verif Require V1Model V2Model.

Lemma F2_nth {A B} (R : A -> B -> Prop) l l' : Forall2 R l l' -> forall i a b, nth_error l i = Some a -> nth_error l' i = Some b -> R a b.
Proof. induction 1 as [|x y l l' H1 H2 IH]; intros [|i] a b E1 E2; try discriminate E1; [injection E1 as <-; injection E2 as <-; exact H1|eapply IH; eassumption]. Qed.
Section Compat.
Variables (S S' : schema) (corr : nat -> nat -> Prop).
Hypothesis HK : compatible S S' corr.

Lemma like_holds k k' v : announced (Scalar k) = announced (Scalar k') -> holds k v -> holds k' v.
Proof. intros E [V H]. split; [exact V|]. destruct k, k'; try discriminate E; destruct v; try contradiction H; exact I. Qed.
Lemma like_groups f f' : like corr f f' -> is_scalar f = is_scalar f' /\ is_repeated f = is_repeated f' /\ is_message f = is_message f' /\ plain_field f = plain_field f'.
Proof. destruct f as [[]|[]|? []], f' as [[]|[]|? []]; intros H; cbn in *; try contradiction; auto; try (destruct H; contradiction). Qed.
Lemma group_like p : forall xs fs fs', Forall (fun x => forall f f', like corr f f' -> layout S x f = layout S' x f') xs ->
  Forall2 (like corr) fs fs' -> (forall f f', like corr f f' -> p f = p f') ->
  group p (zw (fun x f => (f, layout S x f)) xs fs) = group p (zw (fun x f => (f, layout S' x f)) xs fs').
Proof.
  induction xs as [|x xs IH]; intros fs fs' HX HF Hp; [reflexivity|]. inversion HX as [|? ? H1 H2]; subst. inversion HF as [|f f' l l' H3 H4]; subst; [reflexivity|].
  unfold group in *. cbn [zw filter fst]. rewrite <- (Hp _ _ H3). specialize (IH l l' H2 H4 Hp). destruct (p f); cbn [map concat snd]; [|exact IH].
  rewrite IH, (H1 _ _ H3). reflexivity.
Qed.
Lemma flat_map_ext_Forall {A} (g h : A -> bytes) l : Forall (fun a => g a = h a) l -> flat_map g l = flat_map h l.
Proof. induction 1 as [|a l E _ IH]; [reflexivity|]. cbn [flat_map]. rewrite E, IH. reflexivity. Qed.
Lemma like_announced t t' : like_type corr t t' -> announced t = announced t'.
Proof. destruct t, t'; cbn; auto; contradiction. Qed.
Lemma like_layout : forall x f f', like corr f f' -> layout S x f = layout S' x f'.
Proof.
  induction x using gval_ind'; intros f f' HL; destruct f as [[k|m]|t|k t], f' as [[k'|m']|t'|k' t']; try contradiction HL; try reflexivity.
  - change (announced t) with (announced t). cbn [layout]. rewrite (like_announced _ _ HL). f_equal. apply flat_map_ext_Forall.
    apply Forall_forall. intros x Hx. rewrite Forall_forall in H. apply (H x Hx). exact HL.
  - destruct HL as [H1 H2]. cbn [layout]. rewrite (like_announced _ _ H1), (like_announced _ _ H2). reflexivity.
  - destruct HL as [H1 H2]. cbn [layout]. rewrite (like_announced _ _ H1), (like_announced _ _ H2). f_equal. apply flat_map_ext_Forall.
    apply Forall_forall. intros e He. rewrite Forall_forall in H. f_equal. apply (H e He). exact H2.
  - rewrite !layout_msg. cbv zeta. destruct (HK _ _ HL) as (_ & _ & HF).
    rewrite !(group_like _ xs _ _ H HF) by (intros ? ? G; apply like_groups in G; apply G). reflexivity.
Qed.
Lemma like_type_ok : forall x f f', like corr f f' -> has_type S x f -> has_type S' x f'.
Proof.
  induction x using gval_ind'; intros f f' HL; destruct f as [[k|m]|t|k t], f' as [[k'|m']|t'|k' t']; try contradiction HL; try (intros C; contradiction C).
  - apply like_holds. exact HL.
  - rewrite !ht_many. intros [A B]. split; [exact A|]. rewrite Forall_forall in *. intros x Hx. apply (H x Hx (One t)); [exact HL|apply B; exact Hx].
  - intros _. exact I.
  - rewrite !ht_map. destruct HL as [H1 H2]. intros (A & B & C). split; [exact A|]. split; [exact B|]. rewrite Forall_forall in *. intros e He.
    specialize (C e He). destruct C as [C1 C2]. split; [eapply like_holds; eassumption|]. apply (H e He (One t)); [exact H2|exact C2].
  - intros _. apply (HK _ _ HL).
  - rewrite !ht_msg. destruct (HK _ _ HL) as (_ & L & HF). intros [_ A]. split; [exact L|]. clear HL L.
    revert H HF. generalize (fields_of S' m'). induction A as [|x f xs fs Hx A IH]; intros fs' H HF; inversion HF as [|? f' ? l' E1 E2]; subst; [constructor|].
    inversion H as [|? ? H1 H2]; subst. constructor; [eapply H1; eassumption|apply IH; assumption].
Qed.
Lemma first_like : forall xs fs fs', Forall2 (like corr) fs fs' -> first_message xs fs = first_message xs fs'.
Proof.
  induction xs as [|x xs IH]; intros fs fs' HF; [reflexivity|]. inversion HF as [|f f' l l' H1 H2]; subst; [reflexivity|]. cbn [first_message].
  destruct (like_groups _ _ H1) as (_ & _ & _ & ->). rewrite (IH _ _ H2). reflexivity.
Qed.
Lemma plain_like fs fs' : Forall2 (like corr) fs fs' -> existsb plain_field fs = existsb plain_field fs'.
Proof. induction 1 as [|f f' l l' H1 H2 IH]; [reflexivity|]. cbn [existsb]. destruct (like_groups _ _ H1) as (_ & _ & _ & ->). rewrite IH. reflexivity. Qed.
Lemma like_readable : forall x f f', like corr f f' -> has_type S x f -> readable S x f -> readable S' x f'.
Proof.
  induction x using gval_ind'; intros f f' HL; destruct f as [[k|m]|t|k t], f' as [[k'|m']|t'|k' t']; try contradiction HL; try (intros; exact I).
  - unfold readable. rewrite !ev_many, ht_many. intros [_ A] B. rewrite Forall_forall in *. intros x Hx. apply (H x Hx (One t)); [exact HL|apply A, Hx|apply B, Hx].
  - destruct HL as [H1 H2]. unfold readable. rewrite !ev_map, ht_map. intros (_ & _ & A) B. rewrite Forall_forall in *. intros e He.
    apply (H e He (One t)); [exact H2|apply A, He|apply B, He].
  - destruct (HK _ _ HL) as (_ & _ & HF). unfold readable. rewrite ht_msg. intros [_ A]. pose proof (Forall2_length _ _ _ A) as L1. pose proof (Forall2_length _ _ _ HF) as L2.
    rewrite !ev_msg by lia. intros [AN B]. split.
    + unfold anchored in *. rewrite <- (first_like _ _ _ HF), <- (plain_like _ _ HF). exact AN.
    + clear HL AN. revert H HF A B. clear L1 L2. generalize (fields_of S m) (fields_of S' m'). intros fs fs' H HF A. revert fs' H HF.
      induction A as [|x f xs fs Hx A IH]; intros fs' H HF B; inversion HF as [|? f' ? l' E1 E2]; subst; [constructor|].
      inversion H as [|? ? H1 H2]; subst. inversion B as [|? ? ? ? B1 B2]; subst. constructor; [eapply H1; eassumption|apply IH; assumption].
Qed.
Lemma like_fields : forall xs fs fs', Forall2 (like corr) fs fs' -> Forall2 (has_type S) xs fs -> Forall2 (has_type S') xs fs'.
Proof.
  induction xs as [|x xs IH]; intros fs fs' HF HT; inversion HT; subst; inversion HF; subst; constructor; [eapply like_type_ok; eassumption|eapply IH; eassumption].
Qed.
Lemma like_reads : forall xs fs fs', Forall2 (like corr) fs fs' -> Forall2 (has_type S) xs fs -> Forall2 (readable S) xs fs -> Forall2 (readable S') xs fs'.
Proof.
  induction xs as [|x xs IH]; intros fs fs' HF HT HR; inversion HT; subst; inversion HF; subst; inversion HR; subst; constructor; [eapply like_readable; eassumption|eapply IH; eassumption].
Qed.
End Compat.

(** ** Appended fields *)
Lemma zw_app {A B C} (g : A -> B -> C) : forall xs fs ys gs, length xs = length fs -> zw g (xs ++ ys) (fs ++ gs) = zw g xs fs ++ zw g ys gs.
Proof. induction xs as [|x xs IH]; intros [|f fs] ys gs L; try discriminate L; [reflexivity|]. cbn. f_equal. apply IH. injection L; auto. Qed.
Lemma group_app p a b : group p (a ++ b) = group p a ++ group p b.
Proof. unfold group. rewrite filter_app, map_app, concat_app. reflexivity. Qed.
Lemma group_none S p : forall xs fs, (forall f, In f fs -> p f = false) -> group p (zw (fun x f => (f, layout S x f)) xs fs) = [].
Proof.
  induction xs as [|x xs IH]; intros [|f fs] H; try reflexivity. unfold group in *. cbn [zw filter fst]. rewrite (H f (or_introl eq_refl)). apply IH. intros g Hg. apply H. right. exact Hg.
Qed.
Lemma some_or_none (p : field -> bool) fs : (exists f, In f fs /\ p f = true) \/ (forall f, In f fs -> p f = false).
Proof.
  induction fs as [|f fs [(g & Hg & E)|IH]].
  - right. intros f [].
  - left. exists g. split; [right; exact Hg|exact E].
  - destruct (p f) eqn:E; [left; exists f; split; [left; reflexivity|exact E]|]. right. intros g [<-|Hg]; auto.
Qed.
Lemma rank_scalar f : is_scalar f = true <-> rank f = 0%nat.
Proof. destruct f as [[]| |]; cbn; split; intros H; try discriminate H; reflexivity. Qed.
Lemma rank_repeated f : is_repeated f = true <-> rank f = 1%nat.
Proof. destruct f as [[]| |]; cbn; split; intros H; try discriminate H; reflexivity. Qed.
Lemma rank_message f : is_message f = true <-> rank f = 2%nat.
Proof. destruct f as [[]| |]; cbn; split; intros H; try discriminate H; reflexivity. Qed.
Lemma appended_layout S xs ys fs ext (lay := fun xs fs => let l := zw (fun x f => (f, layout S x f)) xs fs in group is_scalar l ++ group is_repeated l ++ group is_message l) :
  length xs = length fs -> in_order fs ext -> lay (xs ++ ys) (fs ++ ext) = lay xs fs ++ lay ys ext.
Proof.
  intros L O. unfold lay. cbv zeta. rewrite (zw_app _ xs fs ys ext L), !group_app.
  assert (D : forall p q n k, (forall f, p f = true <-> rank f = n) -> (forall f, q f = true <-> rank f = k) -> (n < k)%nat ->
    group p (zw (fun x f => (f, layout S x f)) ys ext) = [] \/ group q (zw (fun x f => (f, layout S x f)) xs fs) = []).
  { intros p q n k Hp Hq Lt. destruct (some_or_none p ext) as [(e & He & Pe)|N]; [|left; apply group_none; exact N].
    destruct (some_or_none q fs) as [(f & Hf & Qf)|N]; [|right; apply group_none; exact N].
    pose proof (O f e Hf He) as R. apply Hp in Pe. apply Hq in Qf. lia. }
  destruct (D _ _ _ _ rank_scalar rank_repeated ltac:(lia)) as [E1|E1], (D _ _ _ _ rank_scalar rank_message ltac:(lia)) as [E2|E2], (D _ _ _ _ rank_repeated rank_message ltac:(lia)) as [E3|E3];
    rewrite ?E1, ?E2, ?E3; cbn [app]; rewrite ?app_nil_r, <- ?app_assoc; cbn [app]; reflexivity.
Qed.
Lemma grown_layout S S' corr m m' ext xs ys : grown S S' corr m m' ext -> in_order (fields_of S m) ext -> length xs = length (fields_of S m) ->
  exists p, layout S' (GMsg (Some (xs ++ ys))) (One (Msg m')) = layout S (GMsg (Some xs)) (One (Msg m)) ++ p /\
    p = let l := zw (fun x f => (f, layout S' x f)) ys ext in group is_scalar l ++ group is_repeated l ++ group is_message l.
Proof.
  intros (HK & L & L' & fs & Ef & HF) O Lx. eexists. split; [|reflexivity]. rewrite !layout_msg, Ef. pose proof (Forall2_length _ _ _ HF) as Lf.
  pose proof (appended_layout S' xs ys fs ext ltac:(lia)) as A. cbv zeta in *. rewrite A.
  - f_equal. rewrite !(fun p H1 H2 => group_like S S' corr p xs _ _ H1 HF H2); try reflexivity; try (intros ? ? G; apply like_groups in G; apply G);
      (apply Forall_forall; intros; apply like_layout with (corr := corr); assumption).
  - intros f e Hf He. apply In_nth_error in Hf. destruct Hf as [i Hi]. destruct (nth_error (fields_of S m) i) as [g|] eqn:Eg.
    + replace (rank f) with (rank g); [apply O; [eapply nth_error_In; exact Eg|exact He]|].
      pose proof (F2_nth _ _ _ HF _ _ _ Eg Hi) as G. destruct g as [[]| |], f as [[]| |]; try contradiction G; reflexivity.
    + apply nth_error_None in Eg. assert (i < length fs)%nat by (apply nth_error_Some; congruence). lia.
Qed.
Lemma like_sym corr f f' : like corr f f' -> like (fun b a => corr a b) f' f.
Proof.
  destruct f as [[k|m]|[k|m]|kk [k|m]], f' as [[k'|m']|[k'|m']|kk' [k'|m']]; cbn; intros H; auto; try (symmetry; exact H);
    try (destruct H; contradiction); destruct H as [H1 H2]; split; auto.
Qed.
Lemma compatible_sym S S' corr : compatible S S' corr -> compatible S' S (fun b a => corr a b).
Proof.
  intros H b a Hc. destruct (H _ _ Hc) as (L1 & L2 & HF). split; [exact L2|]. split; [exact L1|].
  clear - HF. induction HF; constructor; auto using like_sym.
Qed.
Lemma same_bytes S S' corr a b xs : compatible S S' corr -> corr a b -> struct_type S xs a ->
  struct_type S' xs b /\ layout S' (GMsg (Some xs)) (One (Msg b)) = layout S (GMsg (Some xs)) (One (Msg a)) /\
  (readable S (GMsg (Some xs)) (One (Msg a)) -> readable S' (GMsg (Some xs)) (One (Msg b))).
Proof.
  intros HK Hc HT. assert (HL : like corr (One (Msg a)) (One (Msg b))) by exact Hc. split; [eapply like_type_ok; eassumption|].
  split; [symmetry; eapply like_layout; eassumption|]. intros HR. eapply like_readable; eassumption.
Qed.
Lemma grown_type S S' corr m m' ext xs ys : grown S S' corr m m' ext -> struct_type S' (xs ++ ys) m' -> length xs = length (fields_of S m) ->
  struct_type S xs m.
Proof.
  intros (HK & L & L' & fs & Ef & HF) HT Lx. apply ht_msg in HT. destruct HT as [_ HT]. rewrite Ef in HT. pose proof (Forall2_length _ _ _ HF) as Lf.
  apply ht_msg. split; [exact L|]. apply (like_fields S' S (fun b a => corr a b) (compatible_sym _ _ _ HK) xs fs).
  - clear - HF. induction HF; constructor; auto using like_sym.
  - assert (G : forall (xs ys : list gval) (fs ext : list field), length xs = length fs -> Forall2 (has_type S') (xs ++ ys) (fs ++ ext) -> Forall2 (has_type S') xs fs).
    { clear. induction xs as [|x xs IH]; intros ys [|f fs] ext L H; try discriminate L; [constructor|]. inversion H; subst. constructor; [assumption|]. eapply IH; [injection L; auto|eassumption]. }
    eapply G; [|exact HT]. lia.
Qed.
(** the old reader and new data *)
Lemma old_reader2 W S S' corr m m' ext xs ys old fuel : compiles S = true -> compiles S' = true ->
  grown S S' corr m m' ext -> in_order (fields_of S m) ext -> length xs = length (fields_of S m) ->
  struct_type S' (xs ++ ys) m' -> readable S (GMsg (Some xs)) (One (Msg m)) -> struct_type S old m ->
  (depth (GMsg (Some xs)) <= fuel)%nat ->
  exists p y, layout S' (GMsg (Some (xs ++ ys))) (One (Msg m')) = layout S (GMsg (Some xs)) (One (Msg m)) ++ p /\
    GMsg (Some y) = overlay true S (zero_struct S) false (GMsg (Some xs)) (One (Msg m)) (GMsg (Some old)) /\
    forall r, bytes_ok r -> int_ok W (layout S' (GMsg (Some (xs ++ ys))) (One (Msg m')) ++ r) ->
      Decode2 W S fuel m (Some old) (layout S' (GMsg (Some (xs ++ ys))) (One (Msg m')) ++ r) = Some (GDone (p ++ r) y).
Proof.
  intros HC HC' HG O Lx HT HR HO HF. destruct (grown_layout _ _ _ _ _ _ xs ys HG O Lx) as (p & Ep & _).
  pose proof (grown_type _ _ _ _ _ _ _ _ HG HT Lx) as HTx. pose proof (layout_ok S' m' _ HC' HT) as Hb. rewrite Ep in Hb. apply bytes_ok_app in Hb. destruct Hb as [_ Hb].
  assert (Hov : exists y, GMsg (Some y) = overlay true S (zero_struct S) false (GMsg (Some xs)) (One (Msg m)) (GMsg (Some old))) by (eexists; cbn [overlay]; reflexivity).
  destruct Hov as [y Hy]. exists p, y. split; [exact Ep|]. split; [exact Hy|]. intros r Hr Hi. rewrite Ep, <- app_assoc in *.
  destruct (decode2_exact W S m xs old (p ++ r) fuel HC HTx HR HO) as (y' & E & Hy'); auto; [apply bytes_ok_app; auto|].
  rewrite <- Hy in Hy'. injection Hy' as ->. exact E.
Qed.
Lemma old_reader1 W S S' K corr m m' ext xs ys old fuel : compiles S = true -> compiles S' = true -> new_ok S K ->
  grown S S' corr m m' ext -> in_order (fields_of S m) ext -> length xs = length (fields_of S m) ->
  struct_type S' (xs ++ ys) m' -> readable S (GMsg (Some xs)) (One (Msg m)) -> struct_type S old m ->
  (depth (GMsg (Some xs)) + K <= fuel)%nat ->
  exists p y, layout S' (GMsg (Some (xs ++ ys))) (One (Msg m')) = layout S (GMsg (Some xs)) (One (Msg m)) ++ p /\
    GMsg (Some y) = overlay false S (blank1 S K) false (GMsg (Some xs)) (One (Msg m)) (GMsg (Some old)) /\
    forall r, bytes_ok r -> int_ok W (layout S' (GMsg (Some (xs ++ ys))) (One (Msg m')) ++ r) ->
      Decode1 W S fuel m (Some old) (layout S' (GMsg (Some (xs ++ ys))) (One (Msg m')) ++ r) = Some (GDone (p ++ r) y).
Proof.
  intros HC HC' HN HG O Lx HT HR HO HF. destruct (grown_layout _ _ _ _ _ _ xs ys HG O Lx) as (p & Ep & _).
  pose proof (grown_type _ _ _ _ _ _ _ _ HG HT Lx) as HTx. pose proof (layout_ok S' m' _ HC' HT) as Hb. rewrite Ep in Hb. apply bytes_ok_app in Hb. destruct Hb as [_ Hb].
  assert (Hov : exists y, GMsg (Some y) = overlay false S (blank1 S K) false (GMsg (Some xs)) (One (Msg m)) (GMsg (Some old))) by (eexists; cbn [overlay]; reflexivity).
  destruct Hov as [y Hy]. exists p, y. split; [exact Ep|]. split; [exact Hy|]. intros r Hr Hi. rewrite Ep, <- app_assoc in *.
  destruct (decode1_exact W S K m xs old (p ++ r) fuel HC HN HTx HR HO) as (y' & E & Hy'); auto; [apply bytes_ok_app; auto|].
  rewrite <- Hy in Hy'. injection Hy' as ->. exact E.
Qed.
(** the new reader and old data *)
Lemma grown_zero S S' corr m m' ext xs : compiles S' = true -> grown S S' corr m m' ext -> struct_type S xs m ->
  readable S (GMsg (Some xs)) (One (Msg m)) ->
  struct_type S' (xs ++ map zero ext) m' /\ readable S' (GMsg (Some (xs ++ map zero ext))) (One (Msg m')).
Proof.
  intros HC' (HK & L & L' & fs & Ef & HF) HT HR. apply ht_msg in HT. destruct HT as [_ HT]. pose proof (Forall2_length _ _ _ HF) as Lf. pose proof (Forall2_length _ _ _ HT) as Lx.
  pose proof (like_fields S S' corr HK xs _ _ HF HT) as HT'.
  assert (HZ : Forall2 (has_type S') (map zero ext) ext).
  { assert (FC : forall f, In f ext -> field_compiles S' f = true).
    { intros f Hf. destruct (In_nth_error (fields_of S' m') f) as [i Hi]; [rewrite Ef; apply in_or_app; right; exact Hf|]. eapply compiles_field; eassumption. }
    clear - FC. induction ext as [|f ext IH]; constructor; [apply zero_type, FC; left; reflexivity|]. apply IH. intros g Hg. apply FC. right. exact Hg. }
  assert (HTa : struct_type S' (xs ++ map zero ext) m') by (apply ht_msg; split; [exact L'|rewrite Ef; apply Forall2_app; assumption]).
  split; [exact HTa|]. unfold readable in *. rewrite ev_msg in HR by exact Lx. destruct HR as [AN HR].
  rewrite ev_msg by (rewrite Ef, !app_length, map_length; lia). split.
  - unfold anchored in *. rewrite Ef. rewrite existsb_app. rewrite (plain_like corr _ _ HF), (first_like corr xs _ _ HF) in AN.
    assert (FA : forall xs fs y ys ext, length xs = length fs -> first_message xs fs = Some y -> first_message (xs ++ ys) (fs ++ ext) = Some y).
    { clear. induction xs as [|x xs IH]; intros [|f fs] y ys ext L H; try discriminate. cbn in *. destruct (plain_field f); [apply IH; auto|exact H]. }
    destruct AN as [->|[(y & E)|(y & E)]]; [left; reflexivity|right; left|right; right]; exists y; apply FA; auto; lia.
  - rewrite Ef. apply Forall2_app; [eapply like_reads; eassumption|]. clear. induction ext as [|f ext IH]; constructor; [|exact IH].
    destruct f as [[k|k]|t|k t]; exact I.
Qed.
Lemma zero_wire S f : (match f with One (Scalar k) => exists p, scalar_type k = Some p | _ => True end) -> layout S (zero f) f <> [].
Proof.
  destruct f as [[k|k]|t|k t]; cbn [zero layout]; try discriminate. intros [p E]. rewrite E. destruct p; discriminate.
Qed.
Lemma zeros_wire S ext (l := zw (fun x f => (f, layout S x f)) (map zero ext) ext) : forallb (field_compiles S) ext = true -> ext <> [] ->
  group is_scalar l ++ group is_repeated l ++ group is_message l <> [].
Proof.
  intros FC N E. apply app_eq_nil in E. destruct E as [E1 E]. apply app_eq_nil in E. destruct E as [E2 E3].
  destruct ext as [|f ext]; [contradiction|]. unfold l, group in *. cbn [map zw filter fst] in *. cbn [forallb] in FC. apply andb_prop in FC. destruct FC as [FC _].
  assert (Z : layout S (zero f) f <> []).
  { apply zero_wire. destruct f as [[k|k]|t|k t]; auto. cbn [field_compiles] in FC. destruct (call_facts _ _ _ FC) as (p & en & dn & tk & T & _). eauto. }
  destruct f as [[k|k]|t|k t]; cbn [is_scalar is_repeated is_message map concat snd] in *;
    repeat match goal with H : _ ++ _ = [] |- _ => apply app_eq_nil in H; destruct H end; contradiction.
Qed.
Lemma ext_compiles S m fs ext : compiles S = true -> fields_of S m = fs ++ ext -> forallb (field_compiles S) ext = true.
Proof.
  intros HC E. apply forallb_forall. intros f Hf. destruct (In_nth_error (fields_of S m) f) as [i Hi]; [rewrite E; apply in_or_app; right; exact Hf|]. eapply compiles_field; eassumption.
Qed.
Lemma old_data S S' corr m m' ext xs : compiles S' = true -> grown S S' corr m m' ext -> in_order (fields_of S m) ext -> ext <> [] ->
  struct_type S xs m -> exists q, q <> [] /\
  layout S' (GMsg (Some (xs ++ map zero ext))) (One (Msg m')) = layout S (GMsg (Some xs)) (One (Msg m)) ++ q.
Proof.
  intros HC' HG O N HT. assert (Lx : length xs = length (fields_of S m)) by (apply ht_msg in HT; eapply Forall2_length; apply HT).
  destruct (grown_layout _ _ _ _ _ _ xs (map zero ext) HG O Lx) as (p & Ep & Hp). exists p. split; [|exact Ep]. rewrite Hp.
  destruct HG as (_ & _ & _ & fs & Ef & _). apply zeros_wire; [eapply ext_compiles; eassumption|exact N].
Qed.
Lemma new_reader2 W S S' corr m m' ext xs old fuel : compiles S' = true -> (forall k, ~ vacuous false S' k) ->
  grown S S' corr m m' ext -> in_order (fields_of S m) ext -> ext <> [] ->
  struct_type S xs m -> readable S (GMsg (Some xs)) (One (Msg m)) -> struct_type S' old m' ->
  int_ok W (layout S' (GMsg (Some (xs ++ map zero ext))) (One (Msg m'))) ->
  forall r y, Decode2 W S' fuel m' (Some old) (layout S (GMsg (Some xs)) (One (Msg m))) <> Some (GDone r y).
Proof.
  intros HC' HV HG O N HT HR HO Hi. destruct (grown_zero _ _ _ _ _ _ _ HC' HG HT HR) as [HT' HR'].
  destruct (old_data _ _ _ _ _ _ _ HC' HG O N HT) as (q & Hq & E). rewrite E in Hi. eapply truncated2; eassumption.
Qed.
Lemma new_reader1 W S S' K corr m m' ext xs old fuel : compiles S' = true -> new_ok S' K -> (forall k, ~ vacuous false S' k) ->
  grown S S' corr m m' ext -> in_order (fields_of S m) ext -> ext <> [] ->
  struct_type S xs m -> readable S (GMsg (Some xs)) (One (Msg m)) -> struct_type S' old m' ->
  int_ok W (layout S' (GMsg (Some (xs ++ map zero ext))) (One (Msg m'))) ->
  forall r y, Decode1 W S' fuel m' (Some old) (layout S (GMsg (Some xs)) (One (Msg m))) <> Some (GDone r y).
Proof.
  intros HC' HN HV HG O N HT HR HO Hi. destruct (grown_zero _ _ _ _ _ _ _ HC' HG HT HR) as [HT' HR'].
  destruct (old_data _ _ _ _ _ _ _ HC' HG O N HT) as (q & Hq & E). rewrite E in Hi. eapply truncated1; eassumption.
Qed.
(** moving a field past one of another group *)
Lemma group_swap p (a b : field * bytes) l r : p (fst a) && p (fst b) = false -> group p (l ++ b :: a :: r) = group p (l ++ a :: b :: r).
Proof.
  intros H. rewrite !group_app. f_equal. unfold group. cbn [filter]. destruct (p (fst a)), (p (fst b)); try discriminate H; reflexivity.
Qed.
Lemma ranks_apart f g : rank f <> rank g -> is_scalar f && is_scalar g = false /\ is_repeated f && is_repeated g = false /\ is_message f && is_message g = false.
Proof. destruct f as [[]| |], g as [[]| |]; cbn; intros H; auto; contradiction. Qed.
Lemma moved S S' corr m m' pre f g post pre' f' g' post' xs x y ys : compatible S S' corr ->
  fields_of S m = pre ++ f :: g :: post -> fields_of S' m' = pre' ++ g' :: f' :: post' ->
  Forall2 (like corr) (pre ++ f :: g :: post) (pre' ++ f' :: g' :: post') -> length pre = length pre' ->
  rank f <> rank g -> length xs = length pre ->
  layout S' (GMsg (Some (xs ++ y :: x :: ys))) (One (Msg m')) = layout S (GMsg (Some (xs ++ x :: y :: ys))) (One (Msg m)).
Proof.
  intros HK E E' HF Lp R Lx. rewrite !layout_msg, E, E'. cbv zeta.
  assert (Rf : rank f' <> rank g').
  { assert (G : forall a b, like corr a b -> rank a = rank b) by (intros [[]| |] [[]| |] G; try contradiction G; reflexivity).
    assert (Hfg : like corr f f' /\ like corr g g').
    { split; eapply (F2_nth _ _ _ HF).
      - rewrite nth_error_app2, Nat.sub_diag by reflexivity. reflexivity.
      - rewrite Lp, nth_error_app2, Nat.sub_diag by reflexivity. reflexivity.
      - rewrite (nth_error_app2 pre) with (n := Datatypes.S (length pre)) by lia. rewrite Nat.sub_succ_l, Nat.sub_diag by lia. reflexivity.
      - rewrite Lp, (nth_error_app2 pre') by lia. rewrite Nat.sub_succ_l, Nat.sub_diag by lia. reflexivity. }
    destruct Hfg as [H1 H2]. rewrite <- (G _ _ H1), <- (G _ _ H2). exact R. }
  destruct (ranks_apart _ _ Rf) as (R1 & R2 & R3).
  rewrite !(zw_app _ xs pre') by lia. cbn [zw]. rewrite (group_swap is_scalar), (group_swap is_repeated), (group_swap is_message) by assumption.
  change ((f', layout S' x f') :: (g', layout S' y g') :: zw (fun x f => (f, layout S' x f)) ys post') with (zw (fun x f => (f, layout S' x f)) (x :: y :: ys) (f' :: g' :: post')).
  rewrite <- (zw_app _ xs pre') by lia.
  rewrite !(fun p H1 H2 => group_like S S' corr p (xs ++ x :: y :: ys) _ _ H1 HF H2); try reflexivity; try (intros ? ? G; apply like_groups in G; apply G);
      (apply Forall_forall; intros; apply like_layout with (corr := corr); assumption).
Qed.
