(** Induction principle and rewriting forms for the nested definitions of GenModel and GenSpec. *)
From Verif Require Import Base Spec GenTables GenModel GenSpec.

Section Ind.
Variable P : gval -> Prop.
Hypothesis Hprim : forall v, P (GPrim v).
Hypothesis Hlist : forall xs, Forall P xs -> P (GList xs).
Hypothesis Hmap0 : P (GMap None).
Hypothesis Hmap : forall l, Forall (fun e => P (snd e)) l -> P (GMap (Some l)).
Hypothesis Hmsg0 : P (GMsg None).
Hypothesis Hmsg : forall xs, Forall P xs -> P (GMsg (Some xs)).
Fixpoint gval_ind' (x : gval) : P x :=
  match x with
  | GPrim v => Hprim v
  | GList xs => Hlist xs ((fix each xs := match xs return Forall P xs with
                          | [] => Forall_nil _ | x :: xs => Forall_cons x (gval_ind' x) (each xs) end) xs)
  | GMap None => Hmap0
  | GMap (Some l) => Hmap l ((fix each l := match l return Forall (fun e => P (snd e)) l with
                          | [] => Forall_nil _
                          | e :: l => Forall_cons e (gval_ind' (snd e)) (each l) end) l)
  | GMsg None => Hmsg0
  | GMsg (Some xs) => Hmsg xs ((fix each xs := match xs return Forall P xs with
                          | [] => Forall_nil _ | x :: xs => Forall_cons x (gval_ind' x) (each xs) end) xs)
  end.
End Ind.

Fixpoint zw {A B C} (g : A -> B -> C) (xs : list A) (fs : list B) : list C :=
  match xs, fs with x :: xs, f :: fs => g x f :: zw g xs fs | _, _ => [] end.
Fixpoint zw3 {A B C D} (g : A -> B -> C -> D) (xs : list A) (fs : list B) (os : list C) : list D :=
  match xs, fs, os with x :: xs, f :: fs, o :: os => g x f o :: zw3 g xs fs os | _, _, _ => [] end.

Lemma nth_error_zw {A B C} (g : A -> B -> C) xs fs i :
  nth_error (zw g xs fs) i =
  match nth_error xs i, nth_error fs i with Some x, Some f => Some (g x f) | _, _ => None end.
Proof.
  revert fs i. induction xs as [|x xs IH]; intros [|f fs] [|i]; cbn; try reflexivity.
  - destruct (nth_error xs i); reflexivity.
  - apply IH.
Qed.
Lemma nth_error_zw3 {A B C D} (g : A -> B -> C -> D) xs fs os i :
  nth_error (zw3 g xs fs os) i =
  match nth_error xs i, nth_error fs i, nth_error os i with
  | Some x, Some f, Some o => Some (g x f o) | _, _, _ => None end.
Proof.
  revert fs os i. induction xs as [|x xs IH]; intros [|f fs] [|o os] [|i]; cbn; try reflexivity;
  try (destruct (nth_error xs i); reflexivity);
  try (destruct (nth_error xs i), (nth_error fs i); reflexivity).
  apply IH.
Qed.
Lemma zw_length {A B C} (g : A -> B -> C) xs fs : length xs = length fs -> length (zw g xs fs) = length fs.
Proof. revert fs. induction xs; intros [|f fs]; cbn; intros; try lia. f_equal. apply IHxs. lia. Qed.
Lemma zw3_length {A B C D} (g : A -> B -> C -> D) xs fs os :
  length xs = length fs -> length os = length fs -> length (zw3 g xs fs os) = length fs.
Proof.
  revert fs os. induction xs; intros [|f fs] [|o os]; cbn; intros; try lia. f_equal. apply IHxs; lia.
Qed.

Lemma nth_fields S m fs : nth_error S m = Some fs -> fields_of S m = fs.
Proof. intros H. apply nth_error_nth. exact H. Qed.
Lemma fields_nth S m : (m < length S)%nat -> nth_error S m = Some (fields_of S m).
Proof. intros H. apply nth_error_nth'. exact H. Qed.

Lemma ht_msg S xs m : has_type S (GMsg (Some xs)) (One (Msg m)) <->
  (m < length S)%nat /\ Forall2 (has_type S) xs (fields_of S m).
Proof.
  cbn [has_type]. apply and_iff_compat_l. generalize (fields_of S m) as fs. induction xs as [|x xs IH]; intros [|f fs].
  - split; constructor.
  - split; [intros []|intros H; inversion H].
  - split; [intros []|intros H; inversion H].
  - split.
    + intros [H1 H2]. constructor; [exact H1|apply IH; exact H2].
    + intros H. inversion H; subst. split; [assumption|apply IH; assumption].
Qed.
Lemma ht_many S xs t : has_type S (GList xs) (Many t) <->
  zlen xs < 2 ^ 32 /\ Forall (fun x => has_type S x (One t)) xs.
Proof.
  cbn [has_type]. apply and_iff_compat_l. induction xs as [|x xs IH].
  - split; constructor.
  - split.
    + intros [H1 H2]. constructor; [exact H1|apply IH; exact H2].
    + intros H. inversion H; subst. split; [assumption|apply IH; assumption].
Qed.
Lemma ht_map S l k t : has_type S (GMap (Some l)) (MapOf k t) <->
  zlen l < 2 ^ 32 /\ NoDup (map fst l) /\ Forall (fun e => holds k (fst e) /\ has_type S (snd e) (One t)) l.
Proof.
  cbn [has_type]. apply and_iff_compat_l, and_iff_compat_l. induction l as [|[kv x] l IH].
  - split; constructor.
  - split.
    + intros (H1 & H2 & H3). constructor; [split; assumption|apply IH; exact H3].
    + intros H. inversion H as [|? ? [Ha Hb] Hc]; subst. split; [assumption|]. split; [assumption|apply IH; assumption].
Qed.
Lemma st_msg S xs m : sent_type S (GMsg (Some xs)) (One (Msg m)) <->
  (m < length S)%nat /\ Forall2 (sent_type S) xs (fields_of S m).
Proof.
  cbn [sent_type]. apply and_iff_compat_l. generalize (fields_of S m) as fs. induction xs as [|x xs IH]; intros [|f fs].
  - split; constructor.
  - split; [intros []|intros H; inversion H].
  - split; [intros []|intros H; inversion H].
  - split.
    + intros [H1 H2]. constructor; [exact H1|apply IH; exact H2].
    + intros H. inversion H; subst. split; [assumption|apply IH; assumption].
Qed.
Lemma st_many S xs t : sent_type S (GList xs) (Many t) <->
  zlen xs < 2 ^ 32 /\ Forall (fun x => sent_type S x (One t)) xs.
Proof.
  cbn [sent_type]. apply and_iff_compat_l. induction xs as [|x xs IH].
  - split; constructor.
  - split.
    + intros [H1 H2]. constructor; [exact H1|apply IH; exact H2].
    + intros H. inversion H; subst. split; [assumption|apply IH; assumption].
Qed.
Lemma st_map S l k t : sent_type S (GMap (Some l)) (MapOf k t) <->
  zlen l < 2 ^ 32 /\ Forall (fun e => holds k (fst e) /\ sent_type S (snd e) (One t)) l.
Proof.
  cbn [sent_type]. apply and_iff_compat_l. induction l as [|[kv x] l IH].
  - split; constructor.
  - split.
    + intros (H1 & H2 & H3). constructor; [split; assumption|apply IH; exact H3].
    + intros H. inversion H as [|? ? [Ha Hb] Hc]; subst. split; [assumption|]. split; [assumption|apply IH; assumption].
Qed.
Lemma ht_st S x : forall f, has_type S x f -> sent_type S x f.
Proof.
  induction x using gval_ind'; intros f HT; destruct f as [[k|m]|t|k t]; try contradiction HT; try exact HT.
  - apply ht_many in HT. apply st_many. split; [apply HT|]. destruct HT as [_ HT]. rewrite Forall_forall in *. auto.
  - apply ht_map in HT. apply st_map. destruct HT as (L & _ & HT). split; [exact L|].
    rewrite Forall_forall in *. intros e He. split; [apply HT; exact He|]. apply H; [exact He|]. apply HT. exact He.
  - apply ht_msg in HT. apply st_msg. destruct HT as [L HT]. split; [exact L|]. clear L.
    revert HT. generalize (fields_of S m) as fs. intros fs HT. induction HT as [|x f xs fs Hx HT IH]; constructor; inversion H; subst; auto.
Qed.

(** *** Last wins *)
Lemma last_of_skip {A} k (v : A) l : ~ In k (map fst l) -> last_of k v l = v.
Proof.
  revert v. induction l as [|[k' v'] l IH]; intros v H; cbn [last_of]; [reflexivity|]. cbn in H.
  destruct (value_eq_dec k k') as [->|]; [exfalso; auto|]. apply IH. auto.
Qed.
Lemma last_wins_fst {A} (l : list (value * A)) k : In k (map fst (last_wins l)) -> In k (map fst l).
Proof.
  induction l as [|[k' v'] l IH]; cbn; [auto|]. intros [H|H]; [auto|right].
  apply IH. apply in_map_iff in H. destruct H as (e & <- & He). apply filter_In in He. apply in_map. apply He.
Qed.
Lemma last_wins_id {A} (l : list (value * A)) : NoDup (map fst l) -> last_wins l = l.
Proof.
  induction l as [|[k v] l IH]; cbn [last_wins map fst]; intros H; [reflexivity|]. inversion H as [|? ? N H']; subst.
  rewrite last_of_skip by exact N. rewrite IH by exact H'. f_equal.
  clear - N. induction l as [|[k' v'] l IH]; cbn [filter fst]; [reflexivity|]. cbn in N.
  destruct (value_eq_dec k k') as [->|]; [exfalso; auto|]. rewrite IH by auto. reflexivity.
Qed.
Lemma last_of_map {A B} (g : A -> B) k v l : last_of k (g v) (map (fun e : value * A => (fst e, g (snd e))) l) = g (last_of k v l).
Proof.
  revert v. induction l as [|[k' v'] l IH]; intros v; cbn [map last_of fst snd]; [reflexivity|].
  rewrite <- IH. destruct (value_eq_dec k k'); reflexivity.
Qed.
Lemma last_wins_map {A B} (g : A -> B) l :
  last_wins (map (fun e : value * A => (fst e, g (snd e))) l) = map (fun e => (fst e, g (snd e))) (last_wins l).
Proof.
  induction l as [|[k v] l IH]; cbn [map last_wins fst snd]; [reflexivity|]. rewrite last_of_map, IH. f_equal.
  generalize (last_wins l) as q. clear. intros q. induction q as [|[k' v'] q IH]; cbn [map filter fst snd]; [reflexivity|].
  destruct (value_eq_dec k k'); cbn [map fst snd]; rewrite IH; reflexivity.
Qed.
Lemma insert_fold l : forall acc, NoDup (map fst acc) ->
  fold_left (fun a e => insert (fst e) (snd e) a) l acc =
  map (fun e => (fst e, last_of (fst e) (snd e) l)) acc ++
  filter (fun e => if in_dec value_eq_dec (fst e) (map fst acc) then false else true) (last_wins l).
Proof.
  induction l as [|[k v] l IH]; intros acc ND; cbn [fold_left last_wins last_of fst snd].
  - cbn [filter]. rewrite app_nil_r. rewrite <- (map_id acc) at 1. apply map_ext. intros [? ?]. reflexivity.
  - assert (INS : In k (map fst acc) /\ insert k v acc = map (fun e => (fst e, if value_eq_dec (fst e) k then v else snd e)) acc \/
              ~ In k (map fst acc) /\ insert k v acc = acc ++ [(k, v)]).
    { clear IH. induction acc as [|[k' v'] acc IHa]; [right; split; [intros []|reflexivity]|]. cbn [map fst] in ND. inversion ND as [|? ? N ND']; subst.
      cbn [insert map fst snd]. destruct (value_eq_dec k k') as [<-|Hk].
      - left. split; [left; reflexivity|]. destruct (value_eq_dec k k); [|congruence]. f_equal.
        rewrite <- (map_id acc) at 1. apply map_ext_in. intros [a b] Ha. cbn [fst snd].
        destruct (value_eq_dec a k) as [->|]; [|reflexivity]. exfalso. apply N. apply (in_map fst) in Ha. exact Ha.
      - destruct (IHa ND') as [[I E]|[I E]]; [left|right]; rewrite E.
        + split; [right; exact I|]. destruct (value_eq_dec k' k); [congruence|reflexivity].
        + split; [intros [H|H]; [congruence|contradiction]|reflexivity]. }
    destruct INS as [[I E]|[I E]]; rewrite E, IH.
    + rewrite map_map. cbn [fst snd filter]. destruct (in_dec value_eq_dec k (map fst acc)); [|contradiction]. rewrite map_map. cbn [fst].
      f_equal. generalize (last_wins l) as q. intros q. induction q as [|[k' v'] q IHq]; cbn [filter fst]; [reflexivity|].
      change (map (fun x : value * gval => fst x) acc) with (map fst acc) in *.
      destruct (value_eq_dec k k') as [<-|].
      * destruct (in_dec value_eq_dec k (map fst acc)); [exact IHq|contradiction].
      * cbn [filter fst]. destruct (in_dec value_eq_dec k' (map fst acc)); [exact IHq|]. f_equal. exact IHq.
    + rewrite map_map. cbn [fst]. exact ND.
    + rewrite map_app. cbn [map fst snd filter]. rewrite <- app_assoc. f_equal.
      * apply map_ext_in. intros [a b] Ha. cbn [fst snd]. destruct (value_eq_dec a k) as [->|]; [|reflexivity].
        exfalso. apply I. apply (in_map fst) in Ha. exact Ha.
      * destruct (in_dec value_eq_dec k (map fst acc)); [contradiction|]. cbn [app]. f_equal.
        rewrite map_app. cbn [map fst]. generalize (last_wins l) as q. intros q. induction q as [|[k' v'] q IHq]; cbn [filter fst]; [reflexivity|].
        destruct (value_eq_dec k k') as [<-|].
        { destruct (in_dec value_eq_dec k (map fst acc ++ [k])) as [_|N]; [exact IHq|exfalso; apply N, in_app_iff; right; left; reflexivity]. }
        cbn [filter fst]. destruct (in_dec value_eq_dec k' (map fst acc)) as [J|J], (in_dec value_eq_dec k' (map fst acc ++ [k])) as [J'|J'].
        -- exact IHq.
        -- exfalso. apply J'. apply in_app_iff. left. exact J.
        -- exfalso. apply in_app_iff in J'. destruct J' as [J'|[J'|[]]]; [contradiction|congruence].
        -- f_equal. exact IHq.
    + rewrite map_app. cbn [map fst]. clear - I ND. induction (map fst acc) as [|a q IHq]; cbn [app]; [constructor; [intros []|constructor]|].
      inversion ND; subst. constructor; [|apply IHq; auto; intros H; apply I; right; exact H].
      intros H. apply in_app_iff in H. destruct H as [H|[H|[]]]; [contradiction|]. apply I. left. congruence.
Qed.
Lemma insert_all (l : list (value * gval)) : fold_left (fun a e => insert (fst e) (snd e) a) l [] = last_wins l.
Proof.
  rewrite insert_fold by constructor. cbn [map app]. induction (last_wins l) as [|e q IH]; cbn [filter map]; [reflexivity|].
  destruct (in_dec value_eq_dec (fst e) []) as [[]|]. f_equal. exact IH.
Qed.
Lemma last_wins_nodup {A} (l : list (value * A)) : NoDup (map fst (last_wins l)).
Proof.
  induction l as [|[k v] l IH]; cbn [last_wins map fst]; constructor.
  - intros H. apply in_map_iff in H. destruct H as (e & E & He). apply filter_In in He. destruct He as [_ He].
    destruct (value_eq_dec k (fst e)); [discriminate|]. congruence.
  - revert IH. generalize (last_wins l) as q. intros q ND. induction q as [|e q IH]; cbn [filter map]; [constructor|]. inversion ND as [|? ? N ND']; subst.
    destruct (value_eq_dec k (fst e)); [auto|]. cbn [map]. constructor; [|auto].
    intros H. apply N. apply in_map_iff in H. destruct H as (e' & E & He). apply filter_In in He. rewrite <- E. apply in_map. apply He.
Qed.
Lemma last_of_spec {A} k (v : A) l x : last_of k v l = x <->
  (~ In k (map fst l) /\ x = v) \/ exists pre post, l = pre ++ (k, x) :: post /\ ~ In k (map fst post).
Proof.
  revert v. induction l as [|[k' v'] l IH]; intros v; cbn [last_of].
  - split; [intros <-; left; auto|]. intros [[_ ->]|(pre & post & E & _)]; [reflexivity|]. destruct pre; discriminate E.
  - rewrite IH. split.
    + intros [[N E]|(pre & post & E & N)].
      * destruct (value_eq_dec k k') as [<-|Hk].
        -- right. exists [], l. split; [rewrite E; reflexivity|exact N].
        -- left. split; [|exact E]. cbn. intros [H|H]; [congruence|contradiction].
      * right. exists ((k', v') :: pre), post. split; [rewrite E; reflexivity|exact N].
    + intros [[N E]|(pre & post & E & N)].
      * left. cbn in N. split; [auto|]. destruct (value_eq_dec k k'); [exfalso; apply N; auto|exact E].
      * destruct pre as [|[a b] pre]; cbn in E.
        -- injection E as -> -> ->. left. split; [exact N|]. destruct (value_eq_dec k k); congruence.
        -- injection E as -> -> ->. right. eauto.
Qed.
Lemma last_wins_in {A} (l : list (value * A)) k v : In (k, v) (last_wins l) <->
  exists pre post, l = pre ++ (k, v) :: post /\ ~ In k (map fst post).
Proof.
  induction l as [|[k' v'] l IH]; cbn [last_wins].
  - split; [intros []|]. intros (pre & post & E & _). destruct pre; discriminate E.
  - split.
    + intros [H|H].
      * injection H as <- H. apply last_of_spec in H. destruct H as [[N ->]|(pre & post & -> & N)].
        -- exists [], l. auto.
        -- exists ((k', v') :: pre), post. auto.
      * apply filter_In in H. destruct H as [H _]. apply IH in H. destruct H as (pre & post & -> & N).
        exists ((k', v') :: pre), post. auto.
    + intros (pre & post & E & N). destruct (value_eq_dec k' k) as [->|Hk].
      * left. f_equal. apply last_of_spec. destruct pre as [|[a b] pre]; cbn in E.
        -- injection E as -> ->. left. auto.
        -- injection E as -> -> ->. right. eauto.
      * right. apply filter_In. split; [|cbn [fst]; destruct (value_eq_dec k' k); [congruence|reflexivity]].
        apply IH. destruct pre as [|[a b] pre]; cbn in E; [congruence|]. injection E as -> -> ->. eauto.
Qed.
Lemma collapse_id S x : forall f, has_type S x f -> collapse x = x.
Proof.
  induction x using gval_ind'; intros f HT; destruct f as [[k|m]|t|k t]; try contradiction HT; cbn [collapse]; try reflexivity.
  - apply ht_many in HT. destruct HT as [_ HT]. f_equal. rewrite <- (map_id xs) at 2. apply map_ext_in. intros x Hx.
    rewrite Forall_forall in *. eapply H; eauto.
  - apply ht_map in HT. destruct HT as (_ & ND & HT). do 2 f_equal.
    assert (E : map (fun e : value * gval => (fst e, collapse (snd e))) l = l).
    { rewrite <- (map_id l) at 2. apply map_ext_in. intros [a b] Hx. rewrite Forall_forall in *. cbn [fst snd]. f_equal.
      eapply (H _ Hx). apply (HT _ Hx). }
    rewrite E. apply last_wins_id. exact ND.
  - apply ht_msg in HT. destruct HT as [_ HT]. do 2 f_equal. revert HT. generalize (fields_of S m) as fs. intros fs HT.
    induction HT as [|x f xs fs Hx HT IH]; cbn [map]; [reflexivity|]. inversion H; subst. f_equal; eauto.
Qed.
Lemma ev_msg P S xs m : length xs = length (fields_of S m) ->
  (everywhere P S (GMsg (Some xs)) (One (Msg m)) <-> P m xs /\ Forall2 (everywhere P S) xs (fields_of S m)).
Proof.
  intros L. cbn [everywhere]. apply and_iff_compat_l. revert L. generalize (fields_of S m) as fs.
  induction xs as [|x xs IH]; intros [|f fs] L; try discriminate L.
  - split; constructor.
  - injection L as L. split.
    + intros [H1 H2]. constructor; [exact H1|apply IH; assumption].
    + intros H. inversion H; subst. split; [assumption|apply IH; assumption].
Qed.
Lemma ev_many P S xs t : everywhere P S (GList xs) (Many t) <-> Forall (fun x => everywhere P S x (One t)) xs.
Proof.
  cbn [everywhere]. induction xs as [|x xs IH].
  - split; constructor.
  - split.
    + intros [H1 H2]. constructor; [exact H1|apply IH; exact H2].
    + intros H. inversion H; subst. split; [assumption|apply IH; assumption].
Qed.
Lemma ev_map P S l k t : everywhere P S (GMap (Some l)) (MapOf k t) <->
  Forall (fun e => everywhere P S (snd e) (One t)) l.
Proof.
  cbn [everywhere]. induction l as [|[kv x] l IH].
  - split; constructor.
  - split.
    + intros [H1 H2]. constructor; [exact H1|apply IH; exact H2].
    + intros H. inversion H; subst. split; [assumption|apply IH; assumption].
Qed.
Lemma nn_list xs : no_nil (GList xs) <-> Forall no_nil xs.
Proof.
  cbn [no_nil]. induction xs as [|x xs IH]; [split; constructor|]. split.
  - intros [H1 H2]. constructor; [exact H1|apply IH; exact H2].
  - intros H. inversion H; subst. split; [assumption|apply IH; assumption].
Qed.
Lemma nn_msg xs : no_nil (GMsg (Some xs)) <-> Forall no_nil xs.
Proof. apply (nn_list xs). Qed.
Lemma nn_map l : no_nil (GMap (Some l)) <-> Forall (fun e => no_nil (snd e)) l.
Proof.
  cbn [no_nil]. induction l as [|[k x] l IH]; [split; constructor|]. split.
  - intros [H1 H2]. constructor; [exact H1|apply IH; exact H2].
  - intros H. inversion H; subst. split; [assumption|apply IH; assumption].
Qed.
Lemma ti_list e xs : tidy e (GList xs) <-> Forall (tidy true) xs.
Proof.
  cbn [tidy]. induction xs as [|x xs IH]; [split; constructor|]. split.
  - intros [H1 H2]. constructor; [exact H1|apply IH; exact H2].
  - intros H. inversion H; subst. split; [assumption|apply IH; assumption].
Qed.
Lemma ti_msg e xs : tidy e (GMsg (Some xs)) <-> Forall (tidy false) xs.
Proof.
  cbn [tidy]. induction xs as [|x xs IH]; [split; constructor|]. split.
  - intros [H1 H2]. constructor; [exact H1|apply IH; exact H2].
  - intros H. inversion H; subst. split; [assumption|apply IH; assumption].
Qed.
Lemma ti_map e l : tidy e (GMap (Some l)) <-> Forall (fun e => tidy true (snd e)) l.
Proof.
  cbn [tidy]. induction l as [|[k x] l IH]; [split; constructor|]. split.
  - intros [H1 H2]. constructor; [exact H1|apply IH; exact H2].
  - intros H. inversion H; subst. split; [assumption|apply IH; assumption].
Qed.
Lemma depth_list xs n : (depth (GList xs) <= n)%nat <-> Forall (fun x => (depth x <= n)%nat) xs.
Proof.
  cbn [depth]. induction xs as [|x xs IH]; [split; [constructor|lia]|]. split.
  - intros H. constructor; [lia|apply IH; lia].
  - intros H. inversion H; subst. apply IH in H3. lia.
Qed.
Lemma depth_msg xs n : (depth (GMsg (Some xs)) <= n)%nat <->
  exists k, n = S k /\ Forall (fun x => (depth x <= k)%nat) xs.
Proof.
  change (depth (GMsg (Some xs))) with (S (depth (GList xs))). split.
  - destruct n; [lia|]. intros H. exists n. split; [reflexivity|]. apply depth_list. lia.
  - intros (k & -> & H). apply depth_list in H. lia.
Qed.
Lemma depth_map l n : (depth (GMap (Some l)) <= n)%nat <-> Forall (fun e => (depth (snd e) <= n)%nat) l.
Proof.
  cbn [depth]. induction l as [|[k x] l IH]; [split; [constructor|lia]|]. split.
  - intros H. constructor; [cbn; lia|apply IH; lia].
  - intros H. inversion H; subst. apply IH in H3. cbn in *. lia.
Qed.
Lemma calls_msg S xs m : (m < length S)%nat -> calls S (GMsg (Some xs)) (One (Msg m)) =
  match getFields go_encodeLUT (fields_of S m) 0 with
  | None => None
  | Some (a, b, c) => all_some (map (fun i => nth i (zw (calls S) xs (fields_of S m)) None) (a ++ b ++ c))
  end.
Proof.
  intros H. cbn [calls]. rewrite (fields_nth S m H).
  assert (E : forall fs, (fix each (xs : list gval) (fs : list field) : list (option (list value)) :=
     match xs, fs with x :: xs, f :: fs => calls S x f :: each xs fs | _, _ => [] end) xs fs = zw (calls S) xs fs).
  { clear. induction xs as [|x xs IH]; intros [|f fs]; cbn; try reflexivity. f_equal. apply IH. }
  rewrite E. reflexivity.
Qed.
Lemma overlay_msg v2 S blank keep xs m old :
  overlay v2 S blank keep (GMsg (Some xs)) (One (Msg m)) old =
  GMsg (Some (zw3 (overlay v2 S blank v2) xs (fields_of S m) (if keep then blank m else base blank m old))).
Proof.
  cbn [overlay]. do 2 f_equal. generalize (if keep then blank m else base blank m old) as os.
  generalize (fields_of S m) as fs. induction xs as [|x xs IH]; intros [|f fs] [|o os]; cbn; try reflexivity.
  f_equal. apply IH.
Qed.
Lemma overlay_many v2 S blank keep xs t ys :
  overlay v2 S blank keep (GList xs) (Many t) (GList ys) =
  GList (zw (fun x o => overlay v2 S blank false x (One t) o) xs
    (if (length ys =? length xs)%nat then ys else repeat (zero (One t)) (length xs))).
Proof.
  cbn [overlay]. f_equal.
  replace (map (fun _ => zero (One t)) xs) with (repeat (zero (One t)) (length xs)).
  2: { clear. induction xs; cbn; [reflexivity|f_equal; assumption]. }
  generalize (if (length ys =? length xs)%nat then ys else repeat (zero (One t)) (length xs)) as os.
  induction xs as [|x xs IH]; intros [|o os]; cbn; try reflexivity. f_equal. apply IH.
Qed.
