(** Environments, memory, and trees in memory. *)
From Coq Require Import String.
From Verif Require Import Base Spec GenTables GenModel GenTrace NameModel NameSpec EmitModel EmitSpec EmitThms GoAst GoEmit GoRunSpec GoLink.

(** ---- association lists ---- *)
Lemma find_set_same {A} n (a : A) l b : find_name n l = Some b -> find_name n (set_name n a l) = Some a.
Proof.
  induction l as [|[m c] l IH]; [discriminate|]. cbn [find_name set_name]. destruct (same n m) eqn:E; cbn [find_name]; rewrite E; [reflexivity|exact IH].
Qed.
Lemma find_set_other {A} n m (a : A) l : n <> m -> find_name n (set_name m a l) = find_name n l.
Proof.
  intros H. induction l as [|[k c] l IH]; [reflexivity|]. cbn [find_name set_name]. destruct (same m k) eqn:E; cbn [find_name].
  - apply same_true in E. subst k. rewrite same_false by exact H. reflexivity.
  - rewrite IH. reflexivity.
Qed.
Lemma set_name_length {A} n (a : A) l : length (set_name n a l) = length l.
Proof. induction l as [|[m c] l IH]; [reflexivity|]. cbn [set_name]. destruct (same n m); cbn [length]; congruence. Qed.
Lemma find_set_none {A} n m (a : A) l : find_name n l = None -> find_name n (set_name m a l) = None.
Proof.
  induction l as [|[k c] l IH]; [reflexivity|]. cbn [find_name set_name]. destruct (same n k) eqn:E; [discriminate|]. intros H.
  destruct (same m k); cbn [find_name]; rewrite E; auto.
Qed.
Lemma find_combine {A} names (vs : list A) : NoDup names -> length vs = length names ->
  forall i n, nth_error names i = Some n -> find_name n (combine names vs) = nth_error vs i.
Proof.
  revert vs. induction names as [|m names IH]; intros [|v vs] N L i n Hn; try discriminate L; [destruct i; discriminate Hn|].
  inversion N; subst. destruct i as [|i]; cbn [nth_error] in Hn |- *; cbn [combine find_name].
  - injection Hn as ->. rewrite same_refl. reflexivity.
  - rewrite same_false; [apply IH; auto|]. intros ->. apply nth_error_In in Hn. contradiction.
Qed.
Lemma set_combine {A} names (vs : list A) : NoDup names -> length vs = length names ->
  forall i n v, nth_error names i = Some n -> set_name n v (combine names vs) = combine names (set_at i v vs).
Proof.
  revert vs. induction names as [|m names IH]; intros [|w vs] N L i n v Hn; try discriminate L; [destruct i; discriminate Hn|].
  inversion N; subst. destruct i as [|i]; cbn [nth_error] in Hn; cbn [combine set_name set_at].
  - injection Hn as ->. rewrite same_refl. reflexivity.
  - rewrite same_false; [cbn [combine]; f_equal; apply IH; auto|]. intros ->. apply nth_error_In in Hn. contradiction.
Qed.
Lemma leave_same (e e' : list (bytes * gov)) : length e' = length e -> leave e e' = e'.
Proof. intros H. unfold leave. rewrite H, Nat.sub_diag. reflexivity. Qed.
Lemma leave_one p (e e' : list (bytes * gov)) : length e' = length e -> leave e (p :: e') = e'.
Proof. intros H. unfold leave. cbn [length]. rewrite H. replace (S (length e) - length e)%nat with 1%nat by lia. reflexivity. Qed.

(** ---- lists ---- *)
Lemma nth_set_at_same {A} i (a : A) l b : nth_error l i = Some b -> nth_error (set_at i a l) i = Some a.
Proof. revert l. induction i as [|i IH]; intros [|c l]; try discriminate; cbn [set_at nth_error]; auto. Qed.
Lemma nth_set_at_other {A} i j (a : A) l : i <> j -> nth_error (set_at i a l) j = nth_error l j.
Proof. revert j l. induction i as [|i IH]; intros [|j] [|c l] H; cbn [set_at nth_error]; auto; congruence. Qed.
Lemma set_at_length {A} i (a : A) l : length (set_at i a l) = length l.
Proof. revert l. induction i as [|i IH]; intros [|c l]; cbn [set_at length]; auto. Qed.
Lemma nth_bound {A} (l : list A) i x : nth_error l i = Some x -> (i < length l)%nat.
Proof. intros H. apply nth_error_Some. rewrite H. discriminate. Qed.
Lemma nth_old {A} (l k : list A) i x : nth_error l i = Some x -> nth_error (l ++ k) i = Some x.
Proof. intros H. rewrite nth_error_app1; [exact H|]. exact (nth_bound _ _ _ H). Qed.
Lemma nth_new {A} (l : list A) x : nth_error (l ++ [x]) (length l) = Some x.
Proof. rewrite nth_error_app2 by lia. rewrite Nat.sub_diag. reflexivity. Qed.

(** ---- trees in memory ---- *)
Scheme rep_mut := Minimality for rep Sort Prop with reps_mut := Minimality for reps Sort Prop.
Combined Scheme rep_reps from rep_mut, reps_mut.
Section Rep.
Variable ms : list msgd.
Lemma rep_bounds h :
  (forall fd x v fp, rep ms h fd x v fp -> forall c, In c fp -> (c < length h)%nat) /\
  (forall fds xs vs fp, reps ms h fds xs vs fp -> forall c, In c fp -> (c < length h)%nat).
Proof.
  apply rep_reps; try (intros; contradiction).
  - intros fd s m xs vs a fp _ _ _ H _ IH c [<-|Hc]; [exact (nth_bound _ _ _ H)|auto].
  - intros fd xs vs a fp _ _ H _ _ IH c [<-|Hc]; [exact (nth_bound _ _ _ H)|auto].
  - intros fd k v l vs a fp _ H _ IH c [<-|Hc]; [exact (nth_bound _ _ _ H)|auto].
  - intros fd x v fp1 fds xs vs fp2 _ IH1 _ IH2 c Hc. apply in_app_or in Hc. destruct Hc; auto.
Qed.
Lemma rep_frames h :
  (forall fd x v fp, rep ms h fd x v fp -> forall h', (forall c, In c fp -> nth_error h' c = nth_error h c) -> rep ms h' fd x v fp) /\
  (forall fds xs vs fp, reps ms h fds xs vs fp -> forall h', (forall c, In c fp -> nth_error h' c = nth_error h c) -> reps ms h' fds xs vs fp).
Proof.
  apply rep_reps.
  - intros. constructor; assumption.
  - intros. econstructor; eassumption.
  - intros fd s m xs vs a fp M T N H _ IH h' K. econstructor; try eassumption; [rewrite K; [exact H|left; reflexivity]|]. apply IH. intros c Hc. apply K. right. exact Hc.
  - intros. constructor; assumption.
  - intros fd xs vs a fp M T H B _ IH h' K. econstructor; try eassumption; [rewrite K; [exact H|left; reflexivity]|]. apply IH. intros c Hc. apply K. right. exact Hc.
  - intros. econstructor; eassumption.
  - intros fd k v l vs a fp T H _ IH h' K. econstructor; try eassumption; [rewrite K; [exact H|left; reflexivity]|]. apply IH. intros c Hc. apply K. right. exact Hc.
  - intros. constructor.
  - intros fd x v fp1 fds xs vs fp2 _ IH1 _ IH2 h' K. constructor; [apply IH1|apply IH2]; intros c Hc; apply K, in_or_app; auto.
Qed.
Definition rep_bound h fd x v fp := proj1 (rep_bounds h) fd x v fp.
Definition reps_bound h fds xs vs fp := proj2 (rep_bounds h) fds xs vs fp.
Definition rep_frame h fd x v fp := proj1 (rep_frames h) fd x v fp.
Definition reps_frame h fds xs vs fp := proj2 (rep_frames h) fds xs vs fp.
Lemma reps_lengths h fds xs vs fp : reps ms h fds xs vs fp -> length xs = length fds /\ length vs = length fds.
Proof. induction 1; [auto|]. cbn [length]. lia. Qed.
Lemma reps_nth h fds xs vs fp : reps ms h fds xs vs fp -> forall i fd, nth_error fds i = Some fd ->
  exists x v p q r, nth_error xs i = Some x /\ nth_error vs i = Some v /\ fp = p ++ q ++ r /\ rep ms h fd x v q /\
    forall h' x' v' q', (forall c, In c (p ++ r) -> nth_error h' c = nth_error h c) -> rep ms h' fd x' v' q' ->
      reps ms h' fds (set_nth i x' xs) (set_at i v' vs) (p ++ q' ++ r).
Proof.
  induction 1 as [|fd x v fp1 fds xs vs fp2 H1 H2 IH]; intros i fd' Hi; [destruct i; discriminate Hi|]. destruct i as [|i].
  - cbn [nth_error] in Hi. injection Hi as <-. exists x, v, [], fp1, fp2. split; [reflexivity|]. split; [reflexivity|]. split; [reflexivity|]. split; [exact H1|].
    intros h' x' v' q' K R. cbn [set_nth set_at app]. constructor; [exact R|]. apply (reps_frame h); [exact H2|]. intros c Hc. apply K. exact Hc.
  - cbn [nth_error] in Hi. destruct (IH i fd' Hi) as (x1 & v1 & p & q & r & E1 & E2 & -> & R & K). exists x1, v1, (fp1 ++ p), q, r.
    cbn [nth_error]. split; [exact E1|]. split; [exact E2|]. split; [rewrite app_assoc; reflexivity|]. split; [exact R|].
    intros h' x' v' q' F R'. cbn [set_nth set_at]. rewrite <- !app_assoc in *. constructor.
    + apply (rep_frame h); [exact H1|]. intros c Hc. apply F. rewrite in_app_iff. auto.
    + apply K; [|exact R']. intros c Hc. apply F. rewrite in_app_iff. auto.
Qed.
Lemma reps_app h fds xs vs fp fds' xs' vs' fp' : reps ms h fds xs vs fp -> reps ms h fds' xs' vs' fp' -> reps ms h (fds ++ fds') (xs ++ xs') (vs ++ vs') (fp ++ fp').
Proof. induction 1; [auto|]. intros H'. cbn [app]. rewrite <- app_assoc. constructor; auto. Qed.
End Rep.

(** ---- footprints ---- *)
Lemma nodup_mid {A} (p q q' r : list A) : NoDup (p ++ q ++ r) -> NoDup q' ->
  (forall c, In c q' -> In c q \/ ~ In c (p ++ r)) -> NoDup (p ++ q' ++ r).
Proof.
  intros H N K. induction p as [|x p IH]; cbn [app] in *.
  - assert (D : forall c, In c q' -> ~ In c r).
    { intros c Hc. destruct (K c Hc) as [Hq|Hr]; [|exact Hr]. exact (nodup_app_not _ _ c H Hq). }
    apply nodup_app_r in H. clear K. induction q' as [|y q' IH]; [exact H|]. inversion N; subst. cbn [app]. constructor.
    + rewrite in_app_iff. intros [Hy|Hy]; [auto|]. exact (D y (or_introl eq_refl) Hy).
    + apply IH; [assumption|]. intros c Hc. apply D. right. exact Hc.
  - inversion H as [|? ? Hx Hd]; subst. constructor.
    + rewrite !in_app_iff in *. intros [Hp|[Hq|Hr]]; [tauto| |tauto]. destruct (K x Hq) as [Hq'|Hr]; [tauto|]. apply Hr. left. reflexivity.
    + apply IH; [exact Hd|]. intros c Hc. destruct (K c Hc) as [Hq|Hr]; [left; exact Hq|right]. intros Hi. apply Hr. right. exact Hi.
Qed.
Lemma only_refl h fp : only_at h h fp fp.
Proof. split; [lia|]. split; auto. Qed.
Lemma only_trans h1 h2 h3 fp1 fp2 fp3 : only_at h1 h2 fp1 fp2 -> only_at h2 h3 fp2 fp3 -> only_at h1 h3 fp1 fp3.
Proof.
  intros (L1 & F1 & N1) (L2 & F2 & N2). split; [lia|]. split.
  - intros c Hc Hn. rewrite F2; [apply F1; assumption|lia|]. intros Hi. destruct (N1 c Hi); [contradiction|lia].
  - intros c Hc. destruct (N2 c Hc) as [H|H]; [exact (N1 c H)|right; lia].
Qed.
(** widening both footprints by what is left alone *)
Lemma only_weaken h1 h2 fp1 fp1' fp2 : only_at h1 h2 fp1 fp2 -> (forall c, In c fp1 -> In c fp1') -> only_at h1 h2 fp1' fp2.
Proof. intros (L & F & N) H. split; [exact L|]. split; [intros c Hc Hn; apply F; auto|]. intros c Hc. destruct (N c Hc); auto. Qed.
Lemma only_shrink h1 h2 fp1 fp2 fp2' : only_at h1 h2 fp1 fp2 -> (forall c, In c fp2' -> In c fp2) -> only_at h1 h2 fp1 fp2'.
Proof. intros (L & F & N) H. split; [exact L|]. split; [exact F|]. auto. Qed.
Lemma only_frame h1 h2 p q q' r : only_at h1 h2 q q' -> only_at h1 h2 (p ++ q ++ r) (p ++ q' ++ r).
Proof.
  intros (L & F & N). split; [exact L|]. split.
  - intros c Hc Hn. apply F; [exact Hc|]. intros H. apply Hn. rewrite !in_app_iff. auto.
  - intros c Hc. rewrite !in_app_iff in Hc. destruct Hc as [H|[H|H]]; [left|destruct (N c H); [left|right]|left]; rewrite ?in_app_iff; auto.
Qed.
Lemma only_set h a o : only_at h (set_at a o h) [a] [].
Proof.
  split; [rewrite set_at_length; lia|]. split; [|intros c []]. intros c _ Hn. apply nth_set_at_other. intros ->. apply Hn. left. reflexivity.
Qed.
Lemma only_alloc h o : only_at h (h ++ [o]) [] [length h].
Proof.
  split; [rewrite app_length; lia|]. split; [intros c Hc _; apply nth_error_app1, Hc|]. intros c [<-|[]]. right. lia.
Qed.
