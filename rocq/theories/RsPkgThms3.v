(** Proofs about whole requests to the Rust generator: the response. *)
From Coq Require Import String.
From Verif Require Import Base Utf8 NameModel NameSpec NameThms NameThms2 NameThms3 NameThms4 GenTables EmitModel EmitSpec EmitThms EmitThms2 EmitThms3 PkgModel PkgSpec PkgThms PkgThms2 PkgThms3 RsPkgModel RsPkgSpec RsPkgThms RsPkgThms2.

Section Request.
Variables (env : list msgd) (rustfmt : rsfile -> bool).
(** the output for one file *)
Definition answers (fuel : nat) (f : rsproto) (o : rsfile) : Prop :=
  exists d, DependencyAnalysis env fuel (r_desc f) = Some d /\ forallb rs_rendered (rs_file (r_desc f)) = true /\ rustfmt o = true /\
    o = mkrsfile (RsFileName (r_prefix f)) (rs_imports d) (rs_file (r_desc f)).
Lemma execute_done fuel f o : RsExecuteTemplate env rustfmt fuel (RsFileName (r_prefix f)) (r_desc f) = Done _ o <-> answers fuel f o.
Proof.
  unfold RsExecuteTemplate, answers. destruct (DependencyAnalysis env fuel (r_desc f)) as [d|].
  2:{ split; [discriminate|intros (d & E & _); discriminate E]. }
  destruct (forallb rs_rendered (rs_file (r_desc f))).
  2:{ split; [discriminate|intros (d' & _ & E & _); discriminate E]. }
  cbv zeta. destruct (rustfmt _) eqn:E; split.
  - intros H. injection H as <-. exists d. auto.
  - intros (d' & E1 & _ & _ & ->). injection E1 as <-. reflexivity.
  - discriminate.
  - intros (d' & E1 & _ & E2 & ->). injection E1 as <-. congruence.
Qed.
Theorem rs_generate_done fuel files os : RsGenerate env rustfmt fuel files = Done _ os <-> Forall2 (answers fuel) (filter r_generate files) os.
Proof.
  revert os. induction files as [|f fs IH]; intros os; cbn [RsGenerate filter].
  - split; [intros H; injection H as <-; constructor|intros H; inversion H; reflexivity].
  - destruct (r_generate f); cbn [negb]; [|apply IH].
    destruct (RsExecuteTemplate env rustfmt fuel (RsFileName (r_prefix f)) (r_desc f)) as [o| |] eqn:E.
    + apply execute_done in E. destruct (RsGenerate env rustfmt fuel fs) as [os'| |].
      * split.
        -- intros H. injection H as <-. constructor; [exact E|]. apply IH. reflexivity.
        -- intros H. inversion H as [|? o' ? os'' Ho Hos]; subst. apply IH in Hos. injection Hos as ->. 
           destruct E as (d & E1 & _ & _ & ->), Ho as (d' & E2 & _ & _ & ->). rewrite E1 in E2. injection E2 as ->. reflexivity.
      * split; [discriminate|]. intros H. inversion H as [|? o' ? os'' Ho Hos]; subst. apply IH in Hos. discriminate Hos.
      * split; [discriminate|]. intros H. inversion H as [|? o' ? os'' Ho Hos]; subst. apply IH in Hos. discriminate Hos.
    + split; [discriminate|]. intros H. inversion H as [|? o' ? os'' Ho Hos]; subst. apply execute_done in Ho. rewrite E in Ho. discriminate Ho.
    + split; [discriminate|]. intros H. inversion H as [|? o' ? os'' Ho Hos]; subst. apply execute_done in Ho. rewrite E in Ho. discriminate Ho.
Qed.
Lemma value_ok many t : rs_plain_type t -> returned (rs_findValue many t) = true <-> t <> TScalar KGroup.
Proof.
  destruct t as [k|s|s|k v]; cbn [rs_plain_type].
  - intros [H1 H2]. destruct k; cbn; split; intros; congruence || reflexivity.
  - intros _. cbn [rs_findValue]. rewrite camel_ok. cbn. split; [discriminate|reflexivity].
  - intros _. cbn [rs_findValue]. rewrite camel_ok. cbn. split; [discriminate|reflexivity].
  - intros [Hk Hv]. destruct (value_returns k Hk) as (a & Ea), (value_returns v Hv) as (b & Eb). cbn [rs_findValue]. rewrite Ea, Eb. cbn. split; [discriminate|reflexivity].
Qed.
Theorem rs_rendered_iff f : rs_plain f -> forallb rs_rendered (rs_file f) = true <-> ~ has_group f.
Proof.
  intros HP. rewrite forallb_forall. split.
  - intros H (m & fd & Hm & Hf & Et).
    assert (K : In (RsStruct (camel (m_full m)) (map (fun fd => (SnakeCase (f_name fd), rs_findValue (f_many fd) (f_typ fd))) (m_fields m))) (rs_file f)).
    { apply rs_struct_iff. exists m. split; [exact Hm|]. split; [apply camel_ok|reflexivity]. }
    apply H in K. cbn [rs_rendered] in K. rewrite forallb_forall in K. specialize (K (SnakeCase (f_name fd), rs_findValue (f_many fd) (f_typ fd))). cbn [snd] in K.
    rewrite Et in K. cbn in K. discriminate K. apply List.in_map_iff. exists fd. rewrite Et. auto.
  - intros H d Hd. apply in_rs_file in Hd. destruct Hd as [->|[->|[(e & _ & [<-|[]])|(m & Hm & [<-|[]])]]]; try reflexivity.
    cbn [rs_rendered]. apply forallb_forall. intros x Hx. apply List.in_map_iff in Hx. destruct Hx as (fd & <- & Hf). cbn [snd].
    apply value_ok; [apply (rp_fields f HP m fd Hm Hf)|]. intros E. apply H. exists m, fd. auto.
Qed.
End Request.

(** ---- when the analysis ends ---- *)
Section Ends.
Variable env : list msgd.
Lemma traverse_more n : forall n' ts d r, (n <= n')%nat -> traverseFields env n ts d = Some r -> traverseFields env n' ts d = Some r.
Proof.
  induction n as [|n IH]; [discriminate|]. intros [|n'] ts d r L; [lia|]. assert (L' : (n <= n')%nat) by lia. clear L. revert d r.
  induction ts as [|t ts IHt]; intros d r; rewrite !traverse_each; [tauto|].
  destruct t as [k|s|s|k v]; try apply IHt.
  - destruct (message_named env s) as [m|]; [|apply IHt]. destruct (m_fields m) as [|f fs]; [apply IHt|].
    destruct (traverseFields env n (map f_typ (f :: fs)) d) as [x|] eqn:E; [|discriminate]. rewrite (IH n' _ _ _ L' E). apply IHt.
  - destruct (traverseFields env n [k; v] true) as [x|] eqn:E; [|discriminate]. rewrite (IH n' _ _ _ L' E). apply IHt.
Qed.
Lemma ends_sub ts us : (forall t, In t ts -> In t us) -> ends env us -> ends env ts.
Proof. intros H K. inversion K; subst. constructor; eauto. Qed.
Lemma ends_cons t ts : ends env [t] -> ends env ts -> ends env (t :: ts).
Proof.
  intros A B. inversion A as [? A1 A2]; inversion B as [? B1 B2]; subst. constructor.
  - intros k v [->|I]; [apply A1; left; reflexivity|apply B1, I].
  - intros s m [->|I]; [apply A2; left; reflexivity|apply B2, I].
Qed.
Lemma ends_nil : ends env [].
Proof. constructor; intros ? ? []. Qed.
Lemma traverse_ends n : forall ts d r, traverseFields env n ts d = Some r -> ends env ts.
Proof.
  induction n as [|n IH]; [discriminate|]. induction ts as [|t ts IHt]; intros d r; rewrite traverse_each; [intros _; exact ends_nil|].
  destruct t as [k|s|s|k v].
  - intros H. apply ends_cons; [|eapply IHt, H]. constructor; [intros ? ? [E|[]]|intros ? ? [E|[]]]; discriminate E.
  - intros H. apply ends_cons; [|eapply IHt, H]. constructor; [intros ? ? [E|[]]|intros ? ? [E|[]]]; discriminate E.
  - intros H. apply ends_cons.
    + constructor; [intros ? ? [E|[]]; discriminate E|]. intros s' m [E|[]] Em. injection E as <-. rewrite Em in H.
      destruct (m_fields m) as [|f fs]; [exact ends_nil|]. destruct (traverseFields env n (map f_typ (f :: fs)) d) as [x|] eqn:E; [|discriminate H]. exact (IH _ _ _ E).
    + destruct (message_named env s) as [m|]; [|eapply IHt, H]. destruct (m_fields m) as [|f fs]; [eapply IHt, H|].
      destruct (traverseFields env n (map f_typ (f :: fs)) d) as [x|]; [eapply IHt, H|discriminate H].
  - destruct (traverseFields env n [k; v] true) as [x|] eqn:E; [|discriminate]. intros H. apply ends_cons; [|eapply IHt, H].
    constructor; [|intros ? ? [E'|[]]; discriminate E']. intros k' v' [E'|[]]. injection E' as <- <-. exact (IH _ _ _ E).
Qed.
Lemma all_fuel (P : ftyp -> nat -> Prop) ts : (forall t n n', (n <= n')%nat -> P t n -> P t n') -> (forall t, In t ts -> exists n, P t n) -> exists n, forall t, In t ts -> P t n.
Proof.
  intros M. induction ts as [|t ts IH]; intros H; [exists O; intros ? []|]. destruct IH as (n & Hn); [intros x Hx; apply H; right; exact Hx|].
  destruct (H t) as (n' & Hn'); [left; reflexivity|]. exists (max n n'). intros x [<-|Hx]; eapply M; [|exact Hn'| |apply Hn, Hx]; lia.
Qed.
Definition subtypes (t : ftyp) : list ftyp :=
  match t with TMap k v => [k; v] | TMsg s => match message_named env s with Some m => map f_typ (m_fields m) | None => [] end | _ => [] end.
Lemma traverse_subs n ts : (forall t, In t ts -> forall d, exists r, traverseFields env n (subtypes t) d = Some r) -> forall d, exists r, traverseFields env (S n) ts d = Some r.
Proof.
  induction ts as [|t ts IH]; intros H d; rewrite traverse_each; [eexists; reflexivity|].
  assert (IH' : forall d, exists r, traverseFields env (S n) ts d = Some r) by (apply IH; intros x Hx; apply H; right; exact Hx).
  specialize (H t (or_introl eq_refl)). destruct t as [k|s|s|k v]; try apply IH'.
  - cbn [subtypes] in H. destruct (message_named env s) as [m|]; [|apply IH']. destruct (m_fields m) as [|f fs]; [apply IH'|]. destruct (H d) as (r & ->). apply IH'.
  - destruct (H true) as (r & E). cbn [subtypes] in E. rewrite E. apply IH'.
Qed.
Lemma ends_traverse ts : ends env ts -> exists n, forall d, exists r, traverseFields env n ts d = Some r.
Proof.
  intros H. induction H as [ts A1 A2 B1 B2].
  destruct (all_fuel (fun t n => forall d, exists r, traverseFields env n (subtypes t) d = Some r) ts) as (n & Hn).
  - intros t n n' L K d. destruct (K d) as (r & E). exists r. exact (traverse_more n n' _ _ _ L E).
  - intros t Ht. destruct t as [k|s|s|k v]; cbn [subtypes].
    + exists 1%nat. intros d. exists d. reflexivity.
    + exists 1%nat. intros d. exists d. reflexivity.
    + destruct (message_named env s) as [m|] eqn:E; [exact (B2 _ _ Ht E)|exists 1%nat; intros d; exists d; reflexivity].
    + exact (A2 _ _ Ht).
  - exists (S n). apply traverse_subs, Hn.
Qed.
Theorem analysis_ends f : (exists n d, DependencyAnalysis env n f = Some d) <-> forall m, In m (d_msgs f) -> ends env (map f_typ (m_fields m)).
Proof.
  unfold DependencyAnalysis. split.
  - intros (n & d & H). destruct (top_messages env n (d_msgs f) false) as [x|] eqn:E; [|discriminate H]. clear H. revert E. generalize false.
    induction (d_msgs f) as [|m ms IH]; intros b E m' I; [destruct I|]. cbn [top_messages] in E.
    destruct (traverseFields env n (map f_typ (m_fields m)) b) as [y|] eqn:Et; [|discriminate E].
    destruct I as [<-|I]; [exact (traverse_ends _ _ _ _ Et)|exact (IH _ E _ I)].
  - intros H. enough (exists n, forall b, exists r, top_messages env n (d_msgs f) b = Some r) as (n & Hn).
    { exists n. destruct (Hn false) as (r & ->). eexists. reflexivity. }
    assert (M : forall n n' ms b r, (n <= n')%nat -> top_messages env n ms b = Some r -> top_messages env n' ms b = Some r).
    { intros n n' ms. induction ms as [|m ms IH]; intros b r L; cbn [top_messages]; [tauto|].
      destruct (traverseFields env n (map f_typ (m_fields m)) b) as [y|] eqn:Et; [|discriminate]. rewrite (traverse_more n n' _ _ _ L Et). apply IH, L. }
    induction (d_msgs f) as [|m ms IH]; [exists O; intros b; eexists; reflexivity|].
    destruct IH as (n & Hn); [intros x Hx; apply H; right; exact Hx|].
    destruct (ends_traverse _ (H m (or_introl eq_refl))) as (n' & Hn'). exists (max n n'). intros b. cbn [top_messages].
    destruct (Hn' b) as (y & Ey). rewrite (traverse_more n' (max n n') _ _ _ ltac:(lia) Ey). destruct (Hn y) as (r & Er). exists r. apply (M n); [lia|exact Er].
Qed.
Lemma analysis_more n n' f d : (n <= n')%nat -> DependencyAnalysis env n f = Some d -> DependencyAnalysis env n' f = Some d.
Proof.
  intros L. unfold DependencyAnalysis.
  assert (M : forall ms b r, top_messages env n ms b = Some r -> top_messages env n' ms b = Some r).
  { intros ms. induction ms as [|m ms IH]; intros b r; cbn [top_messages]; [tauto|].
    destruct (traverseFields env n (map f_typ (m_fields m)) b) as [y|] eqn:Et; [|discriminate]. rewrite (traverse_more n n' _ _ _ L Et). apply IH. }
  destruct (top_messages env n (d_msgs f) false) as [x|] eqn:E; [|discriminate]. rewrite (M _ _ _ E). tauto.
Qed.
(** a message that leads to itself *)
Lemma reach_ends ts s m : ends env ts -> reaches env ts s -> message_named env s = Some m -> ends env (map f_typ (m_fields m)).
Proof.
  intros H. induction H as [ts A1 A2 B1 B2]. intros R E. inversion R as [? ? I|? k v ? I R'|? s' m' ? I E' R']; subst; eauto.
Qed.
Lemma reaches_trans ts s m n : reaches env ts s -> message_named env s = Some m -> reaches env (map f_typ (m_fields m)) n -> reaches env ts n.
Proof. induction 1; intros E R; [eapply re_message; eauto|eapply re_map; eauto|eapply re_message; eauto]. Qed.
Theorem cycle_never_ends s m : message_named env s = Some m -> reaches env (map f_typ (m_fields m)) s -> forall ts, reaches env ts s -> ~ ends env ts.
Proof.
  intros E L ts R H. induction H as [ts A1 A2 B1 B2]. inversion R as [? ? I|? k v ? I R'|? s' m' ? I E' R']; subst.
  - exact (B2 _ _ I E L).
  - exact (A2 _ _ I R').
  - exact (B2 _ _ I E' R').
Qed.
End Ends.
