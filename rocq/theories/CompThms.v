(** The conditions under which generated code compiles, in protobuf's terms. *)
From Verif Require Import Base Spec GenTables GenModel RsGenModel CompSpec.

Lemma key_legal k : key_kind k = true <-> legal_key k.
Proof. unfold legal_key. destruct k; cbn; split; intros H; try discriminate; try reflexivity; intuition discriminate. Qed.
Lemma go_field_iff S f : field_compiles S f = true <-> go_field S f.
Proof.
  unfold field_compiles. destruct f as [[k|m]|[k|m]|k [v|m]]; rewrite ?andb_true_iff, ?Nat.ltb_lt, ?key_legal.
  - split.
    + intros H. constructor. split; intros ->; discriminate H.
    + intros H. inversion H as [k' [H1 H2]| | | | |]; subst. destruct k; try reflexivity; contradiction.
  - split; [intros H; constructor; exact H|intros H; inversion H; assumption].
  - split.
    + intros [H _]. constructor; [split| |]; intros ->; discriminate H.
    + intros H. inversion H as [|k' [H1 H2] H3 H4| | | |]; subst. destruct k; try contradiction; split; reflexivity.
  - split; [intros H; constructor; exact H|intros H; inversion H; assumption].
  - split.
    + intros [[Hk _] H]. constructor; [exact Hk|split|]; intros ->; discriminate H.
    + intros H. inversion H as [| | | |k' v' Hk [H1 H2] H3|]; subst. split; [split; [exact Hk|]|].
      * apply key_legal in Hk. destruct k; try discriminate Hk; reflexivity.
      * destruct v; try contradiction; reflexivity.
  - split.
    + intros [[Hk _] H]. constructor; assumption.
    + intros H. inversion H as [| | | | |k' m' Hk Hm]; subst. split; [split; [exact Hk|]|exact Hm].
      apply key_legal in Hk. destruct k; try discriminate Hk; reflexivity.
Qed.
Theorem go_compiles_iff S : compiles S = true <-> forall fs, In fs S -> go_message S fs.
Proof.
  unfold compiles. rewrite forallb_forall. split; intros H fs Hf; specialize (H fs Hf); unfold message_compiles, go_message in *.
  - apply andb_true_iff in H. destruct H as [H1 H2]. split.
    + intros f Hin. apply go_field_iff. rewrite forallb_forall in H1. apply H1, Hin.
    + destruct fs as [|f0 fs]; [left; reflexivity|right]. set (l := f0 :: fs) in *.
      destruct (forallb IsMap l) eqn:E; [discriminate H2|]. clear - E. clearbody l. induction l as [|f l IH]; [discriminate E|].
      cbn [forallb] in E. apply andb_false_iff in E. destruct E as [E|E].
      * exists f. split; [left; reflexivity|]. intros k t ->. discriminate E.
      * destruct (IH E) as (g & Hg & N). exists g. split; [right; exact Hg|exact N].
  - destruct H as [H1 H2]. apply andb_true_iff. split.
    + apply forallb_forall. intros f Hin. apply go_field_iff, H1, Hin.
    + destruct fs as [|f0 fs]; [reflexivity|]. destruct H2 as [H2|(f & Hin & N)]; [discriminate H2|].
      destruct (forallb IsMap (f0 :: fs)) eqn:E; [|reflexivity]. rewrite forallb_forall in E. specialize (E f Hin).
      destruct f as [t|t|k t]; try discriminate E. exfalso. exact (N k t eq_refl).
Qed.
Lemma rust_field_iff S f : rfield_compiles S f = true <-> rust_field S f.
Proof.
  unfold rfield_compiles, rs_ref. destruct f as [[k|n|m]|[k|n|m]|k [v|n|m]]; rewrite ?andb_true_iff, ?Nat.ltb_lt, ?key_legal.
  - split.
    + intros H. constructor; [split|]; intros ->; discriminate H.
    + intros H. inversion H as [k' [H1 H2] H3| | | | | | |]; subst. destruct k; try reflexivity; contradiction.
  - split; [intros _; constructor|reflexivity].
  - split; [intros H; constructor; exact H|intros H; inversion H; assumption].
  - split.
    + intros H. constructor. destruct k; try discriminate H; auto.
    + intros H. inversion H as [| |k' Hk| | | | |]; subst. destruct Hk as [-> | ->]; reflexivity.
  - split; [intros H; discriminate H|intros H; inversion H].
  - split; [intros H; constructor; exact H|intros H; inversion H; assumption].
  - split.
    + intros [[Hk Hr] H]. assert (k = KString). { apply key_legal in Hk. destruct k; try discriminate Hk; try discriminate Hr; reflexivity. } subst k.
      constructor; try split; intros ->; discriminate H.
    + intros H. inversion H as [| | | | |v' [H1 H2] H3 H4 H5| |]; subst. split; [split; [apply key_legal; reflexivity|reflexivity]|].
      destruct v; try contradiction; reflexivity.
  - split.
    + intros [[Hk Hr] _]. assert (k = KString). { apply key_legal in Hk. destruct k; try discriminate Hk; try discriminate Hr; reflexivity. } subst k. constructor.
    + intros H. inversion H; subst. split; [split; [apply key_legal; reflexivity|reflexivity]|reflexivity].
  - split.
    + intros [[Hk Hr] H]. assert (k = KString). { apply key_legal in Hk. destruct k; try discriminate Hk; try discriminate Hr; reflexivity. } subst k.
      constructor. exact H.
    + intros H. inversion H; subst. split; [split; [apply key_legal; reflexivity|reflexivity]|assumption].
Qed.
(** A finite graph is well-founded if and only if it has no cycle. *)
Section Graph.
Variable R : nat -> nat -> Prop.                 (* a -> b *)
Variable N : nat.
Hypothesis fin : forall a b, R a b -> (a < N)%nat.
Inductive plus : nat -> nat -> Prop :=
| plus_one a b : R a b -> plus a b
| plus_more a b c : R a b -> plus b c -> plus a c.
Lemma plus_snoc a b c : plus a b -> R b c -> plus a c.
Proof. induction 1 as [a b H|a b d H _ IH]; intros Hc; [eapply plus_more; [exact H|apply plus_one, Hc]|eapply plus_more; [exact H|apply IH, Hc]]. Qed.
(* a path through [l], visiting only new nodes, is no longer than N *)
Lemma acc_path (acyclic : forall a, ~ plus a a) : forall n l a, NoDup l -> (forall x, In x l -> (x < N)%nat /\ plus x a) ->
  (N <= length l + n)%nat -> Acc (fun b a => R a b) a.
Proof.
  induction n as [|n IH]; intros l a Hl Hx Hn.
  - constructor. intros b Hb. exfalso.
    assert (Ha : ~ In a l) by (intros Hin; apply (acyclic a), Hx, Hin).
    assert (L : (length (a :: l) <= length (seq 0 N))%nat).
    { apply NoDup_incl_length; [constructor; assumption|]. intros x [<-|Hin]; apply in_seq; split; try lia; cbn; [exact (fin a b Hb)|apply Hx, Hin]. }
    rewrite seq_length in L. cbn in L. lia.
  - constructor. intros b Hb. assert (Ha : ~ In a l) by (intros Hin; apply (acyclic a), Hx, Hin).
    apply (IH (a :: l)).
    + constructor; assumption.
    + intros x [<-|Hin]; [split; [exact (fin a b Hb)|apply plus_one, Hb]|]. split; [apply Hx, Hin|]. eapply plus_snoc; [apply Hx, Hin|exact Hb].
    + cbn [length]. lia.
Qed.
Lemma acc_iff : (forall a, Acc (fun b a => R a b) a) <-> (forall a, ~ plus a a).
Proof.
  split.
  - intros H a. induction (H a) as [a _ IH]. intros P. inversion P as [? ? E|? b ? E P']; subst.
    + exact (IH a E P).
    + apply (IH b E). eapply plus_snoc; [exact P'|exact E].
  - intros H a. apply (acc_path H N []); [constructor|intros x []|cbn; lia].
Qed.
End Graph.
Lemma contains_plus S a b : contains S a b <-> plus (embeds S) a b.
Proof.
  split; induction 1 as [a b H|a b c H _ IH]; [apply plus_one, H|eapply plus_more; [exact H|exact IH]|apply contains_one, H|eapply contains_more; [exact H|exact IH]].
Qed.
Theorem rust_compiles_iff S : rs_compiles S <-> (forall fs f, In fs S -> In f fs -> rust_field S f) /\ forall m, ~ contains S m m.
Proof.
  unfold rs_compiles. rewrite (acc_iff (embeds S) (length S)).
  - split.
    + intros [H1 H2]. split.
      * intros fs f Hfs Hf. apply rust_field_iff. rewrite forallb_forall in H1. specialize (H1 fs Hfs). rewrite forallb_forall in H1. apply H1, Hf.
      * intros m H. apply contains_plus in H. exact (H2 m H).
    + intros [H1 H2]. split.
      * apply forallb_forall. intros fs Hfs. apply forallb_forall. intros f Hf. apply rust_field_iff. exact (H1 fs f Hfs Hf).
      * intros m H. apply contains_plus in H. exact (H2 m H).
  - intros a b H. unfold embeds in H. destruct (Nat.ltb_spec a (length S)) as [L|L]; [exact L|]. rewrite nth_overflow in H by exact L. destruct H.
Qed.
