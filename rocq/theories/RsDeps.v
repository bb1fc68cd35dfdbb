(** The Rust generator's import analysis: when it terminates, what it finds. *)
From Verif Require Import Base GenTables RsGenModel RsGenSpec.
Import GenModel (gval, GPrim, GList, GMap, GMsg).

Section Deps.
Variable S : rschema.
Notation sc := Datatypes.S.

(** ** acyclic iff well-founded *)
Definition target (f : rfield) : option nat :=
  match f with ROne (RMsg b) | RMany (RMsg b) | RMapOf _ (RMsg b) => Some b | _ => None end.
Lemma mentions_in a b : mentions S a b <-> exists f, In f (rfields_of S a) /\ target f = Some b.
Proof.
  split; intros (f & Hf & H); exists f; (split; [exact Hf|]).
  - destruct f as [t|t|k t]; subst t; reflexivity.
  - destruct f as [[| |]|[| |]|k [| |]]; cbn in H; try discriminate H; injection H as ->; reflexivity.
Qed.
Fixpoint low (n m : nat) : bool :=
  forallb (fun f => match target f with Some b => match n with O => false | sc n => low n b end | None => true end) (rfields_of S m).
Lemma low_acc n : forall m, low n m = true -> Acc (fun b a => mentions S a b) m.
Proof.
  induction n as [|n IH]; intros m H; constructor; intros b Hb; apply mentions_in in Hb; destruct Hb as (f & Hf & Hb);
    cbn [low] in H; rewrite forallb_forall in H; specialize (H f Hf); rewrite Hb in H; [discriminate|apply IH; exact H].
Qed.
Lemma low_or_path n : forall m, low n m = true \/ exists p, length p = n /\ exists b,
  (fix chain (a : nat) (p : list nat) : Prop := match p with [] => mentions S a b | x :: p => mentions S a x /\ chain x p end) m p.
Proof.
  induction n as [|n IH]; intros m.
  - destruct (low 0 m) eqn:E; [left; reflexivity|right]. exists []. split; [reflexivity|].
    cbn [low] in E. assert (G : exists f, In f (rfields_of S m) /\ match target f with Some _ => false | None => true end = false).
    { revert E. generalize (rfields_of S m). induction l as [|f l IHl]; cbn; intros E; [discriminate|].
      destruct (target f) eqn:T; [exists f; rewrite T; auto|]. destruct (IHl E) as (g & Hg & Tg). exists g. auto. }
    destruct G as (f & Hf & T). destruct (target f) as [b|] eqn:Tf; [|discriminate]. exists b. apply mentions_in. eauto.
  - destruct (low (sc n) m) eqn:E; [left; reflexivity|right]. cbn [low] in E.
    assert (G : exists f b, In f (rfields_of S m) /\ target f = Some b /\ low n b = false).
    { revert E. generalize (rfields_of S m). induction l as [|f l IHl]; cbn; intros E; [discriminate|].
      destruct (target f) as [b|] eqn:T.
      - destruct (low n b) eqn:Lb; [|exists f, b; auto]. cbn in E. destruct (IHl E) as (g & b' & Hg & X). exists g, b'. auto.
      - cbn in E. destruct (IHl E) as (g & b' & Hg & X). exists g, b'. auto. }
    destruct G as (f & b & Hf & T & Lb). destruct (IH b) as [X|(p & Lp & e & C)]; [congruence|].
    exists (b :: p). split; [cbn; lia|]. exists e. split; [apply mentions_in; eauto|exact C].
Qed.
Lemma mentions_lt a b : mentions S a b -> (a < length S)%nat.
Proof.
  intros (f & Hf & _). destruct (Nat.lt_ge_cases a (length S)) as [L|L]; [exact L|].
  unfold rfields_of in Hf. rewrite nth_overflow in Hf by exact L. destruct Hf.
Qed.
Lemma reaches_trans a b c : reaches S a b -> reaches S b c -> reaches S a c.
Proof. induction 1; intros H2; [exact H2|]. eapply reaches_step; eauto. Qed.
Definition chain (e : nat) := fix chain (a : nat) (p : list nat) : Prop := match p with [] => mentions S a e | x :: p => mentions S a x /\ chain x p end.
Lemma chain_reach e : forall p a x, chain e a p -> In x p -> exists b, mentions S a b /\ reaches S b x.
Proof.
  induction p as [|y p IH]; intros a x C Hx; [destruct Hx|]. destruct C as [C1 C]. exists y. split; [exact C1|].
  destruct Hx as [->|Hx]; [constructor|]. destruct (IH y x C Hx) as (b & M & R). eapply reaches_step; eassumption.
Qed.
Lemma chain_nodup e a p : chain e a p -> (forall n, reaches S a n -> ~ exists k, mentions S n k /\ reaches S k n) ->
  NoDup (a :: p) /\ Forall (fun x => (x < length S)%nat) (a :: p).
Proof.
  revert a. induction p as [|y p IH]; intros a C HA.
  - split; [repeat constructor; intros []|]. constructor; [eapply mentions_lt; exact C|constructor].
  - pose proof C as C0. destruct C as [C1 C]. destruct (IH y C) as [N F].
    { intros n Hn. apply HA. eapply reaches_step; eassumption. }
    split; [|constructor; [eapply mentions_lt; exact C1|exact F]]. constructor; [|exact N].
    intros Hin. destruct (chain_reach e (y :: p) a a C0 Hin) as (b & M & R). apply (HA a (reaches_refl S a)). eauto.
Qed.
Lemma nodup_bound (l : list nat) n : NoDup l -> Forall (fun x => (x < n)%nat) l -> (length l <= n)%nat.
Proof.
  intros N F. rewrite <- (seq_length n 0). apply NoDup_incl_length; [exact N|]. intros x Hx. rewrite Forall_forall in F.
  specialize (F x Hx). apply in_seq. lia.
Qed.
Lemma acyclic_low m : (forall n, reaches S m n -> ~ exists k, mentions S n k /\ reaches S k n) -> low (length S) m = true.
Proof.
  intros HA. destruct (low_or_path (length S) m) as [H|(p & Lp & e & C)]; [exact H|]. exfalso.
  change (chain e m p) in C. destruct (chain_nodup e m p C HA) as [N F]. pose proof (nodup_bound _ _ N F) as B. cbn [length] in B. lia.
Qed.
Lemma acc_acyclic m : Acc (fun b a => mentions S a b) m -> forall n, reaches S m n -> ~ exists k, mentions S n k /\ reaches S k n.
Proof.
  intros HA n R. assert (Hn : Acc (fun b a => mentions S a b) n).
  { induction R; [exact HA|]. apply IHR. eapply Acc_inv; [exact HA|exact H]. }
  clear R HA m. induction Hn as [n _ IH]. intros (k & M & R). apply (IH k M). 
  destruct R as [k|k b n M2 R2]; [exists k; split; [exact M|constructor]|].
  exists b. split; [exact M2|]. eapply reaches_trans; [exact R2|]. eapply reaches_step; [exact M|constructor].
Qed.

(** ** traverseFields *)
Definition visit_field (fuel : nat) (f : rfield) (d : deps) : option deps :=
  match f with
  | ROne (RMsg q) | RMany (RMsg q) => visit S (traverse S fuel) q d
  | RMapOf _ (RMsg q) => match fuel with O => None | sc fuel => visit S (traverse S fuel) q (set_maps d) end
  | RMapOf _ _ => match fuel with O => None | _ => Some (set_maps d) end
  | _ => Some d
  end.
Definition walk (g : rfield -> deps -> option deps) :=
  fix each (fs : list rfield) (d : deps) : option deps :=
    match fs with [] => Some d | f :: fs => match g f d with Some d => each fs d | None => None end end.
Lemma traverse_eq fuel m d : traverse S (sc fuel) m d = walk (visit_field fuel) (rfields_of S m) d.
Proof. reflexivity. Qed.
Lemma walk_total g : forall fs d, (forall f d, In f fs -> g f d <> None) -> walk g fs d <> None.
Proof.
  induction fs as [|f fs IH]; intros d H; [discriminate|]. cbn. destruct (g f d) eqn:E; [|exfalso; eapply H; [left; reflexivity|exact E]].
  apply IH. intros h dh Hh. apply H. right; exact Hh.
Qed.
Lemma walk_inv g (P : rfield -> Prop) : (forall f d d', g f d = Some d' -> P f) ->
  forall fs d d', walk g fs d = Some d' -> Forall P fs.
Proof.
  intros H. induction fs as [|f fs IH]; intros d d' E; [constructor|]. cbn in E. destruct (g f d) eqn:Eg; [|discriminate].
  constructor; [eapply H; exact Eg|eapply IH; exact E].
Qed.
Lemma walk_maps g (P : rfield -> Prop) : (forall f d d', g f d = Some d' -> Enums d' = Enums d /\ (Maps d' = true <-> Maps d = true \/ P f)) ->
  forall fs d d', walk g fs d = Some d' -> Enums d' = Enums d /\ (Maps d' = true <-> Maps d = true \/ Exists P fs).
Proof.
  intros H. induction fs as [|f fs IH]; intros d d' E; cbn in E.
  - injection E as <-. split; [reflexivity|]. split; [auto|]. intros [X|X]; [exact X|inversion X].
  - destruct (g f d) as [d1|] eqn:Eg; [|discriminate]. destruct (H _ _ _ Eg) as [E1 M1]. destruct (IH _ _ E) as [E2 M2].
    split; [congruence|]. rewrite M2, M1, Exists_cons. tauto.
Qed.
Lemma traverse_total n : forall m fuel d, low n m = true -> (2 * n + 2 <= fuel)%nat -> traverse S fuel m d <> None.
Proof.
  induction n as [|n IH]; intros m fuel d H Hf; (destruct fuel as [|fuel]; [lia|]); rewrite traverse_eq; apply walk_total;
    intros f d0 Hin; cbn [low] in H; rewrite forallb_forall in H; specialize (H f Hin).
  - destruct f as [[| |]|[| |]|k [| |]]; cbn in H; try discriminate H; cbn; try discriminate; destruct fuel; (lia || discriminate).
  - destruct f as [[| |b]|[| |b]|k [| |b]]; cbn [target] in H; cbn [visit_field]; try discriminate.
    1,2: unfold visit; destruct (nth b S []); [discriminate|]; apply IH; [exact H|lia].
    1,2: destruct fuel; (lia || discriminate).
    destruct fuel as [|fuel]; [lia|]. unfold visit. destruct (nth b S []); [discriminate|]. apply IH; [exact H|lia].
Qed.
Lemma visit_acc fuel b d d' : (forall m d d', traverse S fuel m d = Some d' -> Acc (fun b a => mentions S a b) m) ->
  visit S (traverse S fuel) b d = Some d' -> Acc (fun b a => mentions S a b) b.
Proof.
  intros IH E. unfold visit in E. destruct (nth b S []) as [|f fs] eqn:N; [|eapply IH; exact E].
  constructor. intros c (f & Hf & _). unfold rfields_of in Hf. rewrite N in Hf. destruct Hf.
Qed.
Lemma traverse_acc : forall fuel m d d', traverse S fuel m d = Some d' -> Acc (fun b a => mentions S a b) m.
Proof.
  induction fuel as [fuel IH] using lt_wf_ind. intros m d d' E. destruct fuel as [|fuel]; [discriminate|]. rewrite traverse_eq in E.
  assert (F := walk_inv (visit_field fuel) (fun f => forall b, target f = Some b -> Acc (fun b a => mentions S a b) b)).
  specialize (F (fun f d d' Hf b Tb => ltac:(
    destruct f as [[| |q]|[| |q]|k [| |q]]; cbn in Tb; try discriminate Tb; injection Tb as <-; cbn [visit_field] in Hf;
    [eapply visit_acc; [|exact Hf]; apply IH; lia|eapply visit_acc; [|exact Hf]; apply IH; lia|
     destruct fuel as [|fuel]; [discriminate|]; eapply visit_acc; [|exact Hf]; apply IH; lia])) _ _ _ E).
  rewrite Forall_forall in F. constructor. intros b Hb. apply mentions_in in Hb. destruct Hb as (f & Hf & Tf). exact (F f Hf b Tf).
Qed.
Definition sees (m : nat) : Prop := exists n, reaches S m n /\ has_map S n.
Lemma sees_unfold m : sees m <-> Exists (fun f => (exists k t, f = RMapOf k t) \/ exists b, target f = Some b /\ sees b) (rfields_of S m).
Proof.
  rewrite Exists_exists. split.
  - intros (n & R & (k & t & Hin)). destruct R as [n|m b n M R].
    + exists (RMapOf k t). split; [exact Hin|]. left; eauto.
    + apply mentions_in in M. destruct M as (f & Hf & T). exists f. split; [exact Hf|]. right. exists b. split; [exact T|]. exists n. split; [exact R|]. exists k, t. exact Hin.
  - intros (f & Hf & [(k & t & ->)|(b & T & n & R & M)]).
    + exists m. split; [constructor|]. exists k, t. exact Hf.
    + exists n. split; [|exact M]. eapply reaches_step; [|exact R]. apply mentions_in. eauto.
Qed.
Lemma traverse_maps : forall fuel m d d', traverse S fuel m d = Some d' ->
  Enums d' = Enums d /\ (Maps d' = true <-> Maps d = true \/ sees m).
Proof.
  induction fuel as [fuel IH] using lt_wf_ind. intros m d d' E. destruct fuel as [|fuel]; [discriminate|]. rewrite traverse_eq in E.
  assert (V : forall fu b d d', (fu <= fuel)%nat -> visit S (traverse S fu) b d = Some d' -> Enums d' = Enums d /\ (Maps d' = true <-> Maps d = true \/ sees b)).
  { intros fu b d1 d2 L Ev. unfold visit in Ev. destruct (nth b S []) as [|f fs] eqn:N; [|eapply IH; [|exact Ev]; lia].
    injection Ev as <-. split; [reflexivity|]. split; [auto|]. intros [X|X]; [exact X|]. apply sees_unfold in X. unfold rfields_of in X. rewrite N in X. inversion X. }
  rewrite (sees_unfold m). eapply walk_maps; [|exact E]. clear E m d d'. intros f d d' E.
  assert (NT : forall k t, f = RMapOf k t -> exists k t, f = RMapOf k t) by eauto.
  destruct f as [[| |q]|[| |q]|k [| |q]]; cbn [visit_field] in E.
  1,2,4,5: injection E as <-; split; [reflexivity|]; split; [auto|]; intros [X|[(k' & t' & X)|(b & X & _)]]; [exact X|discriminate X|discriminate X].
  1,2: destruct (V _ _ _ _ (Nat.le_refl _) E) as [E1 M1]; split; [exact E1|]; rewrite M1; split; (intros [X|X]; [left; exact X|right]);
    [right; exists q; split; [reflexivity|exact X]|destruct X as [(k' & t' & X)|(b & X & Y)]; [discriminate X|injection X as ->; exact Y]].
  1,2: destruct fuel as [|fuel]; [discriminate|]; injection E as <-; split; [reflexivity|]; split; [intros _; right; left; eauto|reflexivity].
  destruct fuel as [|fuel]; [discriminate|]. destruct (V fuel q (set_maps d) d' ltac:(lia) E) as [E1 M1]. split; [exact E1|]. split; [intros _; right; left; eauto|].
  intros _. apply M1. left. reflexivity.
Qed.

(** ** DependencyAnalysis *)
Definition fold_deps (fuel : nat) := fold_left (fun o m => match o with Some d => traverse S fuel m d | None => None end).
Lemma fold_none fuel ms : fold_deps fuel ms None = None.
Proof. induction ms as [|m ms IH]; [reflexivity|exact IH]. Qed.
Lemma fold_inv fuel : forall ms d d', fold_deps fuel ms (Some d) = Some d' ->
  Forall (fun m => Acc (fun b a => mentions S a b) m) ms /\ Enums d' = Enums d /\ (Maps d' = true <-> Maps d = true \/ Exists sees ms).
Proof.
  induction ms as [|m ms IH]; intros d d' E.
  - injection E as <-. split; [constructor|]. split; [reflexivity|]. split; [auto|]. intros [X|X]; [exact X|inversion X].
  - change (fold_deps fuel ms (traverse S fuel m d) = Some d') in E. destruct (traverse S fuel m d) as [d1|] eqn:T; [|rewrite fold_none in E; discriminate].
    destruct (IH _ _ E) as (A & E1 & M1). destruct (traverse_maps _ _ _ _ T) as [E2 M2].
    split; [constructor; [eapply traverse_acc; exact T|exact A]|]. split; [congruence|]. rewrite M1, M2, Exists_cons. tauto.
Qed.
Lemma fold_total fuel ms : Forall (fun m => low (length S) m = true) ms -> (2 * length S + 2 <= fuel)%nat -> forall d, fold_deps fuel ms (Some d) <> None.
Proof.
  intros F L. induction F as [|m ms Hm _ IH]; intros d; [discriminate|].
  change (fold_deps fuel ms (traverse S fuel m d) <> None). pose proof (traverse_total _ m fuel d Hm L). destruct (traverse S fuel m d); [apply IH|congruence].
Qed.
Definition no_cycle_from (m : nat) : Prop := forall n, reaches S m n -> ~ exists k, mentions S n k /\ reaches S k n.
Theorem deps_terminates f :
  (exists fuel d, DependencyAnalysis S fuel f = Some d) <-> forall m, In m (top f) -> no_cycle_from m.
Proof.
  split.
  - intros (fuel & d & E). destruct (fold_inv _ _ _ _ E) as (A & _). rewrite Forall_forall in A. intros m Hm. exact (acc_acyclic m (A m Hm)).
  - intros H. exists (2 * length S + 2)%nat.
    pose proof (fold_total (2 * length S + 2) (top f)) as X. destruct (DependencyAnalysis S (2 * length S + 2) f) as [d|] eqn:E; [eauto|].
    exfalso. eapply X; [apply Forall_forall; intros m Hm; apply acyclic_low; apply H; exact Hm|lia|exact E].
Qed.
Theorem deps_stack f fuel : (forall m, In m (top f) -> no_cycle_from m) -> (2 * length S + 2 <= fuel)%nat ->
  exists d, DependencyAnalysis S fuel f = Some d.
Proof.
  intros H L. pose proof (fold_total fuel (top f)) as X. destruct (DependencyAnalysis S fuel f) as [d|] eqn:E; [eauto|].
  exfalso. eapply X; [apply Forall_forall; intros m Hm; apply acyclic_low; apply H; exact Hm|lia|exact E].
Qed.
Theorem deps_result fuel f d : DependencyAnalysis S fuel f = Some d ->
  (Enums d = true <-> enums f <> 0%nat) /\
  (Maps d = true <-> exists m n, In m (top f) /\ reaches S m n /\ has_map S n).
Proof.
  intros E. destruct (fold_inv _ _ _ _ E) as (_ & EE & EM). cbn [Enums Maps] in *. split.
  - rewrite EE. destruct (Nat.eqb_spec (enums f) 0) as [->|N]; cbn; split; congruence.
  - rewrite EM, Exists_exists. split; [intros [X|(m & Hm & n & X)]; [discriminate X|exists m, n; tauto]|]. intros (m & n & Hm & X). right. exists m. split; [exact Hm|]. exists n. exact X.
Qed.
End Deps.
