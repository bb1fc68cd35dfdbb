(** Termination of generated decoders. *)
From Coq Require Import String.
From Verif Require Import Base Spec SpecProofs GoSpec GoIdeal GoProps GoThms GoThms2 GoThms3 BufSpec GenTables GenModel GenSpec GenLemmas GenFields GenDec GenThms GenThms2 GenThms3 GenTerm.
From Verif Require V1Model V2Model.

(** ** More stack never changes a result *)
Definition below {A} (x y : gres A) : Prop := x = GDeep \/ x = y.
Lemma below_refl {A} (x : gres A) : below x x. Proof. right. reflexivity. Qed.
Lemma below_bind {A B} (x x' : gres A) (k k' : bytes -> A -> gres B) : below x x' ->
  (forall r a, below (k r a) (k' r a)) -> below (gbind x k) (gbind x' k').
Proof. intros [->| ->] H; [left; reflexivity|]. destruct x'; cbn; try apply below_refl. apply H. Qed.
Lemma New_mono v2 S : forall fuel fuel' m, (fuel <= fuel')%nat -> below (New v2 S fuel m) (New v2 S fuel' m).
Proof.
  induction fuel as [|fuel IH]; intros fuel' m H.
  - cbn [New]. destruct fuel'; [apply below_refl|]. cbn [New]. destruct (nth_error S m); [|apply below_refl].
    destruct v2; [apply below_refl|]. left. reflexivity.
  - destruct fuel' as [|fuel']; [lia|]. cbn [New]. destruct (nth_error S m) as [fs|]; [|apply below_refl].
    destruct v2; [apply below_refl|]. induction fs as [|f fs IHf]; [apply below_refl|].
    apply below_bind.
    + destruct f as [[k|q]|t|k t]; try apply below_refl. apply below_bind; [apply IH; lia|]. intros; apply below_refl.
    + intros r x. apply below_bind; [exact IHf|]. intros; apply below_refl.
Qed.
Section Mono.
Variable v2 : bool.
Variable prim : option bytes -> request -> bytes -> outcome.
Variable S : schema.
Lemma if_nil_below {A} b (y y' n n' : bytes -> gres A) : (forall r, below (y r) (y' r)) -> (forall r, below (n r) (n' r)) ->
  below (if_nil prim b y n) (if_nil prim b y' n').
Proof. intros H1 H2. unfold if_nil. destruct (prim None RNil b); auto. apply below_refl. Qed.
Lemma call_below {A} dst q b (k k' : bytes -> value -> gres A) : (forall r v, below (k r v) (k' r v)) ->
  below (call prim dst q b k) (call prim dst q b k').
Proof. intros H. unfold call. destruct (prim dst q b); auto; apply below_refl. Qed.
Section Step.
Variables (fuel fuel' : nat) (rec rec' : nat -> list gval -> bytes -> gres (list gval)).
Hypothesis HF : (fuel <= fuel')%nat.
Hypothesis HR : forall m x b, below (rec m x b) (rec' m x b).
Lemma or_new_below m x : below (or_new v2 S fuel m x) (or_new v2 S fuel' m x).
Proof. destruct x as [| | |[|]]; try apply below_refl. apply New_mono. exact HF. Qed.
Lemma elems_below t : forall xs b, below (dec_elems v2 prim S fuel rec t xs b) (dec_elems v2 prim S fuel' rec' t xs b).
Proof.
  induction xs as [|x xs IH]; intros b; cbn [dec_elems]; [apply below_refl|]. apply below_bind.
  - destruct t as [k|m]; [apply below_refl|]. apply below_bind; [apply or_new_below|]. intros _ s.
    apply below_bind; [apply HR|]. intros; apply below_refl.
  - intros r y. apply below_bind; [apply IH|]. intros; apply below_refl.
Qed.
Lemma entries_below kk t : forall n l b, below (dec_entries v2 prim S fuel rec kk t n l b) (dec_entries v2 prim S fuel' rec' kk t n l b).
Proof.
  induction n as [|n IH]; intros l b; cbn [dec_entries]; [apply below_refl|]. apply below_bind; [apply below_refl|].
  intros r k. apply below_bind.
  - destruct t as [k2|m]; [apply below_refl|]. apply below_bind; [apply New_mono; exact HF|]. intros _ s.
    apply below_bind; [apply HR|]. intros; apply below_refl.
  - intros r2 y. apply IH.
Qed.
Lemma slice_below f old b : below (dec_slice v2 prim S fuel rec f old b) (dec_slice v2 prim S fuel' rec' f old b).
Proof.
  destruct f as [|t|]; try apply below_refl. destruct old; try apply below_refl. cbn [dec_slice].
  destruct (kind_number (go_GetKind (tkind t))); [|apply below_refl]. apply call_below. intros r v.
  destruct v; try apply below_refl. apply below_bind; [apply elems_below|]. intros; apply below_refl.
Qed.
Lemma message_below f old b : below (dec_message v2 prim S fuel rec f old b) (dec_message v2 prim S fuel' rec' f old b).
Proof.
  destruct f as [[|m]|t|kk t]; try apply below_refl; cbn [dec_message].
  - destruct v2 eqn:Ev.
    + apply if_nil_below; [intros; apply below_refl|]. intros r. apply below_bind; [apply New_mono; exact HF|]. intros _ s.
      apply below_bind; [apply HR|]. intros; apply below_refl.
    + apply below_bind; [rewrite <- Ev; apply or_new_below|]. intros _ s.
      apply below_bind; [apply HR|]. intros; apply below_refl.
  - apply if_nil_below; [intros; apply below_refl|]. intros r.
    destruct (kind_number (go_GetKind kk)); [|apply below_refl]. destruct (kind_number (go_GetKind (tkind t))); [|apply below_refl].
    apply call_below. intros r2 v. destruct v; try apply below_refl.
    apply below_bind; [apply entries_below|]. intros; apply below_refl.
Qed.
Lemma pass_below step step' fs : (forall f old b, below (step f old b) (step' f old b)) ->
  forall is x b, below (pass step fs is x b) (pass step' fs is x b).
Proof.
  intros H. induction is as [|i is IH]; intros x b; cbn [pass]; [apply below_refl|].
  destruct (nth_error fs i); [|apply below_refl]. destruct (nth_error x i); [|apply below_refl].
  apply below_bind; [apply H|]. intros; apply IH.
Qed.
End Step.
Theorem decode_mono : forall fuel fuel' m x b, (fuel <= fuel')%nat ->
  below (decode v2 prim S fuel m x b) (decode v2 prim S fuel' m x b).
Proof.
  induction fuel as [|fuel IH]; intros fuel' m x b H; [left; reflexivity|]. destruct fuel' as [|fuel']; [lia|].
  assert (HF : (fuel <= fuel')%nat) by lia. cbn [decode].
  apply if_nil_below; [intros; apply below_refl|]. intros r. destruct (nth_error S m) as [fs|]; [|apply below_refl].
  destruct (getFields go_decodeLUT fs 0) as [[[o sl] ms]|]; [|apply below_refl].
  apply below_bind; [apply below_refl|]. intros r1 x1. apply below_bind.
  - apply pass_below. intros f old b'. apply slice_below; [exact HF|]. intros; apply IH; exact HF.
  - intros r2 x2. apply pass_below. intros f old b'. apply message_below; [exact HF|]. intros; apply IH; exact HF.
Qed.
End Mono.

(** ** Deciding [vacuous] *)
Fixpoint vac (v2 : bool) (S : schema) (n : nat) (m : nat) : bool :=
  match n with
  | O => false
  | Datatypes.S n => (m <? length S)%nat && forallb (fun f => match f with
      | One (Scalar KBytes) => v2
      | One (Msg q) => vac v2 S n q
      | _ => false end) (fields_of S m)
  end.
Lemma vac_sound v2 S n m : vac v2 S n m = true -> vacuous v2 S m.
Proof.
  revert m. induction n as [|n IH]; intros m H; [discriminate|]. cbn [vac] in H. apply andb_prop in H. destruct H as [L H].
  constructor; [apply Nat.ltb_lt; exact L|]. rewrite forallb_forall in H. intros f Hf. specialize (H f Hf).
  destruct f as [[k|q]|t|k t]; try discriminate H.
  - destruct k; try discriminate H. left. auto.
  - right. eauto.
Qed.
Lemma vac_mono v2 S n m : vac v2 S n m = true -> vac v2 S (Datatypes.S n) m = true.
Proof.
  revert m. induction n as [|n IH]; intros m H; [discriminate|]. cbn [vac] in H. apply andb_prop in H. destruct H as [L H].
  cbn [vac]. rewrite L. cbn [andb]. rewrite forallb_forall in *. intros f Hf. specialize (H f Hf).
  destruct f as [[k|q]|t|k t]; try discriminate H; [destruct k; try discriminate H; exact H|]. exact (IH q H).
Qed.
Lemma vac_mono' v2 S n n' m : (n <= n')%nat -> vac v2 S n m = true -> vac v2 S n' m = true.
Proof. induction 1; auto. intros. apply vac_mono. auto. Qed.
Definition count (v2 : bool) (S : schema) (n : nat) : nat := length (filter (vac v2 S n) (seq 0 (length S))).
Lemma filter_le {A} (p q : A -> bool) l : (forall x, p x = true -> q x = true) ->
  (length (filter p l) <= length (filter q l))%nat /\
  (length (filter p l) = length (filter q l) -> forall x, In x l -> q x = true -> p x = true).
Proof.
  intros H. induction l as [|a l (IH1 & IH2)]; [split; [cbn; lia|intros _ x []]|]. cbn [filter].
  destruct (p a) eqn:Ep.
  - rewrite (H a Ep). cbn [length]. split; [lia|]. intros E x [<-|Hx] Hq; [exact Ep|]. apply IH2; auto; lia.
  - destruct (q a) eqn:Eq; cbn [length].
    + split; [lia|]. intros E. lia.
    + split; [lia|]. intros E x [<-|Hx] Hq; [congruence|]. apply IH2; auto; lia.
Qed.
Lemma vac_stable v2 S n : (forall m, vac v2 S (Datatypes.S n) m = true -> vac v2 S n m = true) ->
  forall k m, vac v2 S k m = true -> vac v2 S n m = true.
Proof.
  intros H. assert (G : forall k m, vac v2 S (k + n) m = true -> vac v2 S n m = true).
  { induction k as [|k IH]; intros m E; [exact E|]. apply H. cbn [Nat.add vac] in E. cbn [vac].
    apply andb_prop in E. destruct E as [L E]. rewrite L. cbn [andb]. rewrite forallb_forall in *. intros f Hf. specialize (E f Hf).
    destruct f as [[kk|q]|t|kk t]; try discriminate E; [destruct kk; try discriminate E; exact E|]. exact (IH q E). }
  intros k m E. apply (G k). eapply vac_mono'; [|exact E]. lia.
Qed.
Lemma vac_length v2 S : forall k m, vac v2 S k m = true -> vac v2 S (length S) m = true.
Proof.
  assert (D : forall n, (n <= count v2 S n)%nat \/ (exists j, (j <= n)%nat /\ forall m, vac v2 S (Datatypes.S j) m = true -> vac v2 S j m = true)).
  { induction n as [|n IH]; [left; lia|]. destruct IH as [IH|(j & Hj & H)]; [|right; exists j; split; [lia|exact H]].
    destruct (filter_le (vac v2 S n) (vac v2 S (Datatypes.S n)) (seq 0 (length S)) (vac_mono v2 S n)) as [H1 H2].
    fold (count v2 S n) in *. fold (count v2 S (Datatypes.S n)) in *.
    destruct (Nat.eq_dec (count v2 S n) (count v2 S (Datatypes.S n))) as [E|E]; [|left; lia].
    right. exists n. split; [lia|]. intros m Hm. apply H2; auto.
    apply in_seq. cbn [vac] in Hm. apply andb_prop in Hm. destruct Hm as [L _]. apply Nat.ltb_lt in L. lia. }
  intros k m E. destruct (D (length S)) as [C|(j & Hj & H)].
  - (* all types are vacuous after [length S] rounds *)
    assert (L : (m < length S)%nat).
    { destruct k; [discriminate|]. cbn [vac] in E. apply andb_prop in E. apply Nat.ltb_lt. apply E. }
    destruct (filter_le (vac v2 S (length S)) (fun _ => true) (seq 0 (length S)) (fun _ _ => eq_refl)) as [H1 H2].
    apply H2; auto; [|apply in_seq; lia].
    fold (count v2 S (length S)) in *. assert (F : forall l : list nat, filter (fun _ => true) l = l) by (induction l; cbn; congruence).
    rewrite F, seq_length in *. lia.
  - eapply vac_mono'; [exact Hj|]. eapply vac_stable; eassumption.
Qed.
Lemma vac_complete v2 S m : vacuous v2 S m -> vac v2 S (length S) m = true.
Proof.
  intros H. enough (exists k, vac v2 S k m = true) as (k & E) by (eapply vac_length; exact E).
  revert m H. fix F 2. intros m [m' L H].
  assert (H' : forall f, In f (fields_of S m') -> (v2 = true /\ f = One (Scalar KBytes)) \/ exists q k, f = One (Msg q) /\ vac v2 S k q = true).
  { intros f Hf. destruct (H f Hf) as [E|(q & E & Hq)]; [left; exact E|]. right. destruct (F q Hq) as (k & Ek). exists q, k. auto. }
  clear H F. revert H'.
  assert (G : forall fs, (forall f, In f fs -> (v2 = true /\ f = One (Scalar KBytes)) \/ exists q k, f = One (Msg q) /\ vac v2 S k q = true) ->
    exists k, forallb (fun f => match f with One (Scalar KBytes) => v2 | One (Msg q) => vac v2 S k q | _ => false end) fs = true).
  { induction fs as [|f fs IH]; intros Hf; [exists 0%nat; reflexivity|].
    destruct IH as (k & E). { intros g Hg. apply Hf. right; exact Hg. }
    destruct (Hf f (or_introl eq_refl)) as [(-> & ->)|(q & k' & -> & E')].
    - exists k. cbn [forallb]. exact E.
    - exists (k + k')%nat. cbn [forallb].
      rewrite (vac_mono' v2 S k' (k + k') q ltac:(lia) E'). cbn [andb].
      rewrite forallb_forall in *. intros g Hg. specialize (E g Hg). destruct g as [[kk|q']|t|kk t]; try discriminate E; [destruct kk; try discriminate E; exact E|].
      eapply vac_mono'; [|exact E]. lia. }
  intros H. destruct (G (fields_of S m') H) as (k & E). exists (Datatypes.S k). cbn [vac]. apply Nat.ltb_lt in L. rewrite L. exact E.
Qed.
Lemma vacuous_dec v2 S m : vacuous v2 S m \/ ~ vacuous v2 S m.
Proof.
  destruct (vac v2 S (length S) m) eqn:E; [left; eapply vac_sound; exact E|]. right. intros H. apply vac_complete in H. congruence.
Qed.

(** ** Heights *)
Lemma forall_dec {A} (P Q : A -> Prop) l : (forall x, P x \/ ~ P x) -> (forall x, In x l -> P x) \/ ~ (forall x, In x l -> P x).
Proof.
  intros D. induction l as [|a l IH]; [left; intros x []|]. destruct (D a) as [Ha|Ha].
  - destruct IH as [IH|IH]; [left; intros x [<-|Hx]; auto|]. right. intros H. apply IH. intros x Hx. apply H. right; exact Hx.
  - right. intros H. apply Ha. apply H. left; reflexivity.
Qed.
Lemma left_dec v2 S a b : left_edge v2 S a b \/ ~ left_edge v2 S a b.
Proof.
  unfold left_edge.
  assert (D1 : (forall f, In f (fields_of S a) -> is_repeated f = false /\ (is_scalar f = true -> v2 = true /\ f = One (Scalar KBytes))) \/
     ~ (forall f, In f (fields_of S a) -> is_repeated f = false /\ (is_scalar f = true -> v2 = true /\ f = One (Scalar KBytes)))).
  { apply (forall_dec _ (fun _ => True)). intros f. destruct f as [[k|m]|t|k t]; cbn.
    - destruct v2; [|right; intros [_ H]; destruct (H eq_refl); discriminate].
      destruct k; try (right; intros [_ H]; destruct (H eq_refl) as [_ C]; discriminate C). left. auto.
    - left. split; [reflexivity|discriminate].
    - right. intros [H _]. discriminate.
    - left. split; [reflexivity|discriminate]. }
  destruct D1 as [D1|D1]; [|right; tauto].
  enough (D2 : forall fs, (exists pre post, fs = pre ++ One (Msg b) :: post /\
      forall f, In f pre -> is_message f = true -> exists q, f = One (Msg q) /\ vacuous v2 S q) \/
    ~ (exists pre post, fs = pre ++ One (Msg b) :: post /\
      forall f, In f pre -> is_message f = true -> exists q, f = One (Msg q) /\ vacuous v2 S q)).
  { destruct (D2 (fields_of S a)) as [H|H]; [left; auto|right; tauto]. }
  induction fs as [|f fs IH]; [right; intros ([|] & post & E & _); discriminate|].
  assert (DF : f = One (Msg b) \/ f <> One (Msg b)).
  { destruct f as [[k|m]|t|k t]; try (right; discriminate). destruct (Nat.eq_dec m b) as [->|]; [left; reflexivity|right; congruence]. }
  destruct DF as [->|DF]; [left; exists [], fs; split; [reflexivity|intros f []]|].
  assert (DV : (is_message f = true -> exists q, f = One (Msg q) /\ vacuous v2 S q) \/ ~ (is_message f = true -> exists q, f = One (Msg q) /\ vacuous v2 S q)).
  { destruct f as [[k|m]|t|k t]; try (left; discriminate).
    - destruct (vacuous_dec v2 S m) as [V|V]; [left; eauto|]. right. intros H. destruct (H eq_refl) as (q & E & Hq). injection E as <-. auto.
    - right. intros H. destruct (H eq_refl) as (q & E & Hq). discriminate. }
  destruct DV as [DV|DV].
  - destruct IH as [(pre & post & -> & H)|IH].
    + left. exists (f :: pre), post. split; [reflexivity|]. intros g [<-|Hg]; auto.
    + right. intros ([|g pre] & post & E & H); [injection E as -> _; congruence|]. injection E as -> E. apply IH. exists pre, post. split; [exact E|].
      intros h Hh. apply H. right; exact Hh.
  - right. intros ([|g pre] & post & E & H); [injection E as -> _; congruence|]. injection E as -> E. apply DV. apply H. left; reflexivity.
Qed.
Fixpoint tall (v2 : bool) (S : schema) (h m : nat) : Prop :=
  match h with O => False | Datatypes.S h => forall b, left_edge v2 S m b -> tall v2 S h b end.
Lemma tall_S v2 S h m : tall v2 S h m -> tall v2 S (Datatypes.S h) m.
Proof. revert m. induction h as [|h IH]; intros m H; [contradiction|]. intros b Hb. apply IH. apply H. exact Hb. Qed.
Lemma tall_mono v2 S h h' m : (h <= h')%nat -> tall v2 S h m -> tall v2 S h' m.
Proof. induction 1; auto. intros. apply tall_S. auto. Qed.
Lemma left_in v2 S a b : left_edge v2 S a b -> In (One (Msg b)) (fields_of S a).
Proof. intros (_ & pre & post & -> & _). apply in_app_iff. right; left; reflexivity. Qed.
Lemma acc_tall v2 S m : well_founded_at v2 S m -> exists h, tall v2 S h m.
Proof.
  intros A. induction A as [m _ IH].
  assert (G : forall fs, exists h, forall b, In (One (Msg b)) fs -> left_edge v2 S m b -> tall v2 S h b).
  { induction fs as [|f fs (h & IHf)]; [exists 0%nat; intros b []|].
    destruct f as [[k|q]|t|k t]; try (exists h; intros b [E|Hb]; [discriminate E|auto]).
    destruct (left_dec v2 S m q) as [Lq|Lq].
    - destruct (IH q Lq) as (h' & Hh'). exists (h + h')%nat. intros b [E|Hb] Hl.
      + injection E as ->. eapply tall_mono; [|exact Hh']. lia.
      + eapply tall_mono; [|apply IHf; assumption]. lia.
    - exists h. intros b [E|Hb] Hl; [injection E as ->; contradiction|auto]. }
  destruct (G (fields_of S m)) as (h & H). exists (Datatypes.S h). intros b Hb. apply H; [eapply left_in; exact Hb|exact Hb].
Qed.
Lemma all_tall v2 S : (forall m, (m < length S)%nat -> well_founded_at v2 S m) ->
  exists R, forall m, (m < length S)%nat -> tall v2 S R m.
Proof.
  intros H. assert (G : forall n, exists R, forall m, (m < n)%nat -> (m < length S)%nat -> tall v2 S R m).
  { induction n as [|n (R & IH)]; [exists 0%nat; intros; lia|].
    destruct (Nat.lt_ge_cases n (length S)) as [L|L].
    - destruct (acc_tall v2 S n (H n L)) as (h & Hh). exists (R + h)%nat. intros m Hm Hl.
      destruct (Nat.eq_dec m n) as [->|]; eapply tall_mono; [|exact Hh| |apply IH]; lia.
    - exists R. intros m Hm Hl. apply IH; lia. }
  destruct (G (length S)) as (R & HR). exists R. intros m L. apply HR; exact L.
Qed.
