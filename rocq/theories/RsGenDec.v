(** Decoding what was encoded: generated Rust code. *)
From Coq Require Import String.
From Verif Require Import Base Spec SpecProofs Utf8 GoSpec RustModel RustSpec RustDec RustThms RustEnc RustThms2 GenTables.
From Verif Require Import GenLemmas GenFields GenDec GenThms2 RsGenModel RsGenSpec RsGenLemmas.
From Verif Require Import GenModel GenSpec.
Import RustModel RsGenModel RsGenSpec.

(** ** first bytes *)
Definition starts (l : bytes) : Prop := exists a b u, l = a :: b :: u /\ a <> 0 /\ a <> 6.
Lemma starts_app l r : starts l -> starts (l ++ r).
Proof. intros (a & b & u & -> & H). exists a, b, (u ++ r). split; [reflexivity|exact H]. Qed.
Lemma starts_quiet l r : starts l -> quiet (l ++ r).
Proof. intros (a & b & u & -> & H0 & H6). right. exists a, b, (u ++ r). split; [reflexivity|]. split; [exact H0|]. intros [E _]; auto. Qed.
Lemma quiet_app l r : l = [] \/ starts l -> quiet r -> quiet (l ++ r).
Proof. intros [->|H] Q; [exact Q|apply starts_quiet; exact H]. Qed.
Lemma varint_ne n : exists b u, varint n = b :: u.
Proof. unfold varint. cbn [leb]. destruct (n <? 128); eauto. Qed.
Lemma holds_starts k v : holds k v -> starts (wire v).
Proof.
  intros [V H]. destruct k, v; try contradiction H; cbn [wire];
    match goal with
    | |- context[varint ?n] => destruct (varint_ne n) as (b0 & u0 & E); try rewrite E
    | _ => idtac
    end; do 3 eexists; (split; [reflexivity|split; discriminate]).
Qed.
Lemma group_starts (l : list (field * bytes)) p : (forall f b, In (f, b) l -> p f = true -> b = [] \/ starts b) ->
  group p l = [] \/ starts (group p l).
Proof.
  unfold group. induction l as [|[f b] l IH]; intros H; [left; reflexivity|]. cbn [filter fst].
  destruct (p f) eqn:E.
  - cbn [map concat snd]. destruct (H f b (or_introl eq_refl) E) as [->|Hb]; [|right; apply starts_app, Hb].
    apply IH. intros g c Hg. apply H. right; exact Hg.
  - apply IH. intros g c Hg. apply H. right; exact Hg.
Qed.
Lemma app_starts a b : a = [] \/ starts a -> b = [] \/ starts b -> a ++ b = [] \/ starts (a ++ b).
Proof. intros [->|H] K; [exact K|right; apply starts_app, H]. Qed.
Lemma zw_in {A B C} (g : A -> B -> C) xs fs y : In y (zw g xs fs) ->
  exists i x f, nth_error xs i = Some x /\ nth_error fs i = Some f /\ y = g x f.
Proof.
  intros H. apply In_nth_error in H. destruct H as [i H]. rewrite nth_error_zw in H.
  destruct (nth_error xs i) as [x|] eqn:Ex; [|discriminate]. destruct (nth_error fs i) as [f|] eqn:Ef; [|discriminate].
  injection H as <-. exists i, x, f. auto.
Qed.
Lemma slice_starts n k r : starts (wire (VSlice n k) ++ r).
Proof. cbn [wire]. do 3 eexists. split; [reflexivity|]. split; discriminate. Qed.
Lemma map_starts n k k' r : starts (wire (VMap n k k') ++ r).
Proof. cbn [wire]. do 3 eexists. split; [reflexivity|]. split; discriminate. Qed.

Lemma ready_starts S : forall x f, sent_type (forget S) x (forget_f f) -> ready S x f ->
  layout (forget S) x (forget_f f) = [] \/ starts (layout (forget S) x (forget_f f)).
Proof.
  induction x using gval_ind'; intros f HT HR.
  - destruct f as [[k|n|m]|t|k t]; try contradiction HT; right; [exact (holds_starts k v HT)|exact (holds_starts KEnum v HT)].
  - destruct f as [[k|n|m]|t|k t]; try contradiction HT. right. apply slice_starts.
  - destruct f as [[k|n|m]|t|k t]; try contradiction HT. right. cbn [layout forget_f]. rewrite <- (app_nil_r (wire _)). apply map_starts.
  - destruct f as [[k|n|m]|t|k t]; try contradiction HT. right. apply map_starts.
  - destruct f as [[k|n|m]|t|k t]; try contradiction HT. destruct HR as [[] _].
  - destruct f as [[k|n|m]|t|k t]; try contradiction HT. cbn [forget_f forget_t] in *.
    destruct (st_msg_r _ _ _ HT) as (L & Len & HT'). rewrite layout_msg. cbv zeta. rewrite forget_fields.
    assert (G : forall p, group p (zw (fun x f => (f, layout (forget S) x f)) xs (map forget_f (rfields_of S m))) = [] \/
                          starts (group p (zw (fun x f => (f, layout (forget S) x f)) xs (map forget_f (rfields_of S m))))).
    { intros p. apply group_starts. intros f b Hb _. apply zw_in in Hb. destruct Hb as (i & x & g & Ex & Eg & Eq).
      injection Eq as -> ->. rewrite nth_error_map in Eg. destruct (nth_error (rfields_of S m) i) as [f|] eqn:Ef; [|discriminate].
      injection Eg as <-. rewrite Forall_forall in H. apply H; [eapply nth_error_In; exact Ex|eapply HT'; eassumption|].
      exact (in_msg_nth _ _ _ _ Len HR _ _ _ Ex Ef). }
    apply app_starts; [apply G|]. apply app_starts; apply G.
Qed.

Lemma group_first (l : list (field * bytes)) p f b : (forall f b, In (f, b) l -> p f = true -> starts b) ->
  In (f, b) l -> p f = true -> starts (group p l).
Proof.
  unfold group. induction l as [|[g c] l IH]; intros H Hin Hp; [destruct Hin|]. cbn [filter fst].
  destruct (p g) eqn:E.
  - cbn [map concat snd]. apply starts_app. apply (H g c); [left; reflexivity|exact E].
  - apply IH; [intros g' c' Hg; apply H; right; exact Hg| |exact Hp].
    destruct Hin as [Eq|Hin]; [injection Eq as -> ->; congruence|exact Hin].
Qed.
Lemma group_none (l : list (field * bytes)) p : (forall f b, In (f, b) l -> p f = false) -> group p l = [].
Proof.
  unfold group. induction l as [|[g c] l IH]; intros H; [reflexivity|]. cbn [filter fst].
  rewrite (H g c (or_introl eq_refl)). apply IH. intros f b Hf. apply (H f b). right; exact Hf.
Qed.
Lemma first_message_group S : forall xs fs y, length xs = length fs -> existsb plain_field fs = false ->
  first_message xs fs = Some y -> exists i f u, nth_error xs i = Some y /\ nth_error fs i = Some f /\
    group is_message (zw (fun x f => (f, layout S x f)) xs fs) = layout S y f ++ u.
Proof.
  intros [|x xs] [|f fs] y L E H; try discriminate. cbn [existsb] in E. apply orb_false_elim in E. destruct E as [Ef E].
  cbn [first_message] in H. rewrite Ef in H. injection H as <-. exists 0%nat, f, (group is_message (zw (fun x f => (f, layout S x f)) xs fs)).
  split; [reflexivity|]. split; [reflexivity|]. unfold group. cbn [zw filter fst].
  assert (is_message f = true) as ->. { destruct f as [[|]| |]; try discriminate Ef; reflexivity. } reflexivity.
Qed.
(** Go-level: no assumption that the schema compiles *)
Lemma readable_starts S : forall x f, sent_type S x f -> readable S x f -> x <> GMsg None -> starts (layout S x f).
Proof.
  induction x using gval_ind'; intros f HT HR HN.
  - destruct f as [[k|m]|t|k t]; try contradiction HT. cbn. eapply holds_starts; exact HT.
  - destruct f as [[k|m]|t|k t]; try contradiction HT. apply slice_starts.
  - destruct f as [[k|m]|t|k t]; try contradiction HT. cbn [layout]. rewrite <- (app_nil_r (wire _)). apply map_starts.
  - destruct f as [[k|m]|t|k t]; try contradiction HT. apply map_starts.
  - congruence.
  - destruct f as [[k|m]|t|k t]; try contradiction HT. apply st_msg in HT. destruct HT as [L HT].
    pose proof (Forall2_length _ _ _ HT) as Len. apply ev_msg in HR; [|exact Len]. destruct HR as [HA HR].
    rewrite layout_msg. cbv zeta. rewrite Forall_forall in H. set (fs := fields_of S m) in *.
    assert (PL : forall i x f, nth_error xs i = Some x -> nth_error fs i = Some f -> x <> GMsg None -> starts (layout S x f)).
    { intros i x f Ex Ef Nx. apply H; [eapply nth_error_In; exact Ex| | |exact Nx].
      - exact (Forall2_nth _ _ _ _ _ _ HT Ex Ef).
      - exact (Forall2_nth _ _ _ _ _ _ HR Ex Ef). }
    assert (PL' : forall f b, In (f, b) (zw (fun x f => (f, layout S x f)) xs fs) -> plain_field f = true -> starts b).
    { intros f b Hb Pf. apply zw_in in Hb. destruct Hb as (i & x & g & Ex & Eg & Eq). injection Eq as -> ->. apply (PL i); auto.
      pose proof (Forall2_nth _ _ _ _ _ _ HT Ex Eg) as Tx. intros ->. destruct g as [[|]|[|]|]; cbn in Pf, Tx; try discriminate; contradiction. }
    destruct (existsb plain_field fs) eqn:EX.
    + apply existsb_exists in EX. destruct EX as (g & Hg & Pg). apply In_nth_error in Hg. destruct Hg as [j Ej].
      assert (Hj : (j < length xs)%nat) by (rewrite Len; apply nth_error_Some; congruence).
      destruct (nth_error_ex xs j Hj) as [x Ex].
      assert (Hin : In (g, layout S x g) (zw (fun x f => (f, layout S x f)) xs fs)).
      { apply nth_error_In with j. rewrite nth_error_zw, Ex, Ej. reflexivity. }
      destruct (is_scalar g) eqn:Sg.
      * apply starts_app. apply (group_first _ _ g (layout S x g)); auto. intros f b Hb Sf. apply (PL' f b Hb). destruct f as [[|]| |]; try discriminate Sf; reflexivity.
      * assert (Rg : is_repeated g = true) by (destruct g as [[|]| |]; try discriminate Pg; try discriminate Sg; reflexivity).
        assert (C : group is_scalar (zw (fun x f => (f, layout S x f)) xs fs) = [] \/ starts (group is_scalar (zw (fun x f => (f, layout S x f)) xs fs))).
        { apply group_starts. intros f b Hb Sf. right. apply (PL' f b Hb). destruct f as [[|]| |]; try discriminate Sf; reflexivity. }
        destruct C as [->|C]; [|apply starts_app; exact C]. cbn [app]. apply starts_app. apply (group_first _ _ g (layout S x g)); auto.
        intros f b Hb Sf. apply (PL' f b Hb). destruct f as [[|]| |]; try discriminate Sf; reflexivity.
    + assert (NP : forall f b, In (f, b) (zw (fun x f => (f, layout S x f)) xs fs) -> plain_field f = false).
      { intros f b Hb. apply zw_in in Hb. destruct Hb as (i & x & g & Ex & Eg & Eq). injection Eq as -> ->.
        destruct (plain_field g) eqn:Pg; [|reflexivity]. rewrite <- EX. symmetry. apply existsb_exists. exists g. split; [eapply nth_error_In; exact Eg|exact Pg]. }
      rewrite (group_none _ is_scalar), (group_none _ is_repeated).
      2,3: intros f b Hb; specialize (NP f b Hb); destruct f as [[|]| |]; try discriminate NP; reflexivity.
      cbn [app]. destruct HA as [HA|HA]; [fold fs in HA; rewrite EX in HA; discriminate HA|].
      assert (Y : exists y, first_message xs fs = Some y /\ y <> GMsg None).
      { destruct HA as [[y Hy]|[y Hy]]; fold fs in Hy; eexists; (split; [exact Hy|discriminate]). }
      destruct Y as (y & Hy & Ny). destruct (first_message_group S xs fs y Len EX Hy) as (i & f & u & Ex & Ef & ->).
      apply starts_app. apply (PL i); assumption.
Qed.
