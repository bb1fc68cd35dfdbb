(** Generated decoders do not look beyond what they return. *)
From Coq Require Import String.
From Verif Require Import Base Spec SpecProofs GoSpec GoIdeal GoProps GoThms GoThms2 GoThms3 BufSpec GenTables GenModel GenSpec GenLemmas GenFields GenDec GenThms GenThms2 GenThms3 GenTerm GenTerm2 GenTerm3 GenTerm4.
From Verif Require V1Model V2Model.

Section Ext.
Variable v2 : bool.
Variable prim : option bytes -> request -> bytes -> outcome.
Variable S : schema.
Variable W : Z.
Variable q : bytes.                          (* what is appended *)
Hypothesis HC : compiles S = true.
Hypothesis Hext : forall dst p b r v, (v2 = false -> dst = None) -> okb W (b ++ q) -> prim dst p b = Done r v ->
  prim dst p (b ++ q) = Done (r ++ q) v /\ okb W (r ++ q).
Hypothesis Hnone : forall dst p r v, prim dst p [] <> Done r v.
Hypothesis Hnil : forall b r e, prim None RNil b = Fail r e -> r = b /\ (b <> [] -> exists r e, prim None RNil (b ++ q) = Fail r e).
Hypothesis Hnil0 : exists e, prim None RNil [] = Fail [] e.
Hypothesis Hfail : forall b r e, prim None RNil b = Fail r e -> r = b.

(** ** On no input *)
Lemma dec_call_none dst k r v : dec_call prim dst k [] <> GDone r v.
Proof.
  unfold dec_call. destruct (go_decodeLUT k); [|discriminate]. destruct (assoc s go_decoder_methods) as [[p t]|]; [|discriminate].
  unfold call. destruct (prim dst p []) eqn:E; try discriminate. destruct (Hnone _ _ _ _ E).
Qed.
Lemma pass_none step fs : forall is x r y, (forall i f old r y, In i is -> nth_error fs i = Some f -> step f old [] = GDone r y -> r = []) ->
  pass step fs is x [] = GDone r y -> r = [] /\ forall i, In i is -> exists f old y, nth_error fs i = Some f /\ step f old [] = GDone [] y.
Proof.
  induction is as [|i is IH]; intros x r y HS E; cbn [pass] in E.
  - injection E as <- <-. split; [reflexivity|intros i []].
  - destruct (nth_error fs i) as [f|] eqn:Ef; [|discriminate]. destruct (nth_error x i) as [old|] eqn:Eo; [|discriminate].
    destruct (step f old []) as [r1 y1| | | |] eqn:E1; try discriminate E. cbn [gbind] in E.
    assert (r1 = []) as -> by (eapply HS; [left; reflexivity|exact Ef|exact E1]).
    apply IH in E; [|intros j g o r' y' Hj; apply HS; right; exact Hj]. destruct E as [-> E]. split; [reflexivity|].
    intros j [<-|Hj]; [exists f, old, y1; auto|apply E; exact Hj].
Qed.
Lemma dec_message_none fuel rec f old r y :
  (forall m x r y, (m < length S)%nat -> rec m x [] = GDone r y -> r = [] /\ vacuous false S m) ->
  field_compiles S f = true -> dec_message v2 prim S fuel rec f old [] = GDone r y ->
  r = [] /\ exists m, f = One (Msg m) /\ vacuous false S m.
Proof.
  intros HR FC E. destruct f as [[k|m]|t|kk t]; try discriminate E.
  - assert (L : (m < length S)%nat) by (apply Nat.ltb_lt; exact FC).
    assert (R : forall (n : gres (list gval)), gbind n (fun _ s => gbind (rec m s []) (fun r s => GDone r (GMsg (Some s)))) = GDone r y -> r = [] /\ vacuous false S m).
    { intros n E'. destruct n as [r0 s| | | |]; try discriminate E'. cbn [gbind] in E'. destruct (rec m s []) as [r1 s1| | | |] eqn:E1; try discriminate E'.
      injection E' as <- <-. eapply HR; eassumption. }
    destruct (bool_cases v2) as [Ev|Ev].
    + rewrite dm_v2 in E by exact Ev. unfold if_nil in E. pose proof Hnil0 as [e1 E1]; rewrite E1 in E.
      apply R in E. destruct E as [-> E]. eauto.
    + rewrite dm_v1 in E by exact Ev. apply R in E. destruct E as [-> E]. eauto.
  - exfalso. cbn [dec_message] in E. unfold if_nil in E. pose proof Hnil0 as [e1 E1]; rewrite E1 in E.
    destruct (kind_number (go_GetKind kk)) as [k1|]; [|discriminate]. destruct (kind_number (go_GetKind (tkind t))) as [k2|]; [|discriminate].
    unfold call in E. destruct (prim None (RMap k1 k2) []) eqn:E2; try discriminate E. destruct (Hnone _ _ _ _ E2).
Qed.
Lemma decode_none : forall fuel m x r y, (m < length S)%nat -> decode v2 prim S fuel m x [] = GDone r y -> r = [] /\ vacuous false S m.
Proof.
  induction fuel as [|fuel IH]; intros m x r y L E; [discriminate E|]. cbn [decode] in E. unfold if_nil in E.
  pose proof Hnil0 as [e1 E1]; rewrite E1 in E.
  rewrite (fields_nth S m L) in E. rewrite (getFields_sel S) in E by (auto using compiles_msg). set (fs := fields_of S m) in *.
  destruct (pass (dec_other v2 prim) fs (sel p_val fs 0) x []) as [r2 x2| | | |] eqn:E2; try discriminate E. cbn [gbind] in E.
  apply pass_none in E2.
  2: { intros i f old r' y' Hi Hf Es. destruct (sel_field _ _ _ Hi) as (g & Eg & Pg). rewrite Hf in Eg. injection Eg as <-. destruct f as [[k|]| |]; try discriminate Pg.
       cbn [dec_other] in Es. destruct (dec_call prim _ k []) eqn:Ed; try discriminate Es. destruct (dec_call_none _ _ _ _ Ed). }
  destruct E2 as [-> E2]. destruct (pass (dec_slice v2 prim S fuel (decode v2 prim S fuel)) fs (sel p_slice fs 0) x2 []) as [r3 x3| | | |] eqn:E3; try discriminate E.
  cbn [gbind] in E. assert (SL : forall f old r y, dec_slice v2 prim S fuel (decode v2 prim S fuel) f old [] <> GDone r y).
  { intros f old r' y' Es. destruct f as [|t|], old; try discriminate Es. cbn [dec_slice] in Es. destruct (kind_number (go_GetKind (tkind t))) as [k|]; [|discriminate Es].
    unfold call in Es. destruct (prim None (RSlice k) []) eqn:Ep; try discriminate Es. destruct (Hnone _ _ _ _ Ep). }
  apply pass_none in E3; [|intros i f old r' y' _ _ Es; destruct (SL _ _ _ _ Es)]. destruct E3 as [-> E3].
  assert (ML : forall f old r y, field_compiles S f = true -> dec_message v2 prim S fuel (decode v2 prim S fuel) f old [] = GDone r y ->
    r = [] /\ exists m, f = One (Msg m) /\ vacuous false S m) by (intros f old r' y'; apply dec_message_none; exact IH).
  assert (FCs : forall i f, nth_error fs i = Some f -> field_compiles S f = true) by (intros i f; apply compiles_field; exact HC).
  apply pass_none in E; [|intros i f old r' y' _ Hf Es; apply (ML _ _ _ _ (FCs _ _ Hf) Es)]. destruct E as [-> E4]. split; [reflexivity|].
  constructor; [exact L|]. intros f Hf. right. apply In_nth_error in Hf. destruct Hf as [i Hi]. fold fs in Hi.
  assert (Hio : In i (order fs)) by (apply order_in, nth_error_Some; congruence).
  unfold order in Hio. rewrite !in_app_iff in Hio. destruct Hio as [Hi'|[Hi'|Hi']].
  - exfalso. destruct (E2 _ Hi') as (g & old & y2 & Eg & Es). destruct (sel_field _ _ _ Hi') as (g' & Eg' & Pg). rewrite Eg in Eg'. injection Eg' as <-.
    destruct g as [[k|]| |]; try discriminate Pg. cbn [dec_other] in Es. destruct (dec_call prim _ k []) eqn:Ed; try discriminate Es. destruct (dec_call_none _ _ _ _ Ed).
  - exfalso. destruct (E3 _ Hi') as (g & old & y2 & Eg & Es). destruct (SL _ _ _ _ Es).
  - destruct (E4 _ Hi') as (g & old & y2 & Eg & Es). rewrite Hi in Eg. injection Eg as <-. apply (ML _ _ _ _ (FCs _ _ Hi) Es).
Qed.

(** ** Appending input *)
Definition ext_fn {A} (f : bytes -> gres A) : Prop :=
  forall b r a, okb W (b ++ q) -> f b = GDone r a -> f (b ++ q) = GDone (r ++ q) a /\ okb W (r ++ q).
Lemma ext_ret {A} (a : A) : ext_fn (fun b => GDone b a).
Proof. intros b r a' Hb E. injection E as <- <-. auto. Qed.
Lemma ext_bind {A B} (f : bytes -> gres A) (k : bytes -> A -> gres B) : ext_fn f -> (forall a, ext_fn (fun r => k r a)) ->
  ext_fn (fun b => gbind (f b) k).
Proof.
  intros Hf Hk b r a Hb E. destruct (f b) as [r1 a1| | | |] eqn:E1; try discriminate E. cbn [gbind] in E.
  destruct (Hf b r1 a1 Hb E1) as [E2 Hr]. rewrite E2. cbn [gbind]. exact (Hk a1 r1 r a Hr E).
Qed.
Lemma ext_const {A B} (n : gres A) (f : A -> bytes -> gres B) : (forall a, ext_fn (f a)) -> ext_fn (fun b => gbind n (fun _ a => f a b)).
Proof. intros H b r a Hb E. destruct n; try discriminate E. cbn [gbind] in *. apply H; assumption. Qed.
Lemma ext_call {A} dst p (k : bytes -> value -> gres A) : (v2 = false -> dst = None) -> (forall v, ext_fn (fun r => k r v)) ->
  ext_fn (fun b => call prim dst p b k).
Proof.
  intros Hd Hk b r a Hb E. unfold call in *. destruct (prim dst p b) as [r1 v1| |] eqn:E1; try discriminate E.
  destruct (Hext _ _ _ _ _ Hd Hb E1) as [E2 Hr]. rewrite E2. exact (Hk v1 r1 r a Hr E).
Qed.
Lemma ext_nil {A} (yes no : bytes -> gres A) : ext_fn yes -> ext_fn no -> (forall r a, no [] <> GDone r a) -> ext_fn (fun b => if_nil prim b yes no).
Proof.
  intros HY HN H0 b r a Hb E. unfold if_nil in *. destruct (prim None RNil b) as [r1 v1|r1 e1|] eqn:E1; [| |discriminate E].
  - destruct (Hext _ _ _ _ _ (fun _ => eq_refl) Hb E1) as [E2 Hr]. rewrite E2. exact (HY r1 r a Hr E).
  - destruct (Hnil _ _ _ E1) as [-> Hq]. destruct b as [|c b]; [destruct (H0 _ _ E)|].
    destruct (Hq ltac:(discriminate)) as (r2 & e2 & E2). rewrite E2. rewrite (Hfail _ _ _ E2). apply HN; assumption.
Qed.
Lemma ext_dec_call dst k : (v2 = false -> dst = None) -> ext_fn (dec_call prim dst k).
Proof.
  intros Hd b r a Hb E. unfold dec_call in *. destruct (go_decodeLUT k); [|discriminate]. destruct (assoc s go_decoder_methods) as [[p t]|]; [|discriminate].
  revert b r a Hb E. apply ext_call; [exact Hd|]. intros v. apply ext_ret.
Qed.
Lemma ext_pass step fs : forall is x, (forall i f old, In i is -> nth_error fs i = Some f -> ext_fn (step f old)) -> ext_fn (pass step fs is x).
Proof.
  induction is as [|i is IH]; intros x HS; [apply ext_ret|]. intros b r a Hb E. cbn [pass] in *.
  destruct (nth_error fs i) as [f|] eqn:Ef; [|discriminate]. destruct (nth_error x i) as [old|] eqn:Eo; [|discriminate].
  revert b r a Hb E. apply ext_bind; [apply (HS i); [left; reflexivity|exact Ef]|]. intros y. apply IH. intros j g o Hj. apply HS. right. exact Hj.
Qed.
Lemma ext_other f old : ext_fn (dec_other v2 prim f old).
Proof.
  destruct f as [[k|]| |]; try (intros ? ? ? ? E; discriminate E). unfold dec_other. apply ext_bind; [|intros; apply ext_ret].
  apply ext_dec_call. intros ->. reflexivity.
Qed.
Section Frame.
Variable fuel : nat.
Variable rec : nat -> list gval -> bytes -> gres (list gval).
Hypothesis HR : forall m x, (m < length S)%nat -> ext_fn (rec m x).
Hypothesis H0 : forall m x r y, (m < length S)%nat -> rec m x [] <> GDone r y.
Lemma ext_elems t : (forall m, t = Msg m -> (m < length S)%nat) -> forall xs, ext_fn (dec_elems v2 prim S fuel rec t xs).
Proof.
  intros L. induction xs as [|x xs IH]; [apply ext_ret|]. cbn [dec_elems]. apply (ext_bind (fun b => match t with Msg m => _ | Scalar k => _ end)).
  - destruct t as [k|m].
    + apply ext_bind; [apply ext_dec_call; reflexivity|intros; apply ext_ret].
    + apply (ext_const (or_new v2 S fuel m x) (fun s b => gbind (rec m s b) (fun r s => GDone r (GMsg (Some s))))).
      intros s. apply ext_bind; [apply HR, L; reflexivity|intros; apply ext_ret].
  - intros y. apply ext_bind; [exact IH|intros; apply ext_ret].
Qed.
Lemma ext_entries kk t : (forall m, t = Msg m -> (m < length S)%nat) -> forall n l, ext_fn (dec_entries v2 prim S fuel rec kk t n l).
Proof.
  intros L. induction n as [|n IH]; intros l; [apply ext_ret|]. cbn [dec_entries]. apply ext_bind; [apply ext_dec_call; reflexivity|]. intros k.
  apply (ext_bind (fun r => match t with Msg m => _ | Scalar kt => _ end)).
  - destruct t as [kt|m].
    + apply ext_bind; [apply ext_dec_call; reflexivity|intros; apply ext_ret].
    + apply (ext_const (New v2 S fuel m) (fun s b => gbind (rec m s b) (fun r s => GDone r (GMsg (Some s))))).
      intros s. apply ext_bind; [apply HR, L; reflexivity|intros; apply ext_ret].
  - intros v. apply IH.
Qed.
Lemma ext_slice f old : field_compiles S f = true -> ext_fn (dec_slice v2 prim S fuel rec f old).
Proof.
  intros FC. destruct f as [|t|]; try (intros ? ? ? ? E; discriminate E). destruct old as [|xs| |]; try (intros ? ? ? ? E; discriminate E).
  unfold dec_slice. destruct (kind_number (go_GetKind (tkind t))) as [k|]; [|intros ? ? ? ? E; discriminate E].
  apply ext_call; [reflexivity|]. intros v. destruct v as [| |size ke| | | | | | | | | | | | ]; try (intros ? ? ? ? E; discriminate E).
  apply ext_bind; [|intros; apply ext_ret]. apply ext_elems. intros m ->. apply Nat.ltb_lt. exact FC.
Qed.
Lemma ext_message f old : field_compiles S f = true -> ext_fn (dec_message v2 prim S fuel rec f old).
Proof.
  intros FC. destruct f as [[k|m]|t|kk t]; try (intros ? ? ? ? E; discriminate E).
  - assert (L : (m < length S)%nat) by (apply Nat.ltb_lt; exact FC).
    assert (R : forall n, ext_fn (fun b => gbind n (fun _ s => gbind (rec m s b) (fun r s => GDone r (GMsg (Some s)))))).
    { intros n. apply (ext_const n (fun s b => gbind (rec m s b) (fun r s => GDone r (GMsg (Some s))))).
      intros s. apply ext_bind; [apply HR, L|intros; apply ext_ret]. }
    destruct (bool_cases v2) as [Ev|Ev]; intros b r a Hb E.
    + rewrite dm_v2 in * by exact Ev. revert b r a Hb E. apply ext_nil; [apply ext_ret|apply R|].
      intros r a E. destruct (New v2 S fuel m); try discriminate E. cbn [gbind] in E. destruct (rec m x []) eqn:E1; try discriminate E. destruct (H0 _ _ _ _ L E1).
    + rewrite dm_v1 in * by exact Ev. revert b r a Hb E. apply R.
  - unfold dec_message. destruct (kind_number (go_GetKind kk)) as [k1|]; [|intros b r a Hb E].
    2: { unfold if_nil in *. destruct (prim None RNil b) as [r1 v1|r1 e1|] eqn:E1; [|discriminate E|discriminate E].
         destruct (Hext _ _ _ _ _ (fun _ => eq_refl) Hb E1) as [E2 Hr]. rewrite E2. injection E as <- <-. auto. }
    destruct (kind_number (go_GetKind (tkind t))) as [k2|]; [|intros b r a Hb E].
    2: { unfold if_nil in *. destruct (prim None RNil b) as [r1 v1|r1 e1|] eqn:E1; [|discriminate E|discriminate E].
         destruct (Hext _ _ _ _ _ (fun _ => eq_refl) Hb E1) as [E2 Hr]. rewrite E2. injection E as <- <-. auto. }
    apply ext_nil; [apply ext_ret| |].
    + apply ext_call; [reflexivity|]. intros v. destruct v; try (intros ? ? ? ? E; discriminate E).
      apply ext_bind; [|intros; apply ext_ret]. apply ext_entries. intros m ->. cbn [field_compiles] in FC. apply andb_prop in FC. apply Nat.ltb_lt, FC.
    + intros r a E. unfold call in E. destruct (prim None (RMap k1 k2) []) eqn:E2; try discriminate E. destruct (Hnone _ _ _ _ E2).
Qed.
End Frame.
Hypothesis HV : forall m, ~ vacuous false S m.
Theorem decode_ext : forall fuel m x, (m < length S)%nat -> ext_fn (decode v2 prim S fuel m x).
Proof.
  induction fuel as [|fuel IH]; intros m x L; [intros ? ? ? ? E; discriminate E|].
  assert (H0 : forall m x r y, (m < length S)%nat -> decode v2 prim S fuel m x [] <> GDone r y).
  { intros m' x' r y L' E. apply decode_none in E; [|exact L']. destruct E as [_ E]. exact (HV _ E). }
  assert (H1 : forall r y, decode v2 prim S (Datatypes.S fuel) m x [] <> GDone r y).
  { intros r y E. apply decode_none in E; [|exact L]. destruct E as [_ E]. exact (HV _ E). }
  cbn [decode] in *. rewrite (fields_nth S m L) in *. rewrite (getFields_sel S) in * by (auto using compiles_msg). set (fs := fields_of S m) in *.
  assert (FCs : forall i f, nth_error fs i = Some f -> field_compiles S f = true) by (intros i f; apply compiles_field; exact HC).
  apply ext_nil; [apply ext_ret| |].
  - apply ext_bind; [apply ext_pass; intros; apply ext_other|]. intros x1.
    apply ext_bind; [apply ext_pass; intros i f old _ Hf; apply ext_slice; eauto|]. intros x2.
    apply ext_pass. intros i f old _ Hf. apply ext_message; eauto.
  - intros r a E. apply (H1 r a). unfold if_nil. pose proof Hnil0 as [e E1]. rewrite E1. exact E.
Qed.
End Ext.
