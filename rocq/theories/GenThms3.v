(** First bytes of generated messages; NewM() of version 1. *)
From Coq Require Import String.
From Verif Require Import Base Spec SpecProofs GoIdeal GoProps GoThms GoThms2 BufSpec GenTables GenModel GenSpec GenLemmas GenFields GenDec GenThms GenThms2.
From Verif Require V1Model V2Model.

(** ** The first byte *)
Lemma wire_hd v : exists c t, wire v = c :: t /\ (v <> VNil -> c <> 0).
Proof. destruct v; cbn; do 2 eexists; (split; [reflexivity|]); try congruence; intros _; lia. Qed.

Lemma no_plain_groups (h : gval -> field -> bytes) : forall xs fs, existsb plain_field fs = false ->
  let l := zw (fun x f => (f, h x f)) xs fs in
  group is_scalar l ++ group is_repeated l ++ group is_message l = concat (zw h xs fs).
Proof.
  induction xs as [|x xs IH]; intros [|f fs] H; try reflexivity.
  cbn [existsb] in H. apply orb_false_elim in H. destruct H as [Hf H]. specialize (IH fs H).
  cbn [zw]. unfold group in *. cbn [filter fst]. cbv zeta in *.
  assert (Hg : forall p, (p = is_scalar \/ p = is_repeated) -> filter (fun e : field * bytes => p (fst e)) (zw (fun x f => (f, h x f)) xs fs) = []).
  { intros p Hp. clear IH. revert fs H. induction xs as [|y ys IHy]; intros [|g gs] H; try reflexivity.
    cbn [existsb] in H. apply orb_false_elim in H. destruct H as [Hg H]. cbn [zw filter fst].
    assert (p g = false) as -> by (destruct Hp as [->| ->]; destruct g as [[|]|[|]|]; try discriminate Hg; reflexivity).
    apply IHy. exact H. }
  rewrite !Hg in * by auto. destruct f as [[|]|[|]|]; try discriminate Hf; cbn [is_scalar is_repeated is_message map concat snd app] in *; rewrite IH; reflexivity.
Qed.
Lemma anchored_dec S m xs : struct_type S xs m ->
  anchored S m xs \/
  (existsb plain_field (fields_of S m) = false /\
   (fields_of S m = [] \/ exists ys, xs = GMsg None :: ys)).
Proof.
  intros HT. apply ht_msg in HT. destruct HT as [_ HT]. unfold anchored.
  destruct (existsb plain_field (fields_of S m)) eqn:E; [left; left; reflexivity|].
  destruct (fields_of S m) as [|f fs]; [right; auto|]. inversion HT; subst.
  cbn [existsb] in E. apply orb_false_elim in E. destruct E as [Ef E].
  cbn [first_message]. rewrite Ef.
  destruct f as [[k|m']|t|k t]; try discriminate Ef.
  - destruct x as [| |[|]|[y|]]; try contradiction.
    + left. right. left. eauto.
    + right. split; [reflexivity|]. right. eauto.
  - destruct x as [| |y|[|]]; try contradiction. left. right. right. eauto.
Qed.
Theorem first_byte S m xs : compiles S = true -> struct_type S xs m ->
  Forall2 (readable S) xs (fields_of S m) ->
  (anchored S m xs <-> exists c r, layout S (GMsg (Some xs)) (One (Msg m)) = c :: r /\ c <> 0).
Proof.
  intros HC HT HR. split.
  - intros HA. assert (R : readable S (GMsg (Some xs)) (One (Msg m))).
    { apply ev_msg; [|split; assumption]. apply ht_msg in HT. exact (Forall2_length _ _ _ (proj2 HT)). }
    destruct (struct_calls S m xs HC HT) as (vs & E & V & <-).
    destruct (calls_head S HC _ _ _ HT R E) as (v & ws & -> & Nv); [discriminate|].
    destruct (wire_hd v) as (c & t & Ew & Hc). exists c, (t ++ wires ws). split; [|auto].
    change (v :: ws) with ([v] ++ ws). rewrite wires_app, wires_one, Ew. reflexivity.
  - intros (c & r & E & Nc). destruct (anchored_dec S m xs HT) as [HA|(NP & HN)]; [exact HA|exfalso].
    rewrite layout_msg in E. cbv zeta in E. rewrite (no_plain_groups (layout S) xs _ NP) in E.
    destruct HN as [HN|(ys & ->)].
    + rewrite HN in E. destruct xs; discriminate E.
    + apply ht_msg in HT. destruct HT as [_ HT]. destruct (fields_of S m) as [|f fs]; [inversion HT|].
      inversion HT; subst. destruct f as [[|]|[|]|]; try contradiction. cbn [zw concat layout] in E.
      injection E as <- _. congruence.
Qed.
Lemma nil1_yes W dst r : V1Model.decode W dst RNil (0 :: r) = Done r VNil.
Proof.
  cbn [V1Model.decode]. unfold V1Model.decodeNil. rewrite zlen_cons. destruct (Z.gtb_spec (1 + zlen r) 0) as [G|G]; [|pose proof (zlen_nonneg r); lia].
  change (index (0 :: r) 0) with (Ok 0). change (index V1Model.NilKind 0) with (Ok 0). cbn [bind]. rewrite Z.eqb_refl.
  unfold slice_from. rewrite zlen_cons. pose proof (zlen_nonneg r).
  destruct (Z.ltb_spec 1 0); [lia|]. destruct (Z.ltb_spec (1 + zlen r) 1); [lia|]. reflexivity.
Qed.
Lemma nil2_yes W ret r : V2Model.decode W ret RNil (0 :: r) = Done r VNil.
Proof.
  cbn [V2Model.decode]. unfold V2Model.decodeNil. rewrite zlen_cons. destruct (Z.gtb_spec (1 + zlen r) 0) as [G|G]; [|pose proof (zlen_nonneg r); lia].
  change (index (0 :: r) 0) with (Ok 0). change V2Model.NilRawKind with 0. cbn [bind]. rewrite Z.eqb_refl.
  unfold slice_from. rewrite zlen_cons. pose proof (zlen_nonneg r).
  destruct (Z.ltb_spec 1 0); [lia|]. destruct (Z.ltb_spec (1 + zlen r) 1); [lia|]. reflexivity.
Qed.
(** What the decoder does with a message that is not anchored: it stops at once. *)
Theorem unanchored_decode W S m xs old r fuel : struct_type S xs m -> ~ anchored S m xs -> bytes_ok r ->
  (fields_of S m = [] -> exists t, r = 0 :: t) ->
  exists rest, layout S (GMsg (Some xs)) (One (Msg m)) ++ r = 0 :: rest /\
    Decode1 W S (Datatypes.S fuel) m (Some old) (layout S (GMsg (Some xs)) (One (Msg m)) ++ r) = Some (GDone rest old) /\
    Decode2 W S (Datatypes.S fuel) m (Some old) (layout S (GMsg (Some xs)) (One (Msg m)) ++ r) = Some (GDone rest old).
Proof.
  intros HT NA Hr HE. destruct (anchored_dec S m xs HT) as [HA|(NP & HN)]; [contradiction|].
  assert (exists rest, layout S (GMsg (Some xs)) (One (Msg m)) ++ r = 0 :: rest) as (rest & E).
  { rewrite layout_msg. cbv zeta. rewrite (no_plain_groups (layout S) xs _ NP).
    destruct HN as [HN|(ys & ->)].
    - rewrite HN in *. destruct (HE eq_refl) as [t ->]. exists t. destruct xs; reflexivity.
    - apply ht_msg in HT. destruct HT as [_ HT]. destruct (fields_of S m) as [|f fs]; [inversion HT|].
      inversion HT; subst. destruct f as [[|]|[|]|]; try contradiction. cbn [zw concat layout app]. eauto. }
  exists rest. split; [exact E|]. rewrite E. unfold Decode1, Decode2. cbn [option_map decode]. unfold if_nil.
  rewrite nil1_yes, nil2_yes. auto.
Qed.

(** ** New *)
Lemma new_fields_mono S fuel fuel' fs q s : compiles S = true -> (fuel <= fuel')%nat ->
  new_fields S fuel fs = GDone q s -> new_fields S fuel' fs = GDone q s.
Proof.
  intros HC HL. revert q s. induction fs as [|f fs IH]; intros q s H; [exact H|].
  cbn [new_fields] in *. apply gbind_done in H. destruct H as (q1 & x & Hx & H).
  apply gbind_done in H. destruct H as (q2 & xs & Hxs & H). fold (new_fields S fuel) in Hxs. fold (new_fields S fuel').
  assert (match f with One (Msg m) => gbind (New false S fuel' m) (fun _ x => GDone [] (GMsg (Some x))) | _ => GDone [] (zero f) end = GDone q1 x) as ->.
  { destruct f as [[k|m]|t|k t]; try exact Hx. apply gbind_done in Hx. destruct Hx as (q3 & y & Hy & Hx).
    destruct (New_v1_ok S HC _ _ _ _ Hy) as [_ HM]. rewrite (HM _ HL). exact Hx. }
  cbn [gbind]. rewrite (IH _ _ Hxs). exact H.
Qed.
Lemma new_fields_all S fs : compiles S = true ->
  (forall m, In (One (Msg m)) fs -> exists fuel q s, New false S fuel m = GDone q s) ->
  exists fuel q s, new_fields S fuel fs = GDone q s.
Proof.
  intros HC. induction fs as [|f fs IH]; intros H; [exists 0%nat, [], []; reflexivity|].
  destruct IH as (f1 & q1 & s1 & E1). { intros m Hm. apply H. right; exact Hm. }
  assert (exists f2 q2 x, match f with One (Msg m) => gbind (New false S f2 m) (fun _ x => GDone [] (GMsg (Some x))) | _ => GDone [] (zero f) end = GDone q2 x /\
      forall f3, (f2 <= f3)%nat -> match f with One (Msg m) => gbind (New false S f3 m) (fun _ x => GDone [] (GMsg (Some x))) | _ => GDone [] (zero f) end = GDone q2 x) as (f2 & q2 & x & _ & E2).
  { destruct f as [[k|m]|t|k t]; try (exists 0%nat, []; eexists; split; [reflexivity|reflexivity]).
    destruct (H m (or_introl eq_refl)) as (f2 & q2 & s2 & E). destruct (New_v1_ok S HC _ _ _ _ E) as [_ HM].
    exists f2, [], (GMsg (Some s2)). rewrite E. split; [reflexivity|]. intros f3 Hf3. rewrite HM by exact Hf3. reflexivity. }
  exists (f1 + f2)%nat, [], (x :: s1). cbn [new_fields]. rewrite E2 by lia. cbn [gbind]. fold (new_fields S (f1 + f2)).
  rewrite (new_fields_mono S f1 (f1 + f2) fs q1 s1 HC ltac:(lia) E1). reflexivity.
Qed.
Lemma new_fields_in S fuel fs q s m : new_fields S fuel fs = GDone q s -> In (One (Msg m)) fs ->
  exists q' s', New false S fuel m = GDone q' s'.
Proof.
  revert q s. induction fs as [|f fs IH]; intros q s H HI; [destruct HI|].
  cbn [new_fields] in H. apply gbind_done in H. destruct H as (q1 & x & Hx & H).
  apply gbind_done in H. destruct H as (q2 & xs & Hxs & H). destruct HI as [->|HI]; [|eapply IH; eassumption].
  apply gbind_done in Hx. destruct Hx as (q3 & y & Hy & _). eauto.
Qed.
Theorem new_terminates S m : compiles S = true -> (m < length S)%nat ->
  ((exists fuel q s, New false S fuel m = GDone q s) <-> Acc (fun b a => creates S a b) m).
Proof.
  intros HC L. split.
  - intros (fuel & q & s & H). clear L. revert m q s H. induction fuel as [|fuel IH]; intros m q s H;
    pose proof (New_v1_range _ _ _ _ _ H) as L.
    + cbn [New] in H. rewrite (fields_nth S m L) in H. discriminate.
    + rewrite New_v1 in H by exact L. constructor. intros b Hb. destruct (new_fields_in _ _ _ _ _ _ H Hb) as (q' & s' & E). eauto.
  - intros A. revert L. induction A as [m _ IH]. intros L.
    destruct (new_fields_all S (fields_of S m) HC) as (fuel & q & s & E).
    + intros b Hb. apply IH; [exact Hb|].
      apply In_nth_error in Hb. destruct Hb as [i Hi]. pose proof (compiles_field S m i _ HC Hi) as FC.
      cbn in FC. apply Nat.ltb_lt. exact FC.
    + exists (Datatypes.S fuel), q, s. rewrite New_v1 by exact L. exact E.
Qed.
(** if it does not return, every stack is exhausted *)
Lemma New_v1_deep S : compiles S = true -> forall fuel m, (m < length S)%nat ->
  New false S fuel m = GDeep \/ exists q s, New false S fuel m = GDone q s.
Proof.
  intros HC. induction fuel as [|fuel IH]; intros m L.
  - left. cbn [New]. rewrite (fields_nth S m L). reflexivity.
  - rewrite New_v1 by exact L.
    assert (G : forall f, In f (fields_of S m) -> field_compiles S f = true).
    { intros f Hf. apply In_nth_error in Hf. destruct Hf as [i Hi]. eapply compiles_field; eassumption. }
    revert G. induction (fields_of S m) as [|f fs IHf]; intros G; [right; exists [], []; reflexivity|].
    cbn [new_fields]. fold (new_fields S fuel).
    destruct IHf as [D|(q & s & D)]; [intros g Hg; apply G; right; exact Hg| |].
    + assert (C : match f with One (Msg m) => gbind (New false S fuel m) (fun _ x => GDone [] (GMsg (Some x))) | _ => GDone [] (zero f) end = GDeep \/ exists q x, match f with One (Msg m) => gbind (New false S fuel m) (fun _ x => GDone [] (GMsg (Some x))) | _ => GDone [] (zero f) end = GDone q x).
      { destruct f as [[k|b]|t|k t]; try (right; do 2 eexists; reflexivity).
        destruct (IH b) as [E|(q & s & E)].
        - apply Nat.ltb_lt. apply (G _ (or_introl eq_refl)).
        - left. rewrite E. reflexivity.
        - right. rewrite E. do 2 eexists. reflexivity. }
      left. destruct C as [-> |(q & x & ->)]; [reflexivity|]. cbn [gbind]. rewrite D. reflexivity.
    + destruct f as [[k|b]|t|k t]; try (right; cbn [gbind]; rewrite D; cbn; do 2 eexists; reflexivity).
      destruct (IH b) as [E|(q' & s' & E)].
      * apply Nat.ltb_lt. apply (G _ (or_introl eq_refl)).
      * left. rewrite E. reflexivity.
      * right. rewrite E. cbn [gbind]. rewrite D. cbn. do 2 eexists. reflexivity.
Qed.
Theorem new_overflows S m : compiles S = true -> (m < length S)%nat ->
  ~ Acc (fun b a => creates S a b) m -> forall fuel, New false S fuel m = GDeep.
Proof.
  intros HC L NA fuel. destruct (New_v1_deep S HC fuel m L) as [E|(q & s & E)]; [exact E|].
  exfalso. apply NA. apply new_terminates; eauto.
Qed.
Theorem new_ok_exists S : compiles S = true -> (forall m, (m < length S)%nat -> Acc (fun b a => creates S a b) m) ->
  exists K, new_ok S K.
Proof.
  intros HC H. assert (G : forall n, exists K, forall m, (m < n)%nat -> (m < length S)%nat -> exists q s, New false S K m = GDone q s).
  { induction n as [|n (K & IH)]; [exists 0%nat; intros; lia|].
    destruct (Nat.lt_ge_cases n (length S)) as [L|L].
    - destruct (proj2 (new_terminates S n HC L) (H n L)) as (K' & q & s & E).
      exists (K + K')%nat. intros m Hm Hl. destruct (Nat.eq_dec m n) as [->|].
      + exists q, s. apply (New_v1_ok S HC _ _ _ _ E). lia.
      + destruct (IH m ltac:(lia) Hl) as (q' & s' & E'). exists q', s'. apply (New_v1_ok S HC _ _ _ _ E'). lia.
    - exists K. intros m Hm Hl. apply IH; lia. }
  destruct (G (length S)) as (K & HK). exists K. intros m L. apply HK; exact L.
Qed.
