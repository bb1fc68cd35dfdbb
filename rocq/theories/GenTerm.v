(** Generated decoders on arbitrary input: typed results, termination. *)
From Coq Require Import String.
From Verif Require Import Base Spec SpecProofs GoIdeal GoProps GoThms GoThms2 GoThms3 BufSpec GenTables GenModel GenSpec GenLemmas GenFields GenDec GenThms GenThms2 GenThms3.
From Verif Require V1Model V2Model.

Definition sfx (b r : bytes) : Prop := exists c, b = c ++ r.
Lemma sfx_refl b : sfx b b. Proof. exists []. reflexivity. Qed.
Lemma sfx_trans a b c : sfx a b -> sfx b c -> sfx a c.
Proof. intros [x ->] [y ->]. exists (x ++ y). apply app_assoc. Qed.
Lemma sfx_len b r : sfx b r -> (length r <= length b)%nat.
Proof. intros [c ->]. rewrite app_length. lia. Qed.
Lemma sfx_eq b r : sfx b r -> (length b <= length r)%nat -> r = b.
Proof. intros [c ->] H. rewrite app_length in H. destruct c; [reflexivity|cbn in H; lia]. Qed.
Lemma sfx_back a b c : sfx a b -> sfx b c -> c = a -> b = a /\ c = b.
Proof. intros H1 H2 ->. assert (b = a) as -> by (apply sfx_eq; [exact H1|apply sfx_len; exact H2]). auto. Qed.
Lemma sfx_lt b r : sfx b r -> r <> b -> (length r < length b)%nat.
Proof. intros [c ->] H. rewrite app_length. destruct c; [exfalso; apply H; reflexivity|cbn; lia]. Qed.
Lemma gbind_deep {A B} (x : gres A) (k : bytes -> A -> gres B) : x <> GDeep ->
  (forall q a, x = GDone q a -> k q a <> GDeep) -> gbind x k <> GDeep.
Proof. intros H K. destruct x; cbn; try congruence. apply K. reflexivity. Qed.
Lemma list_snoc_case {A} (l : list A) : l = [] \/ exists a x, l = a ++ [x].
Proof. destruct l using rev_ind; eauto. Qed.
Lemma sel_rest p fs : forall k dn i rest, sel p fs k = dn ++ i :: rest -> forall j, In j rest -> (i < j)%nat.
Proof.
  induction fs as [|f fs IH]; intros k dn i rest E j Hj; cbn [sel] in E; [destruct dn; discriminate|].
  destruct (p f); [|eapply IH; eassumption].
  destruct dn as [|d dn]; cbn [app] in E.
  - injection E as <- <-. apply sel_in in Hj. destruct Hj as [Hj _]. lia.
  - injection E as _ E. eapply IH; eassumption.
Qed.
Lemma Forall2_set S xs fs i y f : Forall2 (has_type S) xs fs -> nth_error fs i = Some f -> has_type S y f ->
  Forall2 (has_type S) (set_nth i y xs) fs.
Proof.
  intros H. revert i. induction H as [|x g xs fs Hx H IH]; intros [|i] Hi Hy; try discriminate; cbn [set_nth].
  - injection Hi as ->. constructor; assumption.
  - constructor; [assumption|]. apply IH; assumption.
Qed.
Lemma holds_want conv arg k v q : call_compiles conv arg k = true -> scalar_type k = Some q -> want v = q -> valid v -> holds k v.
Proof.
  intros HC HS HW HV. split; [exact HV|].
  destruct k; try discriminate HC; injection HS as <-; destruct v; try discriminate HW; exact I.
Qed.
Lemma insert_fst k v l : forall a, In a (map fst (insert k v l)) -> a = k \/ In a (map fst l).
Proof.
  induction l as [|[k' v'] l IH]; intros a H; cbn [insert] in H.
  - destruct H as [H|[]]; auto.
  - destruct (value_eq_dec k k') as [E|E]; cbn in *; [destruct H; auto|].
    destruct H as [H|H]; [auto|]. destruct (IH _ H); auto.
Qed.
Lemma insert_nodup k v l : NoDup (map fst l) -> NoDup (map fst (insert k v l)).
Proof.
  induction l as [|[k' v'] l IH]; intros H; cbn [insert].
  - repeat constructor. intros [].
  - destruct (value_eq_dec k k') as [->|E]; cbn in *; [exact H|].
    inversion H; subst. constructor; [|auto]. intros HI. apply insert_fst in HI. destruct HI; congruence.
Qed.
Lemma insert_length k v l : (length (insert k v l) <= Datatypes.S (length l))%nat.
Proof. induction l as [|[k' v'] l IH]; cbn [insert length]; [lia|]. destruct (value_eq_dec k k'); cbn [length]; lia. Qed.
Lemma insert_forall (P : value * gval -> Prop) k v l : P (k, v) -> Forall P l -> Forall P (insert k v l).
Proof.
  intros Hp H. induction H as [|[k' v'] l Hx H IH]; cbn [insert]; [repeat constructor; exact Hp|].
  destruct (value_eq_dec k k'); constructor; auto.
Qed.
Lemma one_of_many S t : field_compiles S (Many t) = true -> field_compiles S (One t) = true.
Proof.
  destruct t as [k|m]; intros H; [|exact H]. cbn [field_compiles] in *. apply andb_prop in H. destruct H as [H _].
  destruct k; try discriminate H; reflexivity.
Qed.
Lemma one_of_map S k t : field_compiles S (MapOf k t) = true ->
  field_compiles S (One t) = true /\ call_compiles true false k = true.
Proof.
  intros H. cbn [field_compiles] in H. apply andb_prop in H. destruct H as [H Ht]. apply andb_prop in H. destruct H as [_ Hk].
  split; [|exact Hk]. destruct t as [k2|m]; [|exact Ht]. cbn. destruct k2; try discriminate Ht; reflexivity.
Qed.

Definition okb (W : Z) (b : bytes) : Prop := bytes_ok b /\ int_ok W b.
Lemma okb_sfx W b r : okb W b -> sfx b r -> okb W r.
Proof.
  intros [H1 [H2 H3]] [c ->]. apply bytes_ok_app in H1. split; [apply H1|]. split; [exact H2|].
  rewrite zlen_app in H3. pose proof (zlen_nonneg c). lia.
Qed.

Section Term.
Variable v2 : bool.
Variable prim : option bytes -> request -> bytes -> outcome.
Variable S : schema.
Variable W : Z.
Hypothesis HC : compiles S = true.
Hypothesis Hdone : forall dst q b r v, (v2 = false -> dst = None) -> okb W b -> prim dst q b = Done r v ->
  valid v /\ want v = q /\ sfx b r /\ (r = b -> v2 = true /\ q = RBytes).
Hypothesis Hfail : forall b r e, prim None RNil b = Fail r e -> r = b.


(** ** Types *)
Lemma new_type fuel m : (m < length S)%nat -> match New v2 S fuel m with
  | GDone _ s => struct_type S s m | GDeep => v2 = false | _ => False end.
Proof.
  intros L. destruct (bool_cases v2) as [E|E]; rewrite E.
  - rewrite New_v2 by exact L. apply zero_struct_type; assumption.
  - destruct (New_v1_deep S HC fuel m L) as [D|(q & s & D)]; rewrite D; [reflexivity|].
    apply (New_v1_ok S HC _ _ _ _ D).
Qed.
Definition fine {A} (P : bytes -> A -> Prop) (x : gres A) : Prop :=
  match x with GDone r y => P r y | GBroken => False | _ => True end.
Lemma fine_bind {A B} (P : bytes -> A -> Prop) (Q : bytes -> B -> Prop) x k :
  fine P x -> (forall r y, x = GDone r y -> P r y -> fine Q (k r y)) -> fine Q (gbind x k).
Proof. intros H K. destruct x; cbn in *; auto. Qed.
Lemma call_fine {A} (P : bytes -> A -> Prop) dst q b (k : bytes -> value -> gres A) :
  (v2 = false -> dst = None) -> okb W b ->
  (forall r v, valid v -> want v = q -> sfx b r -> (r = b -> v2 = true /\ q = RBytes) -> fine P (k r v)) ->
  fine P (call prim dst q b k).
Proof.
  intros Hd Hb K. unfold call. destruct (prim dst q b) as [r v|r e|] eqn:E; try exact I.
  destruct (Hdone _ _ _ _ _ Hd Hb E) as (H1 & H2 & H3 & H4). apply K; assumption.
Qed.
Lemma nil_fine {A} (P : bytes -> A -> Prop) b (yes no : bytes -> gres A) : okb W b ->
  (forall r, sfx b r -> r <> b -> fine P (yes r)) -> fine P (no b) -> fine P (if_nil prim b yes no).
Proof.
  intros Hb Y N. unfold if_nil. destruct (prim None RNil b) as [r v|r e|] eqn:E; try exact I.
  - destruct (Hdone _ _ _ _ _ (fun _ => eq_refl) Hb E) as (_ & _ & H3 & H4). apply Y; [exact H3|].
    intros ->. destruct (H4 eq_refl) as [_ C]. discriminate C.
  - rewrite (Hfail _ _ _ E). exact N.
Qed.
Lemma dec_call_fine conv arg dst k b : call_compiles conv arg k = true -> (v2 = false -> dst = None) -> okb W b ->
  fine (fun r v => sfx b r /\ holds k v /\ (r = b -> v2 = true /\ k = KBytes)) (dec_call prim dst k b).
Proof.
  intros C Hd Hb. destruct (call_facts _ _ _ C) as (q & en & dn & tk & T & _ & D & _ & M).
  unfold dec_call. rewrite D, M. apply call_fine; try assumption. intros r v V Wv Sf Eq. cbn.
  split; [exact Sf|]. split; [eapply holds_want; eassumption|]. intros Er. destruct (Eq Er) as [E1 E2]. split; [exact E1|].
  rewrite E2 in T. clear - C T. destruct k; try discriminate C; try discriminate T; reflexivity.
Qed.

(** one frame's recursive calls *)
Definition rec_fine (rec : nat -> list gval -> bytes -> gres (list gval)) : Prop :=
  forall m x b, (m < length S)%nat -> struct_type S x m -> okb W b ->
  fine (fun r y => sfx b r /\ struct_type S y m /\ (r = b -> vacuous v2 S m)) (rec m x b).

Section Frame.
Variable fuel : nat.
Variable rec : nat -> list gval -> bytes -> gres (list gval).
Hypothesis HR : rec_fine rec.

Lemma new_fine m : (m < length S)%nat -> fine (fun _ s => struct_type S s m) (New v2 S fuel m).
Proof. intros L. pose proof (new_type fuel m L) as H. destruct (New v2 S fuel m); cbn in *; auto. Qed.
Lemma or_new_fine m x : (m < length S)%nat -> has_type S x (One (Msg m)) -> fine (fun _ s => struct_type S s m) (or_new v2 S fuel m x).
Proof.
  intros L H. destruct x as [|?|[|]|[|]]; try contradiction H; cbn [or_new].
  - exact H.
  - apply new_fine. exact L.
Qed.
Lemma msg_fine m b (s : gres (list gval)) : (m < length S)%nat -> okb W b -> fine (fun _ s => struct_type S s m) s ->
  fine (fun r y => sfx b r /\ has_type S y (One (Msg m)) /\ (r = b -> vacuous v2 S m))
    (gbind s (fun _ s => gbind (rec m s b) (fun r s => GDone r (GMsg (Some s))))).
Proof.
  intros L Hb Hs. eapply fine_bind; [exact Hs|]. intros r0 x _ Hx. eapply fine_bind; [apply HR; assumption|].
  intros r y _ H. exact H.
Qed.
Lemma elems_fine t : field_compiles S (One t) = true -> forall xs b, okb W b -> Forall (fun x => has_type S x (One t)) xs ->
  (forall k, t = Scalar k -> exists c a, call_compiles c a k = true) ->
  fine (fun r ys => sfx b r /\ Forall (fun x => has_type S x (One t)) ys /\ length ys = length xs)
    (dec_elems v2 prim S fuel rec t xs b).
Proof.
  intros FC. induction xs as [|x xs IH]; intros b Hb HT HK; cbn [dec_elems].
  - split; [apply sfx_refl|]. split; [constructor|reflexivity].
  - inversion HT; subst.
    eapply fine_bind with (P := fun r y => sfx b r /\ has_type S y (One t)).
    + destruct t as [k|m].
      * destruct (HK k eq_refl) as (c & a & C).
        eapply fine_bind; [apply (dec_call_fine c a None k b C (fun _ => eq_refl) Hb)|]. intros r v _ (Sf & Hh & _). split; assumption.
      * assert (L : (m < length S)%nat) by (apply Nat.ltb_lt; exact FC).
        pose proof (msg_fine m b (or_new v2 S fuel m x) L Hb (or_new_fine m x L H1)) as F.
        destruct (gbind (or_new v2 S fuel m x) _); cbn in *; tauto.
    + intros r y _ (Sf & Hy). eapply fine_bind; [apply IH; eauto using okb_sfx|].
      intros r' ys _ (Sf' & Hys & Ln). split; [eapply sfx_trans; eassumption|]. split; [constructor; assumption|cbn; congruence].
Qed.
Lemma entries_fine kk t : field_compiles S (MapOf kk t) = true -> forall n l b, okb W b ->
  NoDup (map fst l) -> Forall (fun e => holds kk (fst e) /\ has_type S (snd e) (One t)) l ->
  fine (fun r l' => sfx b r /\ NoDup (map fst l') /\ Forall (fun e => holds kk (fst e) /\ has_type S (snd e) (One t)) l' /\
     (length l' <= length l + n)%nat) (dec_entries v2 prim S fuel rec kk t n l b).
Proof.
  intros FC. destruct (one_of_map _ _ _ FC) as [FO CK].
  assert (FT : match t with Scalar k => call_compiles true false k = true | Msg m => (m < length S)%nat end).
  { cbn [field_compiles] in FC. apply andb_prop in FC. destruct FC as [_ FC]. destruct t; [exact FC|apply Nat.ltb_lt; exact FC]. }
  induction n as [|n IH]; intros l b Hb ND HT; cbn [dec_entries].
  - split; [apply sfx_refl|]. split; [exact ND|]. split; [exact HT|lia].
  - eapply fine_bind; [apply (dec_call_fine true false None kk b CK (fun _ => eq_refl) Hb)|].
    intros r k _ (Sf & Hk & _).
    eapply fine_bind with (P := fun r' y => sfx r r' /\ has_type S y (One t)).
    + destruct t as [k2|m].
      * eapply fine_bind; [apply (dec_call_fine true false None k2 r FT (fun _ => eq_refl)); eapply okb_sfx; eassumption|].
        intros r2 v _ (Sf2 & Hh & _). split; assumption.
      * pose proof (msg_fine m r (New v2 S fuel m) FT (okb_sfx _ _ _ Hb Sf) (new_fine m FT)) as F.
        destruct (gbind (New v2 S fuel m) _); cbn in *; tauto.
    + intros r2 y _ (Sf2 & Hy). pose proof (sfx_trans _ _ _ Sf Sf2) as Sf3.
      pose proof (IH (insert k y l) r2 (okb_sfx _ _ _ Hb Sf3) (insert_nodup _ _ _ ND)
                     (insert_forall (fun e => holds kk (fst e) /\ has_type S (snd e) (One t)) k y l (conj Hk Hy) HT)) as F.
      destruct (dec_entries v2 prim S fuel rec kk t n (insert k y l) r2); cbn in *; auto.
      destruct F as (F1 & F2 & F3 & F4). split; [eapply sfx_trans; eassumption|]. split; [exact F2|]. split; [exact F3|].
      pose proof (insert_length k y l). lia.
Qed.
(** fields: [no_move f] is what has to be true of [f] if decoding it consumes nothing *)
Definition no_move (f : field) : Prop :=
  (v2 = true /\ f = One (Scalar KBytes)) \/ exists q, f = One (Msg q) /\ vacuous v2 S q.
Definition field_fine (f : field) (b : bytes) : gres gval -> Prop :=
  fine (fun r y => sfx b r /\ has_type S y f /\ (r = b -> no_move f)).
Lemma other_fine f old b : is_scalar f = true -> field_compiles S f = true -> has_type S old f -> okb W b ->
  field_fine f b (dec_other v2 prim f old b).
Proof.
  intros Hf FC HT Hb. destruct f as [[k|]| |]; try discriminate Hf. cbn [dec_other]. unfold field_fine.
  eapply fine_bind; [apply (dec_call_fine true true _ k b FC); [|exact Hb]|].
  - intros ->. reflexivity.
  - intros r v _ (Sf & Hh & E). split; [exact Sf|]. split; [exact Hh|]. intros Er. left. destruct (E Er) as [E1 ->]. auto.
Qed.
Lemma slice_fine f old b : is_repeated f = true -> field_compiles S f = true -> has_type S old f -> okb W b ->
  field_fine f b (dec_slice v2 prim S fuel rec f old b).
Proof.
  intros Hf FC HT Hb. destruct f as [|t|]; try discriminate Hf. destruct old as [|xs|[|]|[|]]; try contradiction HT.
  apply ht_many in HT. destruct HT as [HL HT]. cbn [dec_slice].
  assert (K : exists k, kind_number (go_GetKind (tkind t)) = Some k).
  { destruct t as [k|m]; [|eexists; reflexivity]. cbn [field_compiles] in FC. apply andb_prop in FC. destruct FC as [FC _].
    destruct (kind_call _ _ _ FC) as [(z & Ez & _) _]. eauto. }
  destruct K as [k ->]. apply call_fine; [reflexivity|exact Hb|]. intros r v V Wv Sf Er.
  destruct v as [| |size ke| | | | | | | | | | | | ]; try discriminate Wv. pose proof (one_of_many _ _ FC) as FO.
  destruct V as [V _].
  eapply fine_bind; [apply (elems_fine t FO); [eapply okb_sfx; eassumption| |]|].
  - destruct (Z.eqb_spec (u32 (zlen xs)) size); [exact HT|]. apply Forall_forall. intros y Hy. apply repeat_spec in Hy. subst y.
    apply zero_type. exact FO.
  - intros k0 ->. cbn [field_compiles] in FC. apply andb_prop in FC. destruct FC as [FC _]. eauto.
  - intros r' ys _ (Sf' & Hys & Ln). split; [eapply sfx_trans; eassumption|]. split.
    + apply ht_many. split; [|exact Hys]. unfold zlen in *. rewrite Ln.
      destruct (Z.eqb_spec (u32 (Z.of_nat (length xs))) size); [exact HL|]. rewrite repeat_length. rewrite Z2Nat.id; lia.
    + intros ->. destruct (sfx_back _ _ _ Sf Sf' eq_refl) as [E _]. destruct (Er E) as [_ C]. discriminate C.
Qed.
Lemma message_fine f old b : is_message f = true -> field_compiles S f = true -> has_type S old f -> okb W b ->
  field_fine f b (dec_message v2 prim S fuel rec f old b).
Proof.
  intros Hf FC HT Hb. destruct f as [[|m]|t|kk t]; try discriminate Hf.
  - assert (L : (m < length S)%nat) by (apply Nat.ltb_lt; exact FC).
    assert (WK : forall x, fine (fun r y => sfx b r /\ has_type S y (One (Msg m)) /\ (r = b -> vacuous v2 S m)) x -> field_fine (One (Msg m)) b x).
    { intros x H. unfold field_fine. destruct x; cbn in *; auto. destruct H as (H1 & H2 & H3). split; [exact H1|]. split; [exact H2|].
      intros E. right. eauto. }
    destruct (bool_cases v2) as [E|E].
    + rewrite dm_v2 by exact E. apply nil_fine; [exact Hb| |].
      * intros r Sf N. split; [exact Sf|]. split; [exact HT|]. intros C; congruence.
      * apply WK. apply msg_fine; auto. apply new_fine. exact L.
    + rewrite dm_v1 by exact E. apply WK. apply msg_fine; auto. apply or_new_fine; assumption.
  - cbn [dec_message]. apply nil_fine; [exact Hb| |].
    + intros r Sf N. split; [exact Sf|]. split; [exact HT|]. intros C; congruence.
    + assert (K : exists k1 k2, kind_number (go_GetKind kk) = Some k1 /\ kind_number (go_GetKind (tkind t)) = Some k2).
      { destruct (one_of_map _ _ _ FC) as [_ CK]. destruct (kind_call _ _ _ CK) as [(z & Ez & _) _]. exists z.
        cbn [field_compiles] in FC. apply andb_prop in FC. destruct FC as [_ FC].
        destruct t as [k|m]; [|eexists; split; [exact Ez|reflexivity]]. destruct (kind_call _ _ _ FC) as [(z2 & Ez2 & _) _]. eauto. }
      destruct K as (k1 & k2 & -> & ->). apply call_fine; [reflexivity|exact Hb|]. intros r v V Wv Sf Er.
      destruct v; try discriminate Wv. destruct V as [V _].
      eapply fine_bind; [apply (entries_fine kk t FC _ []); [eapply okb_sfx; eassumption|constructor|constructor]|].
      intros r' l _ (Sf' & ND & HF & Ln). split; [eapply sfx_trans; eassumption|]. split.
      * apply ht_map. split; [|split; assumption]. unfold zlen. cbn [length] in Ln. lia.
      * intros ->. destruct (sfx_back _ _ _ Sf Sf' eq_refl) as [E _]. destruct (Er E) as [_ C]. discriminate C.
Qed.
Lemma pass_fine step fs : (forall f old b, In f fs -> step f old b = step f old b) -> forall is x b,
  (forall i, In i is -> exists f, nth_error fs i = Some f /\ forall old b, has_type S old f -> okb W b -> field_fine f b (step f old b)) ->
  Forall2 (has_type S) x fs -> okb W b ->
  fine (fun r y => sfx b r /\ Forall2 (has_type S) y fs /\ (r = b -> forall i f, In i is -> nth_error fs i = Some f -> no_move f))
    (pass step fs is x b).
Proof.
  intros _. induction is as [|i is IH]; intros x b HS HT Hb; cbn [pass].
  - split; [apply sfx_refl|]. split; [exact HT|]. intros _ i f [].
  - destruct (HS i (or_introl eq_refl)) as (f & Ef & Hf). rewrite Ef.
    destruct (nth_error x i) as [old|] eqn:Eo.
    2: { apply nth_error_None in Eo. rewrite (Forall2_length _ _ _ HT) in Eo. apply nth_error_None in Eo. congruence. }
    pose proof (Forall2_nth _ _ _ _ _ _ HT Eo Ef) as Ho.
    eapply fine_bind; [apply Hf; assumption|]. intros r y _ (Sf & Hy & Nm).
    pose proof (IH (set_nth i y x) r (fun j Hj => HS j (or_intror Hj)) (Forall2_set _ _ _ _ _ _ HT Ef Hy) (okb_sfx _ _ _ Hb Sf)) as F.
    destruct (pass step fs is (set_nth i y x) r); cbn in *; auto. destruct F as (F1 & F2 & F3).
    split; [eapply sfx_trans; eassumption|]. split; [exact F2|]. intros ->.
    destruct (sfx_back _ _ _ Sf F1 eq_refl) as [E1 E2]. intros j g [<-|Hj] Hg.
    + rewrite Ef in Hg. injection Hg as <-. apply Nm. exact E1.
    + eapply F3; eassumption.
Qed.
End Frame.

Lemma sel_field p fs i : In i (sel p fs 0) -> exists f, nth_error fs i = Some f /\ p f = true.
Proof. intros H. apply sel_in in H. destruct H as (_ & f & Hf & Hp). rewrite Nat.sub_0_r in Hf. eauto. Qed.
Theorem decode_fine : forall fuel, rec_fine (decode v2 prim S fuel).
Proof.
  induction fuel as [|fuel IH]; intros m x b L HT Hb; [exact I|]. cbn [decode].
  apply nil_fine; [exact Hb| |].
  { intros r Sf N. split; [exact Sf|]. split; [exact HT|]. intros C; congruence. }
  rewrite (fields_nth S m L). rewrite (getFields_sel S) by (auto using compiles_msg).
  apply ht_msg in HT. destruct HT as [_ HT]. set (fs := fields_of S m) in *.
  assert (FCs : forall i f, nth_error fs i = Some f -> field_compiles S f = true) by (intros i f; apply compiles_field; exact HC).
  eapply fine_bind; [apply (pass_fine (dec_other v2 prim) fs (fun _ _ _ _ => eq_refl))|]; try assumption.
  { intros i Hi. destruct (sel_field _ _ _ Hi) as (f & Ef & Pf). exists f. split; [exact Ef|]. intros old b' Ho Hb'.
    apply other_fine; eauto. }
  intros b1 x1 _ (S1 & T1 & N1).
  eapply fine_bind; [apply (pass_fine (dec_slice v2 prim S fuel (decode v2 prim S fuel)) fs (fun _ _ _ _ => eq_refl))|]; try assumption.
  { intros i Hi. destruct (sel_field _ _ _ Hi) as (f & Ef & Pf). exists f. split; [exact Ef|]. intros old b' Ho Hb'.
    apply slice_fine; eauto. }
  { eapply okb_sfx; eassumption. }
  intros b2 x2 _ (S2 & T2 & N2).
  pose proof (pass_fine (dec_message v2 prim S fuel (decode v2 prim S fuel)) fs (fun _ _ _ _ => eq_refl) (sel p_msg fs 0) x2 b2) as F.
  match type of F with ?A -> _ => assert (HA : A) end.
  { intros i Hi. destruct (sel_field _ _ _ Hi) as (f & Ef & Pf). exists f. split; [exact Ef|]. intros old b' Ho Hb'.
    apply message_fine; eauto. }
  specialize (F HA T2 (okb_sfx _ _ _ Hb (sfx_trans _ _ _ S1 S2))).
  destruct (pass (dec_message v2 prim S fuel (decode v2 prim S fuel)) fs (sel p_msg fs 0) x2 b2); cbn in *; auto.
  destruct F as (S3 & T3 & N3). pose proof (sfx_trans _ _ _ S1 S2) as S12.
  split; [eapply sfx_trans; eassumption|]. split; [apply ht_msg; auto|].
  intros ->. destruct (sfx_back _ _ _ S12 S3 eq_refl) as [E2 E3]. destruct (sfx_back _ _ _ S1 S2 E2) as [E1 E2'].
  constructor; [exact L|]. intros f Hf. apply In_nth_error in Hf. destruct Hf as [i Hi]. fold fs in Hi.
  assert (Hio : In i (order fs)) by (apply order_in, nth_error_Some; congruence).
  unfold order in Hio. rewrite !in_app_iff in Hio. destruct Hio as [Hi'|[Hi'|Hi']].
  - exact (N1 E1 _ _ Hi' Hi).
  - exact (N2 E2' _ _ Hi' Hi).
  - exact (N3 E3 _ _ Hi' Hi).
Qed.
End Term.
