(** Generated Rust code never accepts a message that was cut short. *)
From Coq Require Import String.
From Verif Require Import Base Spec SpecProofs Utf8 GoSpec GoProps2 RustModel RustSpec RustDec RustThms RustEnc RustThms2 GenTables.
From Verif Require Import GenLemmas GenFields GenDec GenThms2 RsGenModel RsGenSpec RsGenLemmas RsGenDec RsGenRound RsGenAny RsGenThms.
From Verif Require Import GenModel GenSpec.
Import RustModel RsGenModel RsGenSpec.

(** [t] is what is left of [R] after something (at least one byte) was cut off at the end *)
Definition cut (t R : bytes) : Prop := exists q, q <> [] /\ t ++ q = R.
Lemma cut_nil t : ~ cut t [].
Proof. intros (q & H & E). apply app_eq_nil in E. tauto. Qed.
Lemma cut_empty t R : cut t R -> cut [] R.
Proof. intros H. destruct R; [destruct (cut_nil _ H)|]. eexists. split; [|reflexivity]. discriminate. Qed.

(** no message is missing *)
Definition complete := inside (fun f x => match f, x with ROne (RMsg _), GMsg None => False | _, _ => True end).
Lemma mp_list xs : messages_present (GList xs) <-> Forall messages_present xs.
Proof. cbn [messages_present]. induction xs as [|x xs IH]; [split; constructor|]. rewrite IH. split; [intros []; constructor; assumption|intros H; inversion H; auto]. Qed.
Lemma mp_msg xs : messages_present (GMsg (Some xs)) <-> Forall messages_present xs.
Proof. cbn [messages_present]. induction xs as [|x xs IH]; [split; constructor|]. rewrite IH. split; [intros []; constructor; assumption|intros H; inversion H; auto]. Qed.
Lemma mp_map l : messages_present (GMap (Some l)) <-> Forall (fun e => messages_present (snd e)) l.
Proof. cbn [messages_present]. induction l as [|[k x] l IH]; [split; constructor|]. rewrite IH. split; [intros []; constructor; assumption|intros H; inversion H; auto]. Qed.
Lemma present_complete S : forall x f, messages_present x -> complete S x f.
Proof.
  induction x using gval_ind'; intros f HM.
  - split; destruct f as [[]| |]; exact I.
  - destruct f as [[k|n|m]|t|k t]; try (split; exact I). apply mp_list in HM. apply in_many. split; [exact I|]. rewrite Forall_forall in *. intros x Hx. apply H; auto.
  - split; destruct f as [[]| |]; exact I.
  - destruct f as [[k|n|m]|t|k t]; try (split; exact I). apply mp_map in HM. apply in_map. split; [exact I|]. rewrite Forall_forall in *. intros e He. apply H; auto.
  - destruct HM.
  - destruct f as [[k|n|m]|t|k t]; try (split; exact I). apply mp_msg in HM. split; [exact I|].
    revert H HM. generalize (rfields_of S m). clear. induction xs as [|x xs IH]; intros [|f fs] H HM; try exact I.
    inversion H; subst. inversion HM; subst. split; [auto|]. apply IH; assumption.
Qed.
Lemma no_nil_present : forall x, no_nil x -> messages_present x.
Proof.
  induction x using gval_ind'; intros HN; try exact I; try contradiction HN.
  - apply mp_list. apply nn_list in HN. rewrite Forall_forall in *. auto.
  - apply mp_map. apply nn_map in HN. rewrite Forall_forall in *. auto.
  - apply mp_msg. apply nn_msg in HN. rewrite Forall_forall in *. auto.
Qed.

Lemma complete_starts S : forall x f, sent_type (forget S) x (forget_f f) -> complete S x f ->
  layout (forget S) x (forget_f f) = [] \/ starts (layout (forget S) x (forget_f f)).
Proof.
  induction x using gval_ind'; intros f HT HR.
  - destruct f as [[k|n|m]|t|k t]; try contradiction HT; right; [exact (holds_starts k v HT)|exact (holds_starts KEnum v HT)].
  - destruct f as [[k|n|m]|t|k t]; try contradiction HT. right. apply slice_starts.
  - destruct f as [[k|n|m]|t|k t]; try contradiction HT. right. cbn [layout forget_f]. rewrite <- (app_nil_r (wire _)). apply map_starts.
  - destruct f as [[k|n|m]|t|k t]; try contradiction HT. right. apply map_starts.
  - destruct f as [[k|n|m]|t|k t]; try contradiction HT. destruct HR as [[] _].
  - destruct f as [[k|n|m]|t|k t]; try contradiction HT. cbn [forget_f forget_t] in *.
    destruct (st_msg_r _ _ _ HT) as (L & Len & HT'). rewrite layout_msg. cbv zeta. rewrite forget_fields.
    assert (G : forall p, group p (zw (fun x f => (f, layout (forget S) x f)) xs (map forget_f (rfields_of S m))) = [] \/
                          starts (group p (zw (fun x f => (f, layout (forget S) x f)) xs (map forget_f (rfields_of S m))))).
    { intros p. apply group_starts. intros f b Hb _. apply zw_in in Hb. destruct Hb as (i & x & g & Ex & Eg & Eq).
      injection Eq as -> ->. rewrite nth_error_map in Eg. destruct (nth_error (rfields_of S m) i) as [f|] eqn:Ef; [|discriminate].
      injection Eg as <-. rewrite Forall_forall in H. apply H; [eapply nth_error_In; exact Ex|eapply HT'; eassumption|].
      exact (in_msg_nth _ _ _ _ Len HR _ _ _ Ex Ef). }
    apply app_starts; [apply G|]. apply app_starts; apply G.
Qed.

Section Cut.
Variables (rt : runtime) (alloc : rtype -> Z -> bool) (S : rschema) (B : bytes).
Hypothesis HB : bytes_ok B.
Hypothesis HI : int_ok (W rt) B.
Hypothesis HC : rs_compiles S.

(** a call that fails, or stops somewhere before the end of [R] *)
Definition within {A} (R : bytes) (x : rgres A) : Prop :=
  forall a c, x = RGOk a c -> exists t, c = cur B t /\ suf t B /\ cut t R.
Lemma within_bind {A C} R R' (x : rgres A) (k : A -> cursor -> rgres C) :
  within R x -> (forall a t, suf t B -> cut t R -> within R' (k a (cur B t))) -> within R' (gtry x k).
Proof.
  intros H K a c E. destruct x as [a0 c0| | | |]; try discriminate E. cbn [gtry] in E.
  destruct (H a0 c0 eq_refl) as (t & -> & Ht & Hq). exact (K a0 t Ht Hq a c E).
Qed.
Lemma within_ok {A} R (a : A) t : suf t B -> cut t R -> within R (RGOk a (cur B t)).
Proof. intros H1 H2 b c E. injection E as <- <-. exists t. auto. Qed.
Lemma within_no {A} R (x : rgres A) : (forall a c, x <> RGOk a c) -> within R x.
Proof. intros H a c E. destruct (H a c E). Qed.
Lemma within_end {A} (x : rgres A) : within [] x -> forall a c, x <> RGOk a c.
Proof. intros H a c E. destruct (H a c E) as (t & _ & _ & Hq). exact (cut_nil _ Hq). Qed.
(** library calls *)
Lemma within_call v t R : valid v -> rust_req (want v) -> suf t B -> cut t (wire v ++ R) ->
  forall v' c, RustModel.decode rt (want v) (cur B t) = ROk v' c -> v' = v /\ exists u, c = cur B u /\ suf u B /\ cut u R.
Proof.
  intros Hv Hq Hs (q & Nq & E) v' c D. pose proof Hs as [pre EB].
  assert (Hc : cursor_ok rt (cur B t)).
  { split; [|split; assumption]. unfold cur. cbn [pos buf]. rewrite EB, zlen_app. pose proof (zlen_nonneg pre). pose proof (zlen_nonneg t). lia. }
  assert (Hr : rest (cur B t) = t).
  { unfold rest, cur. cbn [pos buf]. rewrite EB, zlen_app. replace (zlen pre + zlen t - zlen t) with (zlen pre) by lia. apply zdrop_app_exact. }
  apply dec_rust_ok in D; [|exact Hq|exact Hc]. destruct D as (r & HA & _ & ->). rewrite Hr in HA.
  pose proof (accepts_app _ _ _ _ _ q HA) as HA'. rewrite E in HA'. destruct (accepts_fun _ _ _ _ _ _ _ HA' (wire_accepts false v R Hv)) as [<- <-].
  split; [reflexivity|]. exists r. split; [reflexivity|]. destruct (accepts_suffix _ _ _ _ _ HA) as [p ->].
  split; [exact (suf_app _ _ _ Hs)|]. exists q. auto.
Qed.
Lemma within_qmark v t R : valid v -> rust_req (want v) -> suf t B -> cut t (wire v ++ R) ->
  forall a c, qmark (RustModel.decode rt (want v) (cur B t)) = RGOk a c -> a = v /\ exists u, c = cur B u /\ suf u B /\ cut u R.
Proof.
  intros Hv Hq Hs Hcut a c E. destruct (RustModel.decode rt (want v) (cur B t)) as [v' c'| |] eqn:D; try discriminate E.
  injection E as <- <-. exact (within_call v t R Hv Hq Hs Hcut _ _ D).
Qed.
Lemma within_scalar k v t R : holds k v -> suf t B -> cut t (wire v ++ R) -> within R (rs_dec_call rt k (cur B t)).
Proof.
  intros H Hs Hcut. rewrite (rs_dec_holds rt k v _ H). intros a c E. destruct H as [V H].
  eapply within_qmark in E; [apply E|exact V| |exact Hs|exact Hcut].
  destruct k, v; try contradiction H; exact I.
Qed.

Lemma elems_cut rec t : forall xs u R,
  (forall x, In x xs -> layout (forget S) x (One (forget_t t)) = [] \/ starts (layout (forget S) x (One (forget_t t)))) ->
  (forall x u R, In x xs -> R = [] \/ starts R -> suf u B -> cut u (layout (forget S) x (One (forget_t t)) ++ R) ->
     within R (step rt alloc rec InvalidArray (ROne t) (cur B u))) ->
  R = [] \/ starts R -> suf u B -> cut u (flat_map (fun x => layout (forget S) x (One (forget_t t))) xs ++ R) ->
  within R (rs_dec_elems rt rec t (length xs) (cur B u)).
Proof.
  induction xs as [|x xs IH]; intros u R HS HX HR Hs Hcut.
  - apply within_ok; assumption.
  - cbn [length rs_dec_elems flat_map] in *. rewrite <- app_assoc in Hcut.
    assert (HR' : forall ys, (forall x, In x ys -> In x xs) -> flat_map (fun x => layout (forget S) x (One (forget_t t))) ys ++ R = [] \/
              starts (flat_map (fun x => layout (forget S) x (One (forget_t t))) ys ++ R)).
    { induction ys as [|y ys IHy]; intros Hy; [exact HR|]. cbn [flat_map]. rewrite <- app_assoc. apply app_starts; [apply HS; right; apply Hy; left; reflexivity|].
      apply IHy. intros z Hz. apply Hy. right; exact Hz. }
    specialize (HR' xs (fun x H => H)).
    eapply within_bind.
    + assert (X := HX x u _ (or_introl eq_refl) HR' Hs Hcut). destruct t as [k|n|m]; [exact X|apply within_no; discriminate|exact X].
    + intros y w Hw Hcw. eapply (within_bind R); [apply IH; [| |exact HR|exact Hw|exact Hcw]|].
      * intros z Hz. apply HS. right; exact Hz.
      * intros z u' R' Hz. apply HX. right; exact Hz.
      * intros ys w' Hw' Hcw'. apply within_ok; assumption.
Qed.
Lemma entries_cut rec t : forall l acc u R,
  (forall e, In e l -> holds GenTables.KString (fst e)) ->
  (forall e u R, In e l -> R = [] \/ starts R -> suf u B -> cut u (layout (forget S) (snd e) (One (forget_t t)) ++ R) ->
     within R (step rt alloc rec InvalidMap (ROne t) (cur B u))) ->
  R = [] \/ starts R -> suf u B ->
  cut u (flat_map (fun e : value * gval => wire (fst e) ++ layout (forget S) (snd e) (One (forget_t t))) l ++ R) ->
  within R (rs_dec_entries rt rec GenTables.KString t (length l) acc (cur B u)).
Proof.
  induction l as [|[k x] l IH]; intros acc u R HK HX HR Hs Hcut.
  - apply within_ok; assumption.
  - cbn [length rs_dec_entries flat_map fst snd] in *. rewrite <- !app_assoc in Hcut.
    eapply within_bind; [eapply within_scalar; [exact (HK _ (or_introl eq_refl))|exact Hs|exact Hcut]|].
    intros k' w Hw Hcw.
    assert (HR' : flat_map (fun e : value * gval => wire (fst e) ++ layout (forget S) (snd e) (One (forget_t t))) l ++ R = [] \/
              starts (flat_map (fun e : value * gval => wire (fst e) ++ layout (forget S) (snd e) (One (forget_t t))) l ++ R)).
    { destruct l as [|[k2 x2] l]; [exact HR|]. right. cbn [flat_map fst snd]. rewrite <- !app_assoc. apply starts_app.
      apply (holds_starts GenTables.KString). apply (HK (k2, x2)). right; left; reflexivity. }
    eapply within_bind.
    + assert (X := HX (k, x) w _ (or_introl eq_refl) HR' Hw Hcw). cbn [snd] in X. destruct t as [kt|n|m]; exact X.
    + intros y w' Hw' Hcw'. apply IH; auto.
      * intros e He. apply HK. right; exact He.
      * intros e u' R' He. apply HX. right; exact He.
Qed.

Lemma group_start p xs fs R : length xs = length fs ->
  at_all p xs fs (fun x f => layout (forget S) x (forget_f f) = [] \/ starts (layout (forget S) x (forget_f f))) -> R = [] \/ starts R ->
  group p (lay S xs fs) ++ R = [] \/ starts (group p (lay S xs fs) ++ R).
Proof.
  revert fs. induction xs as [|x xs IH]; intros [|f fs] L HT Q; try discriminate L; [exact Q|].
  injection L as L. apply at_all_cons in HT. destruct HT as [HT1 HT].
  unfold lay, group. cbn [map zw filter fst]. destruct (p (forget_f f)) eqn:E; [|apply IH; assumption].
  cbn [map concat snd]. rewrite <- app_assoc. apply app_starts; [auto|]. apply IH; assumption.
Qed.
Lemma pass_cut stp p : forall xs fs pre i u R, length xs = length fs -> length pre = i ->
  at_all p xs fs (fun x f => layout (forget S) x (forget_f f) = [] \/ starts (layout (forget S) x (forget_f f))) ->
  at_all p xs fs (fun x f => forall u R, R = [] \/ starts R -> suf u B -> cut u (layout (forget S) x (forget_f f) ++ R) ->
     within R (stp f (cur B u))) ->
  R = [] \/ starts R -> suf u B -> cut u (group p (lay S xs fs) ++ R) ->
  within R (rs_pass stp (pre ++ fs) (sel p (map forget_f fs) i) (cur B u)).
Proof.
  induction xs as [|x xs IH]; intros [|f fs] pre i u R L LP HT HX HR Hs Hcut; try discriminate L.
  - apply within_ok; assumption.
  - injection L as L. apply at_all_cons in HT, HX. destruct HT as [HT1 HT], HX as [HX1 HX].
    pose proof (group_start p xs fs R L HT HR) as HR'.
    unfold lay in Hcut. unfold group in Hcut. cbn [map zw filter fst sel] in *.
    assert (E' : pre ++ f :: fs = (pre ++ [f]) ++ fs) by (rewrite <- app_assoc; reflexivity).
    assert (LP' : length (pre ++ [f]) = Datatypes.S i) by (rewrite app_length; cbn; lia).
    destruct (p (forget_f f)) eqn:E.
    + cbn [map concat snd rs_pass] in *. rewrite <- app_assoc in Hcut. rewrite nth_error_app2 by lia. rewrite LP, Nat.sub_diag. cbn [nth_error].
      eapply within_bind; [exact (HX1 eq_refl _ _ HR' Hs Hcut)|]. intros y w Hw Hcw.
      eapply (within_bind R); [rewrite E'; apply IH; [exact L|exact LP'|exact HT|exact HX|exact HR|exact Hw|exact Hcw]|]. intros ys w' Hw' Hcw'. apply within_ok; assumption.
    + rewrite E'. apply IH; auto.
Qed.

(** looking for a Nil or an error at the start of a message that was cut *)
Lemma probe_cut t R : starts R -> suf t B -> cut t R ->
  decode_none rt (cur B t) = ROk false (cur B t) /\
  exists e u, decode_error rt (cur B t) = RErr e (cur B u) /\ suf u B /\ cut u R.
Proof.
  intros (a & b & w & -> & H0 & H6) Hs Hcut. pose proof (cut_empty _ _ Hcut) as CE. rewrite (none_cur rt alloc) by exact Hs.
  destruct t as [|x t].
  - split; [reflexivity|]. unfold decode_error. rewrite read_u8_nil. eexists _, []. split; [reflexivity|auto].
  - destruct Hcut as (q & Nq & E). cbn in E. injection E as -> E. destruct (Z.eqb_spec a 0); [contradiction|]. split; [reflexivity|].
    destruct t as [|y t].
    + unfold decode_error. rewrite read_u8_cons by exact Hs. cbn [rbind]. rewrite read_u8_nil. eexists _, []. split; [reflexivity|].
      split; [eapply suf_cons; exact Hs|exact CE].
    + cbn in E. injection E as -> E. destruct (error_cur rt B (a :: b :: t) Hs) as [e ->].
      { right. exists a, b, t. split; [reflexivity|]. split; [exact H0|]. intros [A _]; auto. }
      exists e, (a :: b :: t). split; [reflexivity|]. split; [exact Hs|]. exists q. split; [exact Nq|]. cbn. congruence.
Qed.

Lemma message_cut fuel m xs t R : sent_type (forget S) (GMsg (Some xs)) (One (Msg m)) ->
  complete S (GMsg (Some xs)) (ROne (RMsg m)) ->
  (forall x f e u R, In x xs -> sent_type (forget S) x (forget_f f) -> rfield_compiles S f = true -> complete S x f ->
     R = [] \/ starts R -> suf u B -> cut u (layout (forget S) x (forget_f f) ++ R) ->
     within R (step rt alloc (rs_decode rt alloc S fuel) e f (cur B u))) ->
  R = [] \/ starts R -> suf t B -> cut t (layout (forget S) (GMsg (Some xs)) (One (Msg m)) ++ R) ->
  within R (rs_decode rt alloc S (Datatypes.S fuel) m (cur B t)).
Proof.
  intros HT HM IH HR Hs Hcut. destruct (st_msg_r _ _ _ HT) as (L & Len & HT').
  pose proof (app_starts _ _ (complete_starts S _ (ROne (RMsg m)) HT HM) HR) as Q. cbn [forget_f forget_t] in Q.
  destruct Q as [Q|Q]; [rewrite Q in Hcut; destruct (cut_nil _ Hcut)|].
  destruct (probe_cut t _ Q Hs Hcut) as [EN (e0 & u & EE & Hu & Hcu)]. cbn [rs_decode]. rewrite EN, EE. clear EN EE Q Hs Hcut t.
  rewrite (rfields_nth S m L). rewrite (rs_getFields_sel S) by (auto; apply compiles_msg_r; assumption).
  rewrite layout_msg in Hcu. cbv zeta in *. rewrite forget_fields in Hcu. set (fs := rfields_of S m) in *. fold (lay S xs fs) in Hcu.
  rewrite <- !app_assoc in Hcu.
  assert (TY : forall p, at_all p xs fs (fun x f => layout (forget S) x (forget_f f) = [] \/ starts (layout (forget S) x (forget_f f)))).
  { intros p j x f Ex Ef _. apply complete_starts; [eapply HT'; eassumption|]. exact (in_msg_nth _ _ _ _ Len HM _ _ _ Ex Ef). }
  assert (ST : forall p stp, (forall f, p (forget_f f) = true -> exists e, forall c, stp f c = step rt alloc (rs_decode rt alloc S fuel) e f c) ->
    at_all p xs fs (fun x f => forall u R, R = [] \/ starts R -> suf u B -> cut u (layout (forget S) x (forget_f f) ++ R) ->
     within R (stp f (cur B u)))).
  { intros p stp He j x f Ex Ef Pf u' R' HR' Hu' Hcu'. destruct (He f Pf) as [e E]. rewrite E.
    apply (IH x f e u' R'); auto; [eapply nth_error_In; exact Ex|eapply HT'; eassumption| |exact (in_msg_nth _ _ _ _ Len HM _ _ _ Ex Ef)].
    eapply compiles_field_in; [exact HC|]. eapply nth_error_In; exact Ef. }
  change is_scalar with p_val in *. change is_repeated with p_slice in *. change is_message with p_msg in *.
  pose proof (group_start p_msg xs fs R Len (TY p_msg) HR) as R1. pose proof (group_start p_slice xs fs _ Len (TY p_slice) R1) as R2.
  eapply within_bind.
  { apply (pass_cut (rs_dec_other rt) p_val xs fs [] 0 u _ Len eq_refl (TY _)); [|exact R2|exact Hu|exact Hcu].
    apply ST. intros f Pf. exists InvalidEnum. intros c. destruct f as [[k|n|m']|t|k t]; try discriminate Pf; reflexivity. }
  clear u Hu Hcu. intros a u Hu Hcu. eapply within_bind.
  { apply (pass_cut (rs_dec_slice rt alloc (rs_decode rt alloc S fuel)) p_slice xs fs [] 0 u _ Len eq_refl (TY _)); [|exact R1|exact Hu|exact Hcu].
    apply ST. intros f Pf. exists InvalidEnum. intros c. destruct f as [[k|n|m']|t|k t]; try discriminate Pf; reflexivity. }
  clear u Hu Hcu. intros b u Hu Hcu. eapply within_bind.
  { apply (pass_cut (rs_dec_message rt (rs_decode rt alloc S fuel)) p_msg xs fs [] 0 u _ Len eq_refl (TY _)); [|exact HR|exact Hu|exact Hcu].
    apply ST. intros f Pf. exists InvalidStruct. intros c. destruct f as [[k|n|m']|t|k t]; try discriminate Pf; reflexivity. }
  clear u Hu Hcu. intros d u Hu Hcu. destruct (rs_struct _ _); [apply within_ok; assumption|apply within_no; discriminate].
Qed.

Lemma step_cut : forall x f fuel e t R, sent_type (forget S) x (forget_f f) -> rfield_compiles S f = true -> complete S x f ->
  R = [] \/ starts R -> suf t B -> cut t (layout (forget S) x (forget_f f) ++ R) ->
  within R (step rt alloc (rs_decode rt alloc S fuel) e f (cur B t)).
Proof.
  induction x using gval_ind'; intros f fuel e u R HT FC HM HR Hs Hcut.
  - destruct f as [[k|n|m]|t|k t]; try contradiction HT; cbn [step forget_f forget_t layout] in *.
    + eapply within_bind; [eapply within_scalar; [exact HT|exact Hs|exact Hcut]|]. intros a w Hw Hcw. apply within_ok; assumption.
    + destruct HT as [V HT]. destruct v; try contradiction HT. intros a c E.
      destruct (qmark (RustModel.decode rt RU32 (cur B u))) as [a' c'| | | |] eqn:D; try discriminate E. cbn [gtry] in E.
      apply (within_qmark (VU32 n0) u R) in D; [|exact V|exact I|exact Hs|exact Hcut]. destruct D as [-> (w & -> & Hw & Hcw)].
      cbn [rs_try_from] in E. destruct (_ && _); [|discriminate E]. injection E as <- <-. exists w. auto.
  - destruct f as [[k|n|m]|t|k t]; try contradiction HT. cbn [forget_f] in *. apply st_many in HT. destruct HT as [HL HT].
    apply in_many in HM. destruct HM as [_ HM]. rewrite Forall_forall in H, HT, HM.
    destruct (rs_kind_t S t (RMany t) FC eq_refl) as [K _]. pose proof (rs_elem S t (RMany t) FC eq_refl) as FE.
    cbn [step layout rs_dec_slice] in *. rewrite K. rewrite <- app_assoc in Hcut.
    change (RSlice (announced (forget_t t))) with (want (VSlice (zlen xs) (announced (forget_t t)))).
    destruct (slice_valid xs (announced (forget_t t)) HL (rust_kind_announced _)) as (V & RQ & _).
    intros a c E. destruct (qmark (RustModel.decode rt (want (VSlice (zlen xs) (announced (forget_t t)))) (cur B u))) as [a' c'| | | |] eqn:D; try discriminate E.
    cbn [gtry] in E. eapply within_qmark in D; [|exact V|exact RQ|exact Hs|exact Hcut]. destruct D as [-> (w & -> & Hw & Hcw)].
    destruct (alloc t (zlen xs)); [|discriminate E]. replace (Z.to_nat (zlen xs)) with (length xs) in E by (unfold zlen; lia).
    revert a c E. eapply within_bind; [eapply elems_cut; [| |exact HR|exact Hw|exact Hcw]|].
    + intros x Hx. apply (complete_starts S x (ROne t)); [auto|exact (HM x Hx)].
    + intros x u' R' Hx. apply (H x Hx (ROne t)); [auto|exact FE|exact (HM x Hx)].
    + intros ys w' Hw' Hcw'. apply within_ok; assumption.
  - destruct f as [[k|n|m]|t|k t]; try contradiction HT. cbn [forget_f] in *.
    destruct (rs_kind_t S t (RMapOf k t) FC eq_refl) as [K2 _]. pose proof (rs_key S k t FC) as ->.
    cbn [step layout rs_dec_message] in *. change (announced (Scalar GenTables.KString)) with 5 in *.
    destruct (probe_cut u _ (map_starts 0 5 (announced (forget_t t)) R) Hs Hcut) as [-> _].
    change (rs_kind (rs_getKind GenTables.KString)) with (Some 5). rewrite K2.
    change (RMap 5 (announced (forget_t t))) with (want (VMap 0 5 (announced (forget_t t)))).
    destruct (map_valid (@nil Z) 5 (announced (forget_t t)) ltac:(cbn; lia) ltac:(lia) (rust_kind_announced _)) as (V & RQ & _).
    intros a c E. destruct (RustModel.decode rt (want (VMap 0 5 (announced (forget_t t)))) (cur B u)) as [a' c'| |] eqn:D; try discriminate E.
    eapply within_call in D; [|exact V|exact RQ|exact Hs|exact Hcut]. destruct D as [-> (w & -> & Hw & Hcw)].
    cbn in E. injection E as <- <-. exists w. auto.
  - destruct f as [[k|n|m]|t|k t]; try contradiction HT. cbn [forget_f] in *. apply st_map in HT. destruct HT as (HL & HT).
    apply in_map in HM. destruct HM as [_ HM]. rewrite Forall_forall in H, HT, HM.
    destruct (rs_kind_t S t (RMapOf k t) FC eq_refl) as [K2 _]. pose proof (rs_elem S t (RMapOf k t) FC eq_refl) as FE. pose proof (rs_key S k t FC) as ->.
    cbn [step layout rs_dec_message] in *. change (announced (Scalar GenTables.KString)) with 5 in *. rewrite <- app_assoc in Hcut.
    destruct (probe_cut u _ (map_starts (zlen l) 5 (announced (forget_t t)) _) Hs Hcut) as [-> _].
    change (rs_kind (rs_getKind GenTables.KString)) with (Some 5). rewrite K2.
    change (RMap 5 (announced (forget_t t))) with (want (VMap (zlen l) 5 (announced (forget_t t)))).
    destruct (map_valid l 5 (announced (forget_t t)) HL ltac:(lia) (rust_kind_announced _)) as (V & RQ & _).
    intros a c E. destruct (RustModel.decode rt (want (VMap (zlen l) 5 (announced (forget_t t)))) (cur B u)) as [a' c'| |] eqn:D; try discriminate E.
    eapply within_call in D; [|exact V|exact RQ|exact Hs|exact Hcut]. destruct D as [-> (w & -> & Hw & Hcw)].
    replace (Z.to_nat (zlen l)) with (length l) in E by (unfold zlen; lia).
    revert a c E. eapply within_bind; [eapply (entries_cut (rs_decode rt alloc S fuel) t l [] w R); [| |exact HR|exact Hw|exact Hcw]|].
    + intros x Hx. apply (HT x Hx).
    + intros x u' R' Hx. apply (H x Hx (ROne t)); [apply (HT x Hx)|exact FE|exact (HM x Hx)].
    + intros ys w' Hw' Hcw'. apply within_ok; assumption.
  - destruct f as [[k|n|m]|t|k t]; try contradiction HT. destruct HM as [[] _].
  - destruct f as [[k|n|m]|t|k t]; try contradiction HT. cbn [forget_f forget_t step] in *. unfold rs_ok_or.
    rewrite Forall_forall in H. destruct fuel as [|fuel]; [apply within_no; discriminate|].
    eapply within_bind; [eapply message_cut; [exact HT|exact HM| |exact HR|exact Hs|exact Hcut]|].
    + intros x f e' u' R' Hx. apply H; exact Hx.
    + intros [ys|] w Hw Hcw; [apply within_ok; assumption|apply within_no; discriminate].
Qed.
End Cut.

Theorem rs_truncated rt alloc S m xs c q fuel : rs_compiles S -> go_struct S xs m -> messages_present (GMsg (Some xs)) ->
  cursor_ok rt c -> bytes_of S m xs = rest c ++ q -> q <> [] -> forall o c', rs_decode rt alloc S fuel m c <> RGOk o c'.
Proof.
  intros HC HT HM (Hp & Hb & Hi) HR Hq. destruct (cursor_cur c Hp) as [Ec Sc]. rewrite Ec. apply within_end with (B := buf c).
  destruct fuel as [|fuel]; [apply within_no; discriminate|]. apply ht_st in HT.
  eapply message_cut; [exact HC|exact HT|apply present_complete; exact HM| |left; reflexivity|exact Sc|].
  - intros x f e u R _ Tx FC Mx. apply step_cut; assumption.
  - exists q. split; [exact Hq|]. rewrite app_nil_r. symmetry. exact HR.
Qed.
