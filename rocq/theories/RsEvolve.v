(** Generated Rust code whose sender and receiver have different schemas. *)
From Coq Require Import String.
From Verif Require Import Base Spec SpecProofs Utf8 GoSpec GoProps2 RustModel RustSpec RustDec RustThms RustEnc RustThms2 GenTables.
From Verif Require Import GenLemmas GenFields GenDec GenThms GenThms2 GenThms3 RsGenModel RsGenSpec RsGenLemmas RsGenDec RsGenRound RsGenAny RsGenThms RsTrunc RsMore.
From Verif Require Import GenModel GenSpec EvolveSpec EvolveThms.
Import RustModel RsGenModel RsGenSpec.

Lemma rs_read_compatible rt alloc S S' corr a b xs : rs_compiles S' -> compatible (forget S) (forget S') corr -> corr a b ->
  go_struct S xs a -> anchored_all S a xs -> affordable alloc S' (GMsg (Some xs)) (ROne (RMsg b)) ->
  forall fuel c r, (depth (GMsg (Some xs)) <= fuel)%nat -> cursor_ok rt c -> rest c = bytes_of S a xs ++ r ->
    (ready S' (GMsg (Some xs)) (ROne (RMsg b)) -> rs_decode rt alloc S' fuel b c = RGOk (Some (map settle xs)) (at_rest c r)) /\
    (~ ready S' (GMsg (Some xs)) (ROne (RMsg b)) -> exists e c', rs_decode rt alloc S' fuel b c = RGErr e c').
Proof.
  intros HC HK Hc HT HA HM fuel c r HF Hcur Hr. destruct (same_bytes _ _ _ _ _ _ HK Hc HT) as (HT' & El & HR').
  unfold bytes_of in Hr. rewrite <- El in Hr.
  destruct (rs_decode_out rt alloc S' c b xs r fuel HC HT' HM Hcur Hr HF (or_introl (HR' HA))) as [[G E]|[N X]]; split; intros; auto; contradiction.
Qed.
Lemma rs_exchange rt alloc S S' corr a b l xs r fuel : rs_compiles S -> rs_compiles S' -> compatible (forget S) (forget S') corr -> corr a b ->
  rust_struct S xs a -> anchored_all S a xs -> affordable alloc S' (GMsg (Some xs)) (ROne (RMsg b)) -> (depth (GMsg (Some xs)) <= fuel)%nat ->
  exists o, rs_encode S (mkcur l (zlen l)) a xs = Some (Ok (mkcur (l ++ o) (zlen (l ++ o)))) /\
    forall c, cursor_ok rt c -> rest c = o ++ r ->
      (ready S' (GMsg (Some xs)) (ROne (RMsg b)) -> rs_decode rt alloc S' fuel b c = RGOk (Some xs) (at_rest c r)) /\
      (~ ready S' (GMsg (Some xs)) (ROne (RMsg b)) -> exists e c', rs_decode rt alloc S' fuel b c = RGErr e c').
Proof.
  intros HC HC' HK Hc HT HA HM HF. exists (bytes_of S a xs). split; [apply rs_encode_append; assumption|]. intros c Hcur Hr.
  destruct HT as (HT & _ & HN). rewrite <- (settle_all xs HN) at 2. eapply rs_read_compatible; eassumption.
Qed.
Lemma rs_to_go_exchange W S S' corr a b l xs old r fuel : rs_compiles S -> compiles (forget S') = true ->
  compatible (forget S) (forget S') corr -> corr a b -> rust_struct S xs a -> anchored_all S a xs -> go_struct S' old b -> bytes_ok r ->
  (depth (GMsg (Some xs)) <= fuel)%nat ->
  exists o, rs_encode S (mkcur l (zlen l)) a xs = Some (Ok (mkcur (l ++ o) (zlen (l ++ o)))) /\
    (int_ok W (o ++ r) -> Decode2 W (forget S') fuel b (Some old) (o ++ r) = Some (GDone r xs)) /\
    (forall K, new_ok (forget S') K -> int_ok W (o ++ r) -> (depth (GMsg (Some xs)) + K <= fuel)%nat ->
       Decode1 W (forget S') fuel b (Some old) (o ++ r) = Some (GDone r xs)).
Proof.
  intros HC HC' HK Hc HT HA HO Hr HF. exists (bytes_of S a xs). split; [apply rs_encode_append; assumption|].
  destruct HT as (HT & _ & HN). destruct (same_bytes _ _ _ _ _ _ HK Hc HT) as (HT' & El & HR'). unfold bytes_of. rewrite <- El. split.
  - intros Hi. apply decode2_reuse; auto.
  - intros K HK1 Hi HF1. eapply decode1_reuse; eauto.
Qed.
(** ** added fields *)
Lemma rs_old_reader rt alloc S S' corr m m' ext xs ys fuel : rs_compiles S -> grown (forget S) (forget S') corr m m' ext ->
  in_order (fields_of (forget S) m) ext -> length xs = length (rfields_of S m) -> go_struct S' (xs ++ ys) m' -> anchored_all S m xs ->
  affordable alloc S (GMsg (Some xs)) (ROne (RMsg m)) -> (depth (GMsg (Some xs)) <= fuel)%nat ->
  exists p, bytes_of S' m' (xs ++ ys) = bytes_of S m xs ++ p /\
    forall c r, cursor_ok rt c -> rest c = bytes_of S' m' (xs ++ ys) ++ r ->
      (ready S (GMsg (Some xs)) (ROne (RMsg m)) -> rs_decode rt alloc S fuel m c = RGOk (Some (map settle xs)) (at_rest c (p ++ r))) /\
      (~ ready S (GMsg (Some xs)) (ROne (RMsg m)) -> exists e c', rs_decode rt alloc S fuel m c = RGErr e c').
Proof.
  intros HC HG O Lx HT HA HM HF. assert (Lx' : length xs = length (fields_of (forget S) m)) by (rewrite forget_fields, map_length; exact Lx).
  destruct (grown_layout _ _ _ _ _ _ xs ys HG O Lx') as (p & Ep & _). exists p. split; [exact Ep|].
  pose proof (grown_type _ _ _ _ _ _ _ _ HG HT Lx') as HTx. intros c r Hc Hr. unfold bytes_of in Hr. rewrite Ep, <- app_assoc in Hr.
  destruct (rs_decode_out rt alloc S c m xs (p ++ r) fuel HC HTx HM Hc Hr HF (or_introl HA)) as [[G E]|[N X]]; split; intros; auto; contradiction.
Qed.
(** a value of every field type *)
Lemma kind_value k : k <> KMessage -> k <> KGroup -> exists v, holds k v.
Proof.
  intros N1 N2. destruct k; try contradiction;
  [exists (VBool true)|exists (VU32 0)|exists (VI32 0)|exists (VI32 0)|exists (VU32 0)|exists (VI64 0)|exists (VI64 0)|exists (VU64 0)|exists (VI32 0)|exists (VU32 0)
   |exists (VF32 0)|exists (VI64 0)|exists (VU64 0)|exists (VF64 0)|exists (VString [])|exists (VBytes [])]; (split; [cbn; try lia; try exact I|exact I]);
   split; try constructor; reflexivity.
Qed.
Definition filled (S : rschema) (x : gval) (f : rfield) : Prop :=
  has_type (forget S) x (forget_f f) /\ messages_present x /\
  (layout (forget S) x (forget_f f) = [] -> exists q, f = ROne (RMsg q) /\ vacuous false (forget S) q).
Lemma fill_fields S fs : (forall f, In f fs -> rfield_compiles S f = true) ->
  (forall b, In (ROne (RMsg b)) fs -> (b < length S)%nat -> exists x, filled S x (ROne (RMsg b))) ->
  exists xs, Forall2 (filled S) xs fs.
Proof.
  induction fs as [|f fs IH]; intros FC HM; [exists []; constructor|].
  destruct IH as [xs Hxs]; [intros g Hg; apply FC; right; exact Hg|intros b Hb; apply HM; right; exact Hb|].
  assert (X : exists x, filled S x f); [|destruct X as [x Hx]; exists (x :: xs); constructor; assumption].
  specialize (FC f (or_introl eq_refl)). destruct f as [[k|n|b]|t|k t].
  - assert (K : k <> KMessage /\ k <> KGroup) by (split; intros ->; discriminate FC). destruct (kind_value k (proj1 K) (proj2 K)) as [v Hv].
    exists (GPrim v). split; [exact Hv|]. split; [exact I|]. cbn [forget_f forget_t layout]. intros E.
    destruct (holds_starts k v Hv) as (a & b & u & E' & _). rewrite E in E'. discriminate E'.
  - exists (GPrim (VU32 0)). split; [split; [cbn; lia|exact I]|]. split; [exact I|]. discriminate.
  - apply HM; [left; reflexivity|]. apply Nat.ltb_lt. exact FC.
  - exists (GList []). split; [split; [reflexivity|exact I]|]. split; [exact I|]. discriminate.
  - exists (GMap (Some [])). split; [apply ht_map; split; [reflexivity|split; constructor]|]. split; [exact I|]. discriminate.
Qed.
Lemma fill S : rs_compiles S -> forall m, (m < length S)%nat -> exists x, filled S x (ROne (RMsg m)).
Proof.
  intros HC m. pose proof (proj2 HC m) as HA. induction HA as [m _ IH]. intros L.
  destruct (fill_fields S (rfields_of S m)) as [xs Hxs].
  - intros f. apply compiles_field_in. exact HC.
  - intros b Hb Lb. apply IH; [exact Hb|exact Lb].
  - exists (GMsg (Some xs)). pose proof (Forall2_length _ _ _ Hxs) as Lx. split; [|split].
    + cbn [forget_f forget_t]. apply ht_msg. split; [rewrite forget_length; exact L|]. rewrite forget_fields.
      clear - Hxs. induction Hxs as [|x f xs fs [H _]]; constructor; assumption.
    + apply mp_msg. clear - Hxs. induction Hxs as [|x f xs fs (_ & H & _)]; constructor; assumption.
    + cbn [forget_f forget_t]. rewrite layout_msg. cbv zeta. rewrite forget_fields. intros E. exists m. split; [reflexivity|].
      constructor; [rewrite forget_length; exact L|]. rewrite forget_fields. intros f Hf. right.
      apply In_nth_error in Hf. destruct Hf as [i Hi]. rewrite nth_error_map in Hi. destruct (nth_error (rfields_of S m) i) as [g|] eqn:Eg; [|discriminate].
      injection Hi as <-. destruct (nth_error xs i) as [x|] eqn:Ex.
      2: { apply nth_error_None in Ex. assert (X : nth_error (rfields_of S m) i <> None) by congruence. apply nth_error_Some in X. lia. }
      pose proof (Forall2_nth _ _ _ _ _ _ Hxs Ex Eg) as (_ & _ & V).
      assert (Lz : layout (forget S) x (forget_f g) = []).
      { assert (Hin : In (forget_f g, layout (forget S) x (forget_f g)) (zw (fun x f => (f, layout (forget S) x f)) xs (map forget_f (rfields_of S m)))).
        { eapply nth_error_In with (n := i). rewrite nth_error_zw, Ex, nth_error_map, Eg. reflexivity. }
        apply app_eq_nil in E. destruct E as [E1 E]. apply app_eq_nil in E. destruct E as [E2 E3].
        assert (G : forall p, group p (zw (fun x f => (f, layout (forget S) x f)) xs (map forget_f (rfields_of S m))) = [] -> p (forget_f g) = true -> layout (forget S) x (forget_f g) = []).
        { intros p Hg Hp. unfold group in Hg. apply concat_nil_Forall in Hg. rewrite Forall_forall in Hg. apply (Hg (layout (forget S) x (forget_f g))).
          apply in_map_iff. eexists. split; [|apply filter_In; split; [exact Hin|exact Hp]]. reflexivity. }
        destruct g as [[k|n|b]|t|k t]; [apply (G _ E1)|apply (G _ E1)|apply (G _ E3)|apply (G _ E2)|apply (G _ E3)]; reflexivity. }
      destruct (V Lz) as (q & -> & Vq). exists q. split; [reflexivity|exact Vq].
Qed.
Lemma rs_new_reader rt alloc S S' corr m m' ext xs fuel c : rs_compiles S' -> (forall k, ~ vacuous false (forget S') k) ->
  grown (forget S) (forget S') corr m m' ext -> in_order (fields_of (forget S) m) ext -> ext <> [] ->
  go_struct S xs m -> messages_present (GMsg (Some xs)) -> cursor_ok rt c -> rest c = bytes_of S m xs ->
  forall o c', rs_decode rt alloc S' fuel m' c <> RGOk o c'.
Proof.
  intros HC HV HG O N HT HM Hc Hr. pose proof HG as (HK & L & L' & fs & Ef & HF). rewrite forget_length in L'.
  unfold go_struct in HT. apply ht_msg in HT. destruct HT as [_ HT]. pose proof (Forall2_length _ _ _ HT) as Lx. pose proof (Forall2_length _ _ _ HF) as Lf.
  rewrite forget_fields in Ef.
  assert (Er : exists gs, rfields_of S' m' = firstn (length fs) (rfields_of S' m') ++ gs /\ map forget_f gs = ext).
  { exists (skipn (length fs) (rfields_of S' m')). split; [symmetry; apply firstn_skipn|]. rewrite <- skipn_map, Ef, skipn_app, skipn_all, Nat.sub_diag. reflexivity. }
  destruct Er as (gs & Er & Eg).
  assert (FCs : forall f, In f gs -> rfield_compiles S' f = true).
  { intros f Hf. eapply compiles_field_in; [exact HC|]. rewrite Er. apply in_or_app. right; exact Hf. }
  destruct (fill_fields S' gs FCs) as [ys Hys]; [intros b _ Lb; apply fill; assumption|].
  assert (HT' : go_struct S' (xs ++ ys) m').
  { apply ht_msg. split; [rewrite forget_length; exact L'|]. rewrite forget_fields, Ef. apply Forall2_app; [eapply like_fields; eassumption|].
    rewrite <- Eg. clear - Hys. induction Hys as [|y g ys gs [H _]]; constructor; assumption. }
  assert (HM' : messages_present (GMsg (Some (xs ++ ys)))).
  { apply mp_msg. apply mp_msg in HM. apply Forall_app. split; [exact HM|]. clear - Hys. induction Hys as [|y g ys gs (_ & H & _)]; constructor; assumption. }
  destruct (grown_layout _ _ _ _ _ _ xs ys HG O Lx) as (p & Ep & Hp).
  apply (rs_truncated rt alloc S' m' (xs ++ ys) c p fuel HC HT' HM' Hc).
  - unfold bytes_of in *. rewrite Ep, Hr. reflexivity.
  - intros Z. rewrite Z in Hp. destruct gs as [|g gs]; [rewrite <- Eg in N; apply N; reflexivity|]. inversion Hys as [|y g' ys' gs' (_ & _ & V) Hr' E1 E2]; subst.
    unfold group in Hp. cbn [map zw filter fst] in Hp. symmetry in Hp. apply app_eq_nil in Hp. destruct Hp as [E1 E]. apply app_eq_nil in E. destruct E as [E2 E3].
    assert (Lz : layout (forget S') y (forget_f g) = []).
    { destruct g as [[k|n|b]|t|k t]; cbn [forget_f forget_t is_scalar is_repeated is_message map concat snd] in *;
      repeat match goal with H : _ ++ _ = [] |- _ => apply app_eq_nil in H; destruct H end; assumption. }
    destruct (V Lz) as (q & _ & Vq). exact (HV _ Vq).
Qed.
