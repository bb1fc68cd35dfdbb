(** Generated Rust code: encode, round trip, agreement with the generated Go code, any input. *)
From Coq Require Import String.
From Verif Require Import Base Spec SpecProofs Utf8 GoSpec BufSpec GoProps2 RustModel RustSpec RustDec RustThms RustEnc RustThms2 GenTables.
From Verif Require Import GenLemmas GenFields GenDec GenTerm GenThms2 RsGenModel RsGenSpec RsGenLemmas RsGenDec RsGenRound RsGenAny.
From Verif Require V1Model V2Model.
From Verif Require Import GenModel GenSpec.
Import RustModel RsGenModel RsGenSpec.

Lemma rs_msg_compiles S m : (m < length S)%nat -> rfield_compiles S (ROne (RMsg m)) = true.
Proof. intros L. cbn. apply Nat.ltb_lt. exact L. Qed.
Lemma go_struct_lt S xs m : go_struct S xs m -> (m < length S)%nat.
Proof. intros H. apply ht_msg in H. rewrite forget_length in H. apply H. Qed.

Theorem rs_encode_layout S c m xs : rs_compiles S -> rust_struct S xs m -> 0 <= pos c <= zlen (buf c) ->
  rs_encode S c m xs = Some (Ok (mkcur (put_at (buf c) (pos c) (bytes_of S m xs)) (pos c + zlen (bytes_of S m xs)))).
Proof.
  intros HC (HT & HR & HN) Hp.
  destruct (rs_calls_ok S HC (GMsg (Some xs)) (ROne (RMsg m)) HT (rs_msg_compiles S m (go_struct_lt _ _ _ HT)) HR HN) as (vs & E & V & L).
  unfold rs_encode. rewrite E. cbn [option_map]. f_equal. unfold bytes_of. cbn [forget_f forget_t] in L. rewrite <- L.
  destruct vs as [|v vs].
  - cbn. rewrite put_at_nil by exact Hp. rewrite Z.add_0_r. destruct c; reflexivity.
  - apply enc_rust; [lia|exact V|discriminate].
Qed.
Theorem rs_encode_append S l m xs : rs_compiles S -> rust_struct S xs m ->
  rs_encode S (mkcur l (zlen l)) m xs = Some (Ok (mkcur (l ++ bytes_of S m xs) (zlen (l ++ bytes_of S m xs)))).
Proof.
  intros HC HT. pose proof (zlen_nonneg l). rewrite rs_encode_layout by (try assumption; cbn; lia). cbn [pos buf].
  rewrite put_at_end, zlen_app. reflexivity.
Qed.


Theorem rs_decode_sent rt alloc S c m xs r fuel : rs_compiles S -> sent_struct (forget S) xs m ->
  affordable alloc S (GMsg (Some xs)) (ROne (RMsg m)) -> cursor_ok rt c -> rest c = bytes_of S m xs ++ r ->
  (depth (GMsg (Some xs)) <= fuel)%nat ->
  anchored_all S m xs \/ (ready S (GMsg (Some xs)) (ROne (RMsg m)) /\ quiet r) ->
  out (ready S (GMsg (Some xs)) (ROne (RMsg m))) (RGOk (Some (map fin xs)) (at_rest c r)) (rs_decode rt alloc S fuel m c).
Proof.
  intros HC HT HA Hc HR HF HM. destruct Hc as (Hp & Hb & Hi). destruct (cursor_cur c Hp) as [Ec Sc].
  assert (E : rs_decode rt alloc S fuel m c = rs_decode rt alloc S fuel m (cur (buf c) (bytes_of S m xs ++ r))) by (rewrite <- HR, <- Ec; reflexivity).
  rewrite E. change (at_rest c r) with (cur (buf c) r). rewrite HR in Sc.
  apply depth_msg in HF. destruct HF as (k & -> & HD). rewrite Forall_forall in HD.
  apply message_out; auto. intros x f e u Hx. intros. apply step_out; auto.
Qed.

Theorem rs_decode_out rt alloc S c m xs r fuel : rs_compiles S -> go_struct S xs m ->
  affordable alloc S (GMsg (Some xs)) (ROne (RMsg m)) -> cursor_ok rt c -> rest c = bytes_of S m xs ++ r ->
  (depth (GMsg (Some xs)) <= fuel)%nat ->
  anchored_all S m xs \/ (ready S (GMsg (Some xs)) (ROne (RMsg m)) /\ quiet r) ->
  out (ready S (GMsg (Some xs)) (ROne (RMsg m))) (RGOk (Some (map settle xs)) (at_rest c r)) (rs_decode rt alloc S fuel m c).
Proof.
  intros HC HT HA Hc HR HF HM. replace (map settle xs) with (map fin xs); [apply rs_decode_sent; auto; apply ht_st; exact HT|].
  apply collapse_id in HT. cbn [collapse] in HT. assert (E : map collapse xs = xs) by congruence.
  rewrite <- E at 2. rewrite map_map. reflexivity.
Qed.

Lemma settle_id x : no_nil x -> settle x = x.
Proof.
  induction x using gval_ind'; intros HN; cbn [settle]; try reflexivity.
  - f_equal. apply nn_list in HN. rewrite Forall_forall in H, HN. rewrite <- (map_id xs) at 2. apply map_ext_in. intros x Hx. apply H; auto.
  - contradiction HN.
  - do 2 f_equal. apply nn_map in HN. rewrite Forall_forall in H, HN. rewrite <- (map_id l) at 2. apply map_ext_in. intros [k x] Hx. cbn. f_equal. apply (H _ Hx). apply (HN _ Hx).
  - do 2 f_equal. apply nn_msg in HN. rewrite Forall_forall in H, HN. rewrite <- (map_id xs) at 2. apply map_ext_in. intros x Hx. apply H; auto.
Qed.
Lemma settle_all xs : no_nil (GMsg (Some xs)) -> map settle xs = xs.
Proof. intros H. apply settle_id in H. cbn in H. congruence. Qed.

Theorem rs_round_trip rt alloc S c m xs r fuel : rs_compiles S -> rust_struct S xs m ->
  affordable alloc S (GMsg (Some xs)) (ROne (RMsg m)) -> anchored_all S m xs \/ quiet r ->
  cursor_ok rt c -> rest c = bytes_of S m xs ++ r -> (depth (GMsg (Some xs)) <= fuel)%nat ->
  rs_decode rt alloc S fuel m c = RGOk (Some xs) (at_rest c r).
Proof.
  intros HC (HT & HR & HN) HA HM Hc Hr HF.
  destruct (rs_decode_out rt alloc S c m xs r fuel HC HT HA Hc Hr HF) as [[_ E]|(N & _)]; [tauto| |contradiction].
  rewrite E, settle_all by exact HN. reflexivity.
Qed.

Theorem rs_last rt alloc S c m xs r fuel : rs_compiles S -> sent_struct (forget S) xs m ->
  ready S (GMsg (Some xs)) (ROne (RMsg m)) -> no_nil (GMsg (Some xs)) ->
  affordable alloc S (GMsg (Some xs)) (ROne (RMsg m)) -> anchored_all S m xs \/ quiet r ->
  cursor_ok rt c -> rest c = bytes_of S m xs ++ r -> (depth (GMsg (Some xs)) <= fuel)%nat ->
  rs_decode rt alloc S fuel m c = RGOk (Some (map collapse xs)) (at_rest c r).
Proof.
  intros HC HT HR HN HA HM Hc Hr HF.
  destruct (rs_decode_sent rt alloc S c m xs r fuel HC HT HA Hc Hr HF) as [[_ E]|(N & _)]; [tauto| |contradiction].
  rewrite E. do 2 f_equal. apply map_ext_in. intros x Hx. unfold fin. apply settle_id, collapse_no_nil.
  apply nn_msg in HN. rewrite Forall_forall in HN. auto.
Qed.

(** ** errors and nils in the input *)
Theorem rs_remote_error rt alloc S c m p r fuel : payload_ok p -> utf8 p -> cursor_ok rt c -> rest c = wire (VError p) ++ r ->
  rs_decode rt alloc S (Datatypes.S fuel) m c = RGErr (Remote p) (at_rest c r).
Proof.
  intros Hp Hu Hc Hr. pose proof Hc as (Hpos & Hb & Hi). destruct (cursor_cur c Hpos) as [Ec Sc]. cbn [rs_decode].
  pose proof (none_fine rt alloc c Hc) as N. 
  assert (E : decode_none rt c = decode_none rt (cur (buf c) (wire (VError p) ++ r))) by (rewrite <- Hr, <- Ec; reflexivity).
  rewrite (none_cur rt alloc) in E by (rewrite <- Hr; exact Sc). cbn [wire app Z.eqb] in E. rewrite E in N |- *. destruct N as [_ N]. rewrite (N eq_refl).
  pose proof (dec_cur rt (buf c) Hb Hi (VError p) r) as D. rewrite <- Hr, <- Ec in D. specialize (D ltac:(split; [exact Hp|split; [exact I|exact Hu]]) Sc).
  cbn [want RustModel.decode] in D. destruct (decode_error rt c) as [q c1|e c1|]; cbn [rmap] in D; try discriminate D. injection D as -> ->. reflexivity.
Qed.
Theorem rs_nil rt alloc S c m r fuel : cursor_ok rt c -> rest c = 0 :: r ->
  rs_decode rt alloc S (Datatypes.S fuel) m c = RGOk None (at_rest c r).
Proof.
  intros Hc Hr. pose proof Hc as (Hpos & Hb & Hi). destruct (cursor_cur c Hpos) as [Ec Sc]. cbn [rs_decode].
  assert (E : decode_none rt c = decode_none rt (cur (buf c) (0 :: r))) by (rewrite <- Hr, <- Ec; reflexivity).
  rewrite (none_cur rt alloc) in E by (rewrite <- Hr; exact Sc). cbn in E. rewrite E. reflexivity.
Qed.

(** ** Go and Rust *)
Theorem go1_to_rust g S b m xs rt alloc fuel r : compiles (forget S) = true -> rs_compiles S -> go_struct S xs m ->
  anchored_all S m xs -> affordable alloc S (GMsg (Some xs)) (ROne (RMsg m)) -> (depth (GMsg (Some xs)) <= fuel)%nat -> V1Model.wf b ->
  exists b' o, Encode1 g (forget S) b m (Some xs) = Some (Ok b') /\ V1Model.Bytes b' = V1Model.Bytes b ++ o /\
    forall c, cursor_ok rt c -> rest c = o ++ r ->
      (ready S (GMsg (Some xs)) (ROne (RMsg m)) -> rs_decode rt alloc S fuel m c = RGOk (Some (map settle xs)) (at_rest c r)) /\
      (~ ready S (GMsg (Some xs)) (ROne (RMsg m)) -> exists e c', rs_decode rt alloc S fuel m c = RGErr e c').
Proof.
  intros HG HC HT HA HF HD Hw. destruct (encode1_layout g (forget S) b m xs HG HT Hw) as (b' & E & _ & B).
  exists b', (bytes_of S m xs). split; [exact E|]. split; [exact B|]. intros c Hc Hr.
  destruct (rs_decode_out rt alloc S c m xs r fuel HC HT HF Hc Hr HD (or_introl HA)) as [[G X]|(G & X)]; split; intros Y; auto; contradiction.
Qed.
Theorem go2_to_rust g S b m xs rt alloc fuel r : compiles (forget S) = true -> rs_compiles S -> go_struct S xs m ->
  anchored_all S m xs -> affordable alloc S (GMsg (Some xs)) (ROne (RMsg m)) -> (depth (GMsg (Some xs)) <= fuel)%nat -> V2Model.wf b ->
  small_bytes (prims (GMsg (Some xs))) ->
  exists b' l o, V2Model.Bytes b = Ok l /\ Encode2 g (forget S) b m (Some xs) = Some (Ok b') /\ V2Model.Bytes b' = Ok (l ++ o) /\
    forall c, cursor_ok rt c -> rest c = o ++ r ->
      (ready S (GMsg (Some xs)) (ROne (RMsg m)) -> rs_decode rt alloc S fuel m c = RGOk (Some (map settle xs)) (at_rest c r)) /\
      (~ ready S (GMsg (Some xs)) (ROne (RMsg m)) -> exists e c', rs_decode rt alloc S fuel m c = RGErr e c').
Proof.
  intros HG HC HT HA HF HD Hw Hs. destruct (encode2_layout g (forget S) b m xs HG HT Hw Hs) as (b' & l & B0 & E & _ & B).
  exists b', l, (bytes_of S m xs). split; [exact B0|]. split; [exact E|]. split; [exact B|]. intros c Hc Hr.
  destruct (rs_decode_out rt alloc S c m xs r fuel HC HT HF Hc Hr HD (or_introl HA)) as [[G X]|(G & X)]; split; intros Y; auto; contradiction.
Qed.
Theorem rust_to_go W S l m xs old r fuel : compiles (forget S) = true -> rs_compiles S -> rust_struct S xs m -> anchored_all S m xs ->
  go_struct S old m -> bytes_ok r -> (depth (GMsg (Some xs)) <= fuel)%nat ->
  exists o, rs_encode S (mkcur l (zlen l)) m xs = Some (Ok (mkcur (l ++ o) (zlen (l ++ o)))) /\
    (int_ok W (o ++ r) -> Decode2 W (forget S) fuel m (Some old) (o ++ r) = Some (GDone r xs)) /\
    (forall K, new_ok (forget S) K -> int_ok W (o ++ r) -> (depth (GMsg (Some xs)) + K <= fuel)%nat ->
       Decode1 W (forget S) fuel m (Some old) (o ++ r) = Some (GDone r xs)).
Proof.
  intros HG HC HT HA HO Hr HD. exists (bytes_of S m xs). split; [apply rs_encode_append; assumption|]. destruct HT as (HT & _ & HN). split.
  - intros Hi. apply decode2_reuse; assumption.
  - intros K HK Hi HD'. eapply decode1_reuse; eassumption.
Qed.

(** ** any input *)
Theorem rs_any_input rt alloc S m c fuel : rs_compiles S -> (m < length S)%nat -> cursor_ok rt c ->
  match rs_decode rt alloc S fuel m c with
  | RGOk o c' => forward c c' /\ (forall xs, o = Some xs -> rust_struct S xs m)
  | RGErr e c' => forward c c' /\ (forall p, e = Remote p -> utf8 p)
  | RGDie => W rt = 32 \/ exists t n, 0 <= n < 2 ^ 32 /\ alloc t n = false
  | RGDeep => True
  | RGBroken => False
  end.
Proof.
  intros HC L Hc. destruct (bnd_all S (proj2 HC)) as [N HN].
  pose proof (decode_fine rt alloc S HC N HN fuel N m c (HN m) L Hc) as X.
  destruct (rs_decode rt alloc S fuel m c) as [o c'|e c'| | |]; cbn [fine] in X; auto.
  - destruct X as [F G]. split; [exact F|]. intros xs ->. exact G.
  - destruct X as [F G]. split; [exact F|]. intros p ->. exact G.
Qed.
Theorem rs_stack_bound S : rs_compiles S -> exists H, forall rt alloc m c fuel, (m < length S)%nat -> cursor_ok rt c ->
  Z.of_nat H * (1 + zlen (rest c)) <= Z.of_nat fuel -> rs_decode rt alloc S fuel m c <> RGDeep.
Proof.
  intros HC. destruct (bnd_all S (proj2 HC)) as [N HN]. exists (N + 1)%nat. intros rt alloc m c fuel L Hc HF E.
  pose proof (decode_fine rt alloc S HC N HN fuel N m c (HN m) L Hc) as X. rewrite E in X. cbn [fine] in X.
  destruct Hc as (Hp & _). unfold rest in HF. rewrite zlen_zdrop in HF by exact Hp. unfold room in X. nia.
Qed.

(** ** more stack gives the same answer *)
Definition under {A} (x y : rgres A) : Prop := x = RGDeep \/ x = y.
Lemma under_refl {A} (x : rgres A) : under x x. Proof. right. reflexivity. Qed.
Lemma under_try {A B} (x x' : rgres A) (k k' : A -> cursor -> rgres B) : under x x' -> (forall a c, under (k a c) (k' a c)) -> under (gtry x k) (gtry x' k').
Proof. intros [->| ->] H; [left; reflexivity|]. destruct x'; cbn; try apply under_refl. apply H. Qed.
Section Under.
Variables (rt : runtime) (alloc : rtype -> Z -> bool) (rec rec' : nat -> cursor -> rgres (option (list gval))).
Hypothesis HR : forall m c, under (rec m c) (rec' m c).
Lemma ok_or_under m e c : under (rs_ok_or rec m e c) (rs_ok_or rec' m e c).
Proof. apply under_try; [apply HR|]. intros. apply under_refl. Qed.
Lemma elems_under t n : forall c, under (rs_dec_elems rt rec t n c) (rs_dec_elems rt rec' t n c).
Proof.
  induction n as [|n IH]; intros c; [apply under_refl|]. cbn [rs_dec_elems]. apply under_try; [destruct t; [apply under_refl|apply under_refl|apply ok_or_under]|].
  intros x c'. apply under_try; [apply IH|]. intros. apply under_refl.
Qed.
Lemma entries_under kk t n : forall l c, under (rs_dec_entries rt rec kk t n l c) (rs_dec_entries rt rec' kk t n l c).
Proof.
  induction n as [|n IH]; intros l c; [apply under_refl|]. cbn [rs_dec_entries]. apply under_try; [apply under_refl|]. intros k c1.
  apply under_try; [destruct t; [apply under_refl|apply under_refl|apply ok_or_under]|]. intros v c2. apply IH.
Qed.
Lemma slice_under f c : under (rs_dec_slice rt alloc rec f c) (rs_dec_slice rt alloc rec' f c).
Proof.
  destruct f as [t|t|k t]; try apply under_refl. cbn [rs_dec_slice]. destruct (rs_kind _); [|apply under_refl]. apply under_try; [apply under_refl|].
  intros v c1. destruct v; try apply under_refl. destruct (alloc t size); [|apply under_refl]. apply under_try; [apply elems_under|]. intros. apply under_refl.
Qed.
Lemma message_under f c : under (rs_dec_message rt rec f c) (rs_dec_message rt rec' f c).
Proof.
  destruct f as [[k|n|m]|t|k t]; try apply under_refl; cbn [rs_dec_message]; [apply ok_or_under|].
  destruct (decode_none rt c) as [[|] c1|e c1|]; try apply under_refl. destruct (rs_kind (rs_getKind k)); [|apply under_refl].
  destruct (rs_kind (rs_getKind (rkind t))); [|apply under_refl]. destruct (RustModel.decode rt (RMap z z0) c1) as [v c2|e c2|]; try apply under_refl.
  destruct v; try apply under_refl. apply under_try; [apply entries_under|]. intros. apply under_refl.
Qed.
Lemma rs_pass_under stp stp' fs : (forall f c, under (stp f c) (stp' f c)) -> forall is c, under (rs_pass stp fs is c) (rs_pass stp' fs is c).
Proof.
  intros H. induction is as [|i is IH]; intros c; [apply under_refl|]. cbn [rs_pass]. destruct (nth_error fs i); [|apply under_refl].
  apply under_try; [apply H|]. intros x c1. apply under_try; [apply IH|]. intros. apply under_refl.
Qed.
End Under.
Theorem rs_decode_mono rt alloc S : forall fuel fuel' m c, (fuel <= fuel')%nat ->
  rs_decode rt alloc S fuel m c <> RGDeep -> rs_decode rt alloc S fuel' m c = rs_decode rt alloc S fuel m c.
Proof.
  assert (G : forall fuel fuel' m c, (fuel <= fuel')%nat -> under (rs_decode rt alloc S fuel m c) (rs_decode rt alloc S fuel' m c)).
  { induction fuel as [|fuel IH]; intros fuel' m c L; [left; reflexivity|]. destruct fuel' as [|fuel']; [lia|]. cbn [rs_decode].
    destruct (decode_none rt c) as [[|] c1|e c1|]; try apply under_refl. destruct (decode_error rt c1) as [p c2|e c2|]; try apply under_refl.
    destruct (nth_error S m) as [fs|]; [|apply under_refl]. destruct (rs_getFields rs_decodeLUT fs) as [[[o s] ms]|]; [|apply under_refl].
    apply under_try; [apply under_refl|]. intros a c3. apply under_try; [apply rs_pass_under; intros; apply slice_under; intros; apply IH; lia|].
    intros b c4. apply under_try; [apply rs_pass_under; intros; apply message_under; intros; apply IH; lia|]. intros d c5. apply under_refl. }
  intros fuel fuel' m c L H. destruct (G fuel fuel' m c L) as [X|X]; congruence.
Qed.

(** ** decoded structs can be sent on *)
Theorem rs_reencode rt alloc S m c fuel xs c' l : rs_compiles S -> (m < length S)%nat -> cursor_ok rt c ->
  rs_decode rt alloc S fuel m c = RGOk (Some xs) c' ->
  exists o, rs_encode S (mkcur l (zlen l)) m xs = Some (Ok (mkcur (l ++ o) (zlen (l ++ o)))) /\
    forall rt2 alloc2 c2 fuel2, cursor_ok rt2 c2 -> rest c2 = o -> affordable alloc2 S (GMsg (Some xs)) (ROne (RMsg m)) ->
      (depth (GMsg (Some xs)) <= fuel2)%nat -> rs_decode rt2 alloc2 S fuel2 m c2 = RGOk (Some xs) (at_rest c2 []).
Proof.
  intros HC L Hc E. pose proof (rs_any_input rt alloc S m c fuel HC L Hc) as X. rewrite E in X. destruct X as [_ X]. specialize (X xs eq_refl).
  exists (bytes_of S m xs). split; [apply rs_encode_append; assumption|]. intros rt2 alloc2 c2 fuel2 Hc2 Hr HA HD.
  apply rs_round_trip; auto; [right; left; reflexivity|]. rewrite app_nil_r. exact Hr.
Qed.

(** ** an error whose text is not UTF-8 is skipped *)
Theorem rs_bad_error rt alloc S c m p t fuel : payload_ok p -> ~ utf8 p -> cursor_ok rt c -> rest c = wire (VError p) ++ t -> quiet t ->
  rs_decode rt alloc S fuel m c = rs_decode rt alloc S fuel m (at_rest c t).
Proof.
  intros Hp Hu Hc Hr Q. pose proof Hc as (Hpos & Hb & Hi). destruct (cursor_cur c Hpos) as [Ec Sc]. destruct fuel as [|fuel]; [reflexivity|].
  assert (E : decode_none rt c = ROk false c).
  { pose proof (none_fine rt alloc c Hc) as N. 
    assert (E : decode_none rt c = decode_none rt (cur (buf c) (wire (VError p) ++ t))) by (rewrite <- Hr, <- Ec; reflexivity).
    rewrite (none_cur rt alloc) in E by (rewrite <- Hr; exact Sc). cbn [wire app Z.eqb] in E. rewrite E in N |- *. destruct N as [_ N]. rewrite (N eq_refl). reflexivity. }
  assert (D : exists e, decode_error rt c = RErr e (at_rest c t)).
  { rewrite Hr in Sc. destruct Sc as [pre EB].
    assert (Ec' : c = mkcur (pre ++ wire (VError p) ++ t) (zlen pre)).
    { transitivity (cur (buf c) (wire (VError p) ++ t)); [rewrite <- Hr; exact Ec|]. unfold cur. rewrite EB. f_equal. rewrite (zlen_app pre). lia. }
    destruct (go_text_iff rt pre p t (VError p) Hp (or_intror eq_refl)) as [_ H]; [rewrite <- Ec'; exact Hc|]. specialize (H Hu). rewrite <- Ec' in H.
    cbn [want RustModel.decode] in H. unfold at_rest. destruct (decode_error rt c) as [q c1|e c1|]; cbn [rmap] in H; try discriminate H.
    eexists. f_equal. transitivity (mkcur (pre ++ wire (VError p) ++ t) (zlen pre + zlen (wire (VError p)))); [congruence|]. rewrite EB. f_equal. rewrite (zlen_app pre), (zlen_app (wire (VError p))). lia. }
  destruct D as [e D]. change (at_rest c t) with (cur (buf c) t) in *.
  assert (St : suf t (buf c)) by (rewrite Hr in Sc; eapply suf_app; exact Sc).
  cbn [rs_decode]. rewrite E, D. rewrite (quiet_none rt alloc) by assumption. destruct (error_cur rt (buf c) t St Q) as [e' ->]. reflexivity.
Qed.
