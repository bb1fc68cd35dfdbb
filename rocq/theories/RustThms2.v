(** API-level theorems for Rust: round trip, motion of the cursor, agreement with Go. *)
From Verif Require Import Base Spec SpecProofs Utf8 GoLoop GoSpec BufSpec GoProps GoProps2 GoThms GoThms2 GoThms3
  RustModel RustSpec RustDec RustThms RustEnc.
From Verif Require V1Model V2Model.

Lemma rest_at l t r : l = t ++ r -> rest (mkcur l (zlen t)) = r.
Proof. intros ->. unfold rest. cbn [buf pos]. apply zdrop_app_exact. Qed.
Lemma int_shorter Wd a b : int_ok Wd b -> zlen a <= zlen b -> int_ok Wd a.
Proof. intros [H1 H2] H. split; [exact H1|lia]. Qed.

(** one value *)
Lemma dec_wire rt l v r : rust_valid v -> cursor_ok rt (mkcur (l ++ wire v ++ r) (zlen l)) ->
  decode rt (want v) (mkcur (l ++ wire v ++ r) (zlen l)) =
  ROk v (mkcur (l ++ wire v ++ r) (zlen l + zlen (wire v))).
Proof.
  intros (Hv & Hq & Ht) Hc. apply dec_rust_ok; [exact Hq|exact Hc|].
  exists r. rewrite (rest_at _ l (wire v ++ r)) by reflexivity. split; [apply wire_accepts; exact Hv|].
  split; [exact Ht|]. unfold at_rest. cbn [buf]. f_equal. rewrite !zlen_app. lia.
Qed.
Lemma dec_wires rt vs : forall l r, Forall rust_valid vs ->
  bytes_ok (l ++ wires vs ++ r) -> int_ok (W rt) (l ++ wires vs ++ r) ->
  decode_all rt (map want vs) (mkcur (l ++ wires vs ++ r) (zlen l)) =
  ROk vs (mkcur (l ++ wires vs ++ r) (zlen l + zlen (wires vs))).
Proof.
  induction vs as [|v vs IH]; intros l r Hv Hb Hi.
  - unfold wires. cbn [map concat decode_all]. f_equal. f_equal. rewrite zlen_nil. lia.
  - inversion Hv; subst. rewrite wires_cons in *. cbn [map decode_all]. rewrite <- (app_assoc (wire v)) in *.
    rewrite dec_wire; [|assumption|].
    + cbn [rbind].
      assert (E : l ++ wire v ++ wires vs ++ r = (l ++ wire v) ++ wires vs ++ r) by (rewrite <- !app_assoc; reflexivity).
      rewrite E in *. rewrite <- zlen_app. rewrite IH by assumption. cbn [rbind]. f_equal. f_equal.
      rewrite !zlen_app. lia.
    + split; [|split; assumption]. cbn [buf pos]. rewrite !zlen_app.
      pose proof (zlen_nonneg l); pose proof (zlen_nonneg (wire v)); pose proof (zlen_nonneg (wires vs)); pose proof (zlen_nonneg r). lia.
Qed.

Lemma rust_round rt l vs r : Forall rust_valid vs -> bytes_ok (l ++ wires vs ++ r) -> int_ok (W rt) (l ++ wires vs ++ r) ->
  exists c, encode_all (mkcur l (zlen l)) vs = Ok c /\
    decode_all rt (map want vs) (mkcur (buf c ++ r) (zlen l)) = ROk vs (mkcur (buf c ++ r) (zlen (buf c))).
Proof.
  intros Hv Hb Hi. eexists. split; [apply enc_rust_end; exact Hv|]. cbn [buf].
  rewrite <- app_assoc. rewrite dec_wires by assumption. f_equal. f_equal. rewrite zlen_app. lia.
Qed.

(** ** motion of the cursor *)
Lemma dec_moves rt q c v c' : rust_req q -> cursor_ok rt c -> decode rt q c = ROk v c' ->
  buf c' = buf c /\ pos c < pos c' <= zlen (buf c) /\ rest c = ztake (pos c' - pos c) (rest c) ++ rest c'.
Proof.
  intros Hq Hc H. apply dec_rust_ok in H; [|assumption..]. destruct H as (r & HA & _ & ->).
  destruct (accepts_split _ _ _ _ _ HA) as [(H & _)|(p & Hne & E & _)]; [discriminate H|].
  destruct Hc as (Hp & _). unfold at_rest, rest in *. cbn [buf pos].
  assert (L : zlen (zdrop (pos c) (buf c)) = zlen p + zlen r) by (rewrite E, zlen_app; reflexivity).
  rewrite zlen_zdrop in L by lia.
  assert (0 < zlen p) by (destruct p; [congruence|rewrite zlen_cons; pose proof (zlen_nonneg p); lia]).
  pose proof (zlen_nonneg r). split; [reflexivity|]. split; [lia|].
  replace (zlen (buf c) - zlen r) with (zlen p + pos c) by lia.
  rewrite <- (zdrop_zdrop (zlen p) (pos c)) by lia. replace (zlen p + pos c - pos c) with (zlen p) by lia.
  symmetry. apply ztake_zdrop.
Qed.
Lemma dec_err_forward rt q c e c' : rust_req q -> cursor_ok rt c -> decode rt q c = RErr e c' ->
  buf c' = buf c /\ pos c <= pos c' <= zlen (buf c).
Proof.
  intros Hq Hc H. apply dec_rust_err in H; [|assumption..]. destruct H as (r & HA & ->).
  destruct (rfails_suffix _ _ _ _ _ HA) as [p E]. destruct Hc as (Hp & _). unfold at_rest, rest in *. cbn [buf pos].
  assert (L : zlen (zdrop (pos c) (buf c)) = zlen p + zlen r) by (rewrite E, zlen_app; reflexivity).
  rewrite zlen_zdrop in L by lia. pose proof (zlen_nonneg p). pose proof (zlen_nonneg r).
  split; [reflexivity|lia].
Qed.
Lemma dec_64_no_panic rt q c : W rt = 64 -> rust_req q -> cursor_ok rt c -> decode rt q c <> RPanic.
Proof.
  intros HW Hq Hc H. apply dec_rust_panic in H; [|assumption..].
  destruct H as (_ & u & ds & r & _ & _ & H). rewrite HW in H.
  pose proof (Z.mod_pos_bound (dval ds) (2 ^ 32) ltac:(lia)). lia.
Qed.
Lemma dec_keeps_ok rt q c : rust_req q -> cursor_ok rt c ->
  match decode rt q c with ROk _ c' | RErr _ c' => cursor_ok rt c' | RPanic => True end.
Proof.
  intros Hq Hc. destruct Hc as (Hp & Hb & Hi). destruct (decode rt q c) as [v c'|e c'|] eqn:E; [| |exact I].
  - apply dec_moves in E; [|assumption|split; [|split]; assumption]. destruct E as (E1 & E2 & _).
    split; rewrite E1; [lia|split; assumption].
  - apply dec_err_forward in E; [|assumption|split; [|split]; assumption]. destruct E as (E1 & E2).
    split; rewrite E1; [lia|split; assumption].
Qed.

(** ** agreement with Go *)
Lemma at_rest_rest c r : 0 <= pos c <= zlen (buf c) -> (exists p, rest c = p ++ r) -> rest (at_rest c r) = r.
Proof.
  intros Hp [p E]. unfold rest, at_rest in *. cbn [buf pos].
  assert (L : zlen (zdrop (pos c) (buf c)) = zlen p + zlen r) by (rewrite E, zlen_app; reflexivity).
  rewrite zlen_zdrop in L by lia. pose proof (zlen_nonneg p). pose proof (zlen_nonneg r).
  replace (zlen (buf c) - zlen r) with (zlen p + pos c) by lia.
  rewrite <- zdrop_zdrop by lia. rewrite E. apply zdrop_app_exact.
Qed.
Lemma rust_ok_v1 rt W' q c v : rust_req q -> cursor_ok rt c -> int_ok W' (rest c) ->
  (exists c', decode rt q c = ROk v c') <->
  (exists r, V1Model.decode W' None q (rest c) = Done r v) /\ text_ok v.
Proof.
  intros Hq Hc Hi. destruct (rest_ok rt c Hc) as [Hb _]. split.
  - intros [c' H]. apply dec_rust_ok in H; [|assumption..]. destruct H as (r & HA & Ht & _).
    split; [|exact Ht]. exists r. apply dec1_done; assumption.
  - intros [[r H] Ht]. apply dec1_done in H; [|assumption..]. exists (at_rest c r).
    apply dec_rust_ok; [assumption..|]. exists r. auto.
Qed.
Lemma rust_v1_rest rt W' q c v c' : rust_req q -> cursor_ok rt c -> int_ok W' (rest c) ->
  decode rt q c = ROk v c' -> V1Model.decode W' None q (rest c) = Done (rest c') v.
Proof.
  intros Hq Hc Hi H. destruct (rest_ok rt c Hc) as [Hb _].
  apply dec_rust_ok in H; [|assumption..]. destruct H as (r & HA & Ht & ->).
  rewrite at_rest_rest; [|apply Hc|apply (accepts_suffix _ _ _ _ _ HA)]. apply dec1_done; assumption.
Qed.
Lemma rust_v1_full rt W' q c : rust_req q -> cursor_ok rt c -> int_ok W' (rest c) ->
  (forall v, (exists c', decode rt q c = ROk v c') <->
             (exists r, V1Model.decode W' None q (rest c) = Done r v) /\ text_ok v) /\
  (forall v c', decode rt q c = ROk v c' -> V1Model.decode W' None q (rest c) = Done (rest c') v).
Proof.
  intros. split; intros; [apply rust_ok_v1|eapply rust_v1_rest]; eassumption.
Qed.
Lemma is_int_scalar q : is_int q -> scalar_req q /\ q <> RBool /\ int_value q 0 <> None /\ rust_req q.
Proof. destruct q; cbn; try contradiction; intros _; repeat split; discriminate. Qed.
Lemma int_text q b r v : is_int q -> accepts false q b r v -> text_ok v.
Proof.
  intros Hq H. destruct H; cbn in Hq; try contradiction; try exact I.
  destruct q; cbn in *; try contradiction; injection H0 as <-; exact I.
Qed.
Lemma go_rust_ints rt W' ret q c v : is_int q -> cursor_ok rt c -> int_ok W' (rest c) ->
  ((exists c', decode rt q c = ROk v c' /\ V1Model.decode W' None q (rest c) = Done (rest c') v) <->
   exists r, V1Model.decode W' None q (rest c) = Done r v) /\
  V2Model.decode W' ret q (rest c) = V1Model.decode W' None q (rest c).
Proof.
  intros Hq Hc Hi. destruct (is_int_scalar q Hq) as (Hs & Hnb & _ & Hr).
  destruct (rest_ok rt c Hc) as [Hb _]. split; [|symmetry; apply dec_agree; assumption]. split.
  - intros (c' & _ & H). eauto.
  - intros [r H]. assert (Ht : text_ok v) by (eapply int_text; [exact Hq|]; apply dec1_done in H; eassumption).
    destruct (proj2 (rust_ok_v1 rt W' q c v Hr Hc Hi)) as [c' H'].
    + split; [eauto|exact Ht].
    + exists c'. split; [exact H'|]. eapply rust_v1_rest; eassumption.
Qed.
Lemma int_no_panic rt q c : is_int q -> cursor_ok rt c -> decode rt q c <> RPanic.
Proof.
  intros Hq Hc H. destruct (is_int_scalar q Hq) as (_ & _ & _ & Hr). apply dec_rust_panic in H; [|assumption..].
  destruct H as (H & _). destruct q; cbn in *; contradiction.
Qed.
Lemma go_not_done_rust_err rt W' q c : rust_req q -> W rt = 64 \/ ~ has_payload q -> cursor_ok rt c -> int_ok W' (rest c) ->
  (forall r v, V1Model.decode W' None q (rest c) <> Done r v) ->
  exists e c', decode rt q c = RErr e c'.
Proof.
  intros Hq HW Hc Hi Hn. destruct (decode rt q c) as [v c'|e c'|] eqn:E.
  - exfalso. eapply Hn. eapply rust_v1_rest; eassumption.
  - eauto.
  - exfalso. destruct HW as [HW|HW]; [eapply dec_64_no_panic; eassumption|].
    apply dec_rust_panic in E; [|assumption..]. destruct E as [E _]. contradiction.
Qed.

Lemma go_to_rust rt g1 g2 b1 b2 vs r :
  V1Model.wf b1 -> V1Model.Bytes b1 = [] -> V2Model.wf b2 -> V2Model.Bytes b2 = Ok [] ->
  Forall rust_valid vs -> small_bytes vs -> bytes_ok r -> int_ok (W rt) (wires vs ++ r) ->
  exists b1' b2' l, V1Model.encode_all g1 b1 vs = Ok b1' /\ V1Model.Bytes b1' = l /\
    V2Model.encode_all g2 b2 vs = Ok b2' /\ V2Model.Bytes b2' = Ok l /\
    decode_all rt (map want vs) (mkcur (l ++ r) 0) = ROk vs (mkcur (l ++ r) (zlen l)).
Proof.
  intros W1 E1 W2 E2 Hv Hs Hr Hi.
  assert (Hv' : Forall valid vs) by (eapply Forall_impl; [|exact Hv]; intros v H; apply H).
  destruct (interop (W rt) g1 g2 [] b1 b2 vs r W1 E1 W2 E2 Hv' Hs Hr Hi) as (b1' & b2' & l & A & B & C & D & _).
  exists b1', b2', l. repeat split; try assumption.
  destruct (enc1 g1 b1 vs W1 Hv') as (x & A' & _ & B' & _). rewrite A in A'. injection A' as <-.
  rewrite E1 in B'. cbn [app] in B'. rewrite C in B'. clear C D. subst l.
  apply (dec_wires rt vs [] r); cbn [app]; try assumption.
  apply bytes_ok_app. split; [apply wires_ok; exact Hv'|exact Hr].
Qed.
Lemma rust_to_go W' ret l vs r : Forall rust_valid vs -> bytes_ok r -> int_ok W' (wires vs ++ r) ->
  exists c, encode_all (mkcur l (zlen l)) vs = Ok c /\
    read_all (V1Model.decode W' None) (map want vs) (zdrop (zlen l) (buf c) ++ r) = Some (vs, r) /\
    read_all (V2Model.decode W' ret) (map want vs) (zdrop (zlen l) (buf c) ++ r) = Some (vs, r).
Proof.
  intros Hv Hr Hi. assert (Hv' : Forall valid vs) by (eapply Forall_impl; [|exact Hv]; intros v H; apply H).
  eexists. split; [apply enc_rust_end; exact Hv|]. cbn [buf]. rewrite zdrop_app_exact.
  split; [apply read1_wires|apply read2_wires]; assumption.
Qed.
Lemma go_text_to_rust rt l p r v : payload_ok p -> v = VString p \/ v = VError p ->
  cursor_ok rt (mkcur (l ++ wire v ++ r) (zlen l)) ->
  decode rt (want v) (mkcur (l ++ wire v ++ r) (zlen l)) =
  (if from_utf8 p then ROk v (mkcur (l ++ wire v ++ r) (zlen l + zlen (wire v)))
   else RErr (own_err (want v)) (mkcur (l ++ wire v ++ r) (zlen l + zlen (wire v)))).
Proof.
  intros Hp Hv Hc. assert (Hr : rust_req (want v)) by (destruct Hv as [-> | ->]; exact I).
  destruct (from_utf8 p) eqn:E.
  - apply dec_wire; [|exact Hc]. split; [destruct Hv as [-> | ->]; exact Hp|]. split; [exact Hr|].
    apply text_from in E. destruct Hv as [-> | ->]; exact E.
  - apply dec_rust_err; [exact Hr|exact Hc|]. exists r. rewrite (rest_at _ l (wire v ++ r)) by reflexivity.
    split; [|unfold at_rest; cbn [buf]; f_equal; rewrite !zlen_app; lia].
    apply payload_len in Hp as Hl. destruct (wire_length (zlen p) (p ++ r) ltac:(lia)) as [HL HD].
    assert (Hn : ~ utf8 p) by (intros Hu; apply text_from in Hu; congruence).
    destruct Hv as [-> | ->]; cbn [wire want app]; rewrite <- app_assoc.
    + apply (F_utf8 rt RString (10 :: varint (zlen p) ++ p ++ r) (varint (zlen p)) p r); [auto|exact HL|symmetry; exact HD|exact Hn].
    + apply (F_utf8 rt RError (10 :: varint (zlen p) ++ p ++ r) (varint (zlen p)) p r); [auto|exact HL|symmetry; exact HD|exact Hn].
Qed.
Lemma go_text_iff rt l p r v : payload_ok p -> v = VString p \/ v = VError p ->
  cursor_ok rt (mkcur (l ++ wire v ++ r) (zlen l)) ->
  (utf8 p -> decode rt (want v) (mkcur (l ++ wire v ++ r) (zlen l)) =
     ROk v (mkcur (l ++ wire v ++ r) (zlen l + zlen (wire v)))) /\
  (~ utf8 p -> decode rt (want v) (mkcur (l ++ wire v ++ r) (zlen l)) =
     RErr (own_err (want v)) (mkcur (l ++ wire v ++ r) (zlen l + zlen (wire v)))).
Proof.
  intros Hp Hv Hc. rewrite (go_text_to_rust rt l p r v Hp Hv Hc). split; intros H.
  - apply text_from in H. rewrite H. reflexivity.
  - destruct (from_utf8 p) eqn:E; [|reflexivity]. apply text_from in E. contradiction.
Qed.

(** ** kind.rs *)
Lemma kind_bytes k : kind_from (as_u8 k) = k.
Proof. destruct k; reflexivity. Qed.
Lemma kind_numbers n : isbyte n -> as_u8 (kind_from n) = if n <=? 15 then n else 16.
Proof.
  intros [H0 H1]. destruct (Z.leb_spec n 15).
  - assert (In n [0;1;2;3;4;5;6;7;8;9;10;11;12;13;14;15]) as Hin.
    { cbn. lia. }
    cbn in Hin. repeat (destruct Hin as [<-|Hin]; [reflexivity|]). contradiction.
  - unfold kind_from. repeat (match goal with |- context[?a =? ?b] => destruct (Z.eqb_spec a b); [lia|] end). reflexivity.
Qed.
