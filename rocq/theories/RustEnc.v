(** Proofs about the Rust encoder and the API-level theorems for Rust. *)
From Verif Require Import Base Spec SpecProofs Utf8 GoLoop GoIdeal GoSpec GoProps GoProps2 GoThms RustModel RustSpec RustDec RustThms.

Lemma zlen_put_at l i p : 0 <= i -> zlen (put_at l i p) = Z.max (i + zlen p) (zlen l).
Proof.
  intros Hi. unfold put_at. pose proof (zlen_nonneg l). pose proof (zlen_nonneg p).
  rewrite !zlen_app, zlen_ztake by (rewrite zlen_app, zlen_repeat; lia).
  destruct (Z.leb_spec (i + zlen p) (zlen l)).
  - rewrite zlen_zdrop by lia. lia.
  - rewrite zdrop_all by lia. rewrite zlen_nil. lia.
Qed.
Lemma write_all_put c p : 0 <= pos c -> write_all c p = mkcur (put_at (buf c) (pos c) p) (pos c + zlen p).
Proof.
  intros Hp. unfold write_all. f_equal. unfold splice, put_at. pose proof (zlen_nonneg p).
  destruct (Z.ltb_spec (zlen (buf c)) (pos c)).
  - f_equal. f_equal. rewrite !zdrop_all; try reflexivity; try lia. rewrite zlen_app, zlen_repeat; lia.
  - replace (Z.to_nat (pos c - zlen (buf c))) with 0%nat by lia. cbn [repeat]. rewrite app_nil_r. reflexivity.
Qed.
Lemma put_at_app l i p q : 0 <= i -> put_at (put_at l i p) (i + zlen p) q = put_at l i (p ++ q).
Proof.
  intros Hi. pose proof (zlen_nonneg p). pose proof (zlen_nonneg q). pose proof (zlen_nonneg l).
  pose proof (zlen_put_at l i p Hi) as HL.
  unfold put_at at 1. replace (Z.to_nat (i + zlen p - zlen (put_at l i p))) with 0%nat by lia.
  cbn [repeat]. rewrite app_nil_r.
  assert (E1 : ztake (i + zlen p) (put_at l i p) = ztake i (l ++ repeat 0 (Z.to_nat (i - zlen l))) ++ p).
  { unfold put_at. rewrite app_assoc.
    replace (i + zlen p) with (zlen (ztake i (l ++ repeat 0 (Z.to_nat (i - zlen l))) ++ p)) at 1.
    - apply ztake_app_exact.
    - rewrite zlen_app, zlen_ztake; [reflexivity|]. rewrite zlen_app, zlen_repeat. lia. }
  assert (E2 : zdrop (i + zlen p + zlen q) (put_at l i p) = zdrop (i + zlen (p ++ q)) l).
  { unfold put_at. rewrite app_assoc.
    assert (EL : zlen (ztake i (l ++ repeat 0 (Z.to_nat (i - zlen l))) ++ p) = i + zlen p).
    { rewrite zlen_app, zlen_ztake; [reflexivity|]. rewrite zlen_app, zlen_repeat. lia. }
    rewrite zdrop_app2 by lia. rewrite EL. rewrite zdrop_zdrop by lia. rewrite zlen_app. f_equal. lia. }
  rewrite E1, E2. unfold put_at. rewrite <- !app_assoc. reflexivity.
Qed.
Lemma put_at_nil l i : 0 <= i <= zlen l -> put_at l i [] = l.
Proof.
  intros Hi. unfold put_at. replace (Z.to_nat (i - zlen l)) with 0%nat by lia. cbn [repeat app].
  rewrite app_nil_r, zlen_nil, Z.add_0_r. apply ztake_zdrop.
Qed.
Lemma put_at_end l p : put_at l (zlen l) p = l ++ p.
Proof.
  unfold put_at. rewrite Z.sub_diag. cbn [Z.to_nat repeat]. rewrite app_nil_r, ztake_all by lia.
  rewrite zdrop_all by (pose proof (zlen_nonneg p); lia). rewrite app_nil_r. reflexivity.
Qed.
Lemma write_write c p q : 0 <= pos c -> write_all (write_all c p) q = write_all c (p ++ q).
Proof.
  intros Hp. pose proof (zlen_nonneg p). rewrite (write_all_put c p), (write_all_put c (p ++ q)) by exact Hp.
  rewrite write_all_put by (cbn; lia). cbn [buf pos]. rewrite put_at_app by exact Hp. rewrite zlen_app.
  f_equal. lia.
Qed.
Lemma pos_write c p : 0 <= pos c -> 0 <= pos (write_all c p).
Proof. intros. pose proof (zlen_nonneg p). unfold write_all. cbn. lia. Qed.

Lemma varint_loop_ok fuel : forall c value k, 0 <= pos c ->
  0 <= value < 128 ^ (Z.of_nat k + 1) -> (k <= fuel)%nat ->
  varint_loop fuel c value = Ok (write_all c (leb k value)).
Proof.
  induction fuel as [|fuel IH]; intros c value k Hc Hv Hk; cbn [varint_loop]; unfold CONTINUATION, write_u8.
  - assert (k = 0)%nat by lia. subst k. change (128 ^ (Z.of_nat 0 + 1)) with 128 in Hv.
    destruct (Z.geb_spec value 0x80); [lia|]. rewrite u8_small by lia. reflexivity.
  - destruct (Z.geb_spec value 0x80) as [Hge|Hlt].
    + destruct k as [|k]; [change (128 ^ (Z.of_nat 0 + 1)) with 128 in Hv; lia|].
      change 0x80 with 128. rewrite lor_byte_128, shiftr_7 by lia. cbn [leb].
      destruct (Z.ltb_spec value 128); [lia|].
      rewrite Nat2Z.inj_succ in Hv. replace (Z.succ (Z.of_nat k) + 1) with (Z.succ (Z.of_nat k + 1)) in Hv by lia.
      rewrite Z.pow_succ_r in Hv by lia.
      rewrite (IH _ (value / 128) k); [|apply pos_write; exact Hc|lia|lia].
      rewrite write_write by (repeat apply pos_write; exact Hc). cbn [app]. rewrite (Z.add_comm (value mod 128)). reflexivity.
    + rewrite u8_small by lia. destruct k; cbn [leb]; [reflexivity|].
      destruct (Z.ltb_spec value 128); [reflexivity|lia].
Qed.
Lemma varint_loop_20 c n : 0 <= pos c -> 0 <= n < 2 ^ 64 -> varint_loop 20 c n = Ok (write_all c (varint n)).
Proof.
  intros Hc Hn. apply varint_loop_ok; [exact Hc| |lia]. split; [lia|].
  eapply Z.lt_le_trans; [apply Hn|]. vm_compute; discriminate.
Qed.
Lemma u32_enc c n : 0 <= pos c -> 0 <= n < 2 ^ 32 -> encode_u32 c n = Ok (write_all c (10 :: varint n)).
Proof.
  intros Hc Hn. unfold encode_u32, write_u8. rewrite varint_loop_20 by (try apply pos_write; try exact Hc; lia).
  rewrite write_write by (repeat apply pos_write; exact Hc). reflexivity.
Qed.
Lemma bytes32 x : 0 <= x < 2 ^ 32 -> to_be_bytes32 x = be4 x.
Proof.
  intros Hx. unfold to_be_bytes32, be4, u8. rewrite !Z.shiftr_div_pow2 by lia. reflexivity.
Qed.
Lemma bytes64 x : 0 <= x < 2 ^ 64 -> to_be_bytes64 x = be8 x.
Proof.
  intros Hx. unfold to_be_bytes64, be8, be4, u8. rewrite !Z.shiftr_div_pow2 by lia. reflexivity.
Qed.

Theorem encode_ok c v : 0 <= pos c -> valid v -> rust_req (want v) -> encode c v = Ok (write_all c (wire v)).
Proof.
  intros Hc Hv Hq. destruct v; cbn [encode wire valid want rust_req] in *.
  - reflexivity.
  - unfold encode_map, write_u8. destruct Hq. rewrite !as_u8_from by assumption.
    rewrite !write_write by (repeat apply pos_write; exact Hc). rewrite u32_small by apply Hv.
    rewrite u32_enc by (try apply pos_write; try exact Hc; apply Hv). rewrite write_write by (repeat apply pos_write; exact Hc). reflexivity.
  - unfold encode_array, write_u8. rewrite !as_u8_from by assumption.
    rewrite !write_write by (repeat apply pos_write; exact Hc). rewrite u32_small by apply Hv.
    rewrite u32_enc by (try apply pos_write; try exact Hc; apply Hv). rewrite write_write by (repeat apply pos_write; exact Hc). reflexivity.
  - apply payload_len in Hv. unfold encode_bytes, write_u8. rewrite u32_small by lia.
    rewrite u32_enc by (try apply pos_write; try exact Hc; lia). cbn [bind].
    rewrite write_write by (repeat apply pos_write; exact Hc). rewrite write_write by exact Hc. reflexivity.
  - apply payload_len in Hv. unfold encode_string, write_u8. rewrite u32_small by lia.
    rewrite u32_enc by (try apply pos_write; try exact Hc; lia). cbn [bind].
    rewrite write_write by (repeat apply pos_write; exact Hc). rewrite write_write by exact Hc. reflexivity.
  - apply payload_len in Hv. unfold encode_error, write_u8. rewrite u32_small by lia.
    rewrite write_write by (repeat apply pos_write; exact Hc).
    rewrite u32_enc by (try apply pos_write; try exact Hc; lia). cbn [bind].
    rewrite write_write by (repeat apply pos_write; exact Hc). rewrite write_write by exact Hc. reflexivity.
  - unfold encode_bool, write_u8. rewrite write_write by (repeat apply pos_write; exact Hc). reflexivity.
  - unfold encode_u8, write_u8. rewrite write_write by (repeat apply pos_write; exact Hc). reflexivity.
  - unfold encode_u16, write_u8. rewrite varint_loop_20 by (try apply pos_write; try exact Hc; lia).
    rewrite write_write by (repeat apply pos_write; exact Hc). reflexivity.
  - rewrite u32_enc by (try exact Hc; lia). reflexivity.
  - unfold encode_u64, write_u8. rewrite varint_loop_20 by (try apply pos_write; try exact Hc; lia).
    rewrite write_write by (repeat apply pos_write; exact Hc). reflexivity.
  - unfold encode_i32. pose proof (zigzag_cast 32 n ltac:(lia) Hv) as E. cbn zeta in E.
    unfold u32. rewrite E. pose proof (zigzag32 n Hv). unfold write_u8.
    rewrite varint_loop_20 by (try apply pos_write; try exact Hc; lia). rewrite write_write by (repeat apply pos_write; exact Hc). reflexivity.
  - unfold encode_i64. pose proof (zigzag_cast 64 n ltac:(lia) Hv) as E. cbn zeta in E.
    unfold u64. rewrite E. pose proof (zigzag64 n Hv). unfold write_u8.
    rewrite varint_loop_20 by (try apply pos_write; try exact Hc; lia). rewrite write_write by (repeat apply pos_write; exact Hc). reflexivity.
  - unfold encode_f32, write_u8. rewrite write_write by (repeat apply pos_write; exact Hc). rewrite bytes32 by exact Hv. reflexivity.
  - unfold encode_f64, write_u8. rewrite write_write by (repeat apply pos_write; exact Hc). rewrite bytes64 by exact Hv. reflexivity.
Qed.
Lemma encode_all_ok vs : forall c, 0 <= pos c -> Forall valid vs -> Forall (fun v => rust_req (want v)) vs ->
  vs <> [] -> encode_all c vs = Ok (write_all c (wires vs)).
Proof.
  induction vs as [|v vs IH]; intros c Hc Hv Hq Hne; [contradiction|].
  inversion Hv; subst. inversion Hq; subst. cbn [encode_all]. rewrite encode_ok by assumption. cbn [bind].
  destruct vs as [|w vs].
  - cbn [encode_all]. rewrite wires_cons. unfold wires; cbn. rewrite app_nil_r. reflexivity.
  - rewrite IH; [|apply pos_write; assumption|assumption|assumption|discriminate].
    rewrite write_write by (repeat apply pos_write; exact Hc). rewrite (wires_cons v). reflexivity.
Qed.
Lemma enc_rust c vs : 0 <= pos c -> Forall rust_valid vs -> vs <> [] ->
  encode_all c vs = Ok (mkcur (put_at (buf c) (pos c) (wires vs)) (pos c + zlen (wires vs))).
Proof.
  intros Hc Hv Hne. rewrite encode_all_ok; [|exact Hc| | |exact Hne].
  - rewrite write_all_put by (repeat apply pos_write; exact Hc). reflexivity.
  - eapply Forall_impl; [|exact Hv]. intros v H; apply H.
  - eapply Forall_impl; [|exact Hv]. intros v H; apply H.
Qed.
Lemma enc_rust_end l vs : Forall rust_valid vs ->
  encode_all (mkcur l (zlen l)) vs = Ok (mkcur (l ++ wires vs) (zlen (l ++ wires vs))).
Proof.
  intros Hv. destruct vs as [|v vs].
  - cbn. rewrite app_nil_r. reflexivity.
  - rewrite enc_rust by (try exact Hv; try discriminate; cbn; apply zlen_nonneg). cbn [buf pos].
    rewrite put_at_end, zlen_app. reflexivity.
Qed.

(** ** decoding *)
Lemma dec_rust_ok rt q c v c' : rust_req q -> cursor_ok rt c ->
  decode rt q c = ROk v c' <->
  exists r, accepts false q (rest c) r v /\ text_ok v /\ c' = at_rest c r.
Proof.
  intros Hq Hc. rewrite decode_lift by assumption. destruct (rest_ok rt c Hc) as [Hb Hi].
  pose proof (ideal_r_iff rt q (rest c) (ideal rt q (rest c)) Hb Hi) as [HS _]. specialize (HS eq_refl).
  split.
  - destruct (ideal rt q (rest c)); cbn [lift]; try discriminate. intros H; injection H as <- <-.
    exists r. destruct HS. repeat split; assumption.
  - intros (r & HA & Hx & ->). assert (ideal rt q (rest c) = ID r v) as -> by (apply ideal_r_iff; try assumption; split; assumption).
    reflexivity.
Qed.
Lemma dec_rust_err rt q c e c' : rust_req q -> cursor_ok rt c ->
  decode rt q c = RErr e c' <-> exists r, rfails rt q (rest c) r e /\ c' = at_rest c r.
Proof.
  intros Hq Hc. rewrite decode_lift by assumption. destruct (rest_ok rt c Hc) as [Hb Hi].
  pose proof (ideal_r_iff rt q (rest c) (ideal rt q (rest c)) Hb Hi) as [HS _]. specialize (HS eq_refl).
  split.
  - destruct (ideal rt q (rest c)); cbn [lift]; try discriminate. intros H; injection H as <- <-.
    exists r. split; [exact HS|reflexivity].
  - intros (r & HA & ->). assert (ideal rt q (rest c) = IF r e) as -> by (apply ideal_r_iff; assumption).
    reflexivity.
Qed.
Lemma dec_rust_panic rt q c : rust_req q -> cursor_ok rt c ->
  decode rt q c = RPanic <-> rpanics rt q (rest c).
Proof.
  intros Hq Hc. rewrite decode_lift by assumption. destruct (rest_ok rt c Hc) as [Hb Hi].
  pose proof (ideal_r_iff rt q (rest c) (ideal rt q (rest c)) Hb Hi) as [HS _]. specialize (HS eq_refl).
  split.
  - destruct (ideal rt q (rest c)); cbn [lift]; try discriminate. intros _; exact HS.
  - intros H. assert (ideal rt q (rest c) = IP) as -> by (apply ideal_r_iff; assumption). reflexivity.
Qed.
