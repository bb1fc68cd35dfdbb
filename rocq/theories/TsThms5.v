(** The decoder on the wire format (C40-C42). *)
From Verif Require Import Base Spec SpecProofs GoProps2 GoThms2 Utf8 TsModel TsSpec TsThms TsThms2 TsText TsDec TsThms4.

Lemma digits_varint n k r : 0 <= n < 128 ^ Z.of_nat k -> (0 < k <= 10)%nat ->
  0 <= n < 2 ^ 64 -> digits_at (Z.of_nat k) (varint n ++ r) n (zlen (varint n)) true.
Proof.
  intros H Hk Hn. rewrite <- (varint_dval n Hn) at 2. apply (D_done _ _ _ r). apply varint_vsplit; assumption.
Qed.
Lemma digits5 n r : 0 <= n < 2 ^ 32 -> digits_at 5 (varint n ++ r) n (zlen (varint n)) true.
Proof. intros H. apply (digits_varint n 5); [apply lt32_128; exact H|lia|lia]. Qed.
Lemma digits10 n r : 0 <= n < 2 ^ 64 -> digits_at 10 (varint n ++ r) n (zlen (varint n)) true.
Proof. intros H. apply (digits_varint n 10); [apply lt64_128; exact H|lia|lia]. Qed.

Lemma val16_varint n : 0 <= n < 2 ^ 16 ->
  val16 (varint n) = if n <? 2 ^ 14 then n else n mod 128 + 128 + 2 ^ 14 * (n / 2 ^ 14).
Proof.
  intros H. unfold varint. cbn [leb]. change (2 ^ 14) with 16384. change (2 ^ 16) with 65536 in H.
  destruct (Z.ltb_spec n 128).
  { cbn [val16]. destruct (Z.ltb_spec n 16384); lia. }
  destruct (Z.ltb_spec (n / 128) 128).
  { cbn [val16]. destruct (Z.ltb_spec (n / 128) 128); [|lia]. destruct (Z.ltb_spec n 16384); lia. }
  destruct (Z.ltb_spec (n / 128 / 128) 128); [|lia].
  cbn [val16]. destruct (Z.ltb_spec (n / 128 / 128) 128); [|lia]. destruct (Z.ltb_spec n 16384); lia.
Qed.
Lemma be_value4 n : 0 <= n < 2 ^ 32 -> be_value (be4 n) = n.
Proof. intros H. unfold be_value, be4. cbn [fold_left]. lia. Qed.
Lemma be_value8 n : 0 <= n < 2 ^ 64 -> be_value (be8 n) = n.
Proof. intros H. unfold be_value, be8, be4. cbn [fold_left app]. lia. Qed.
Lemma take_varint n p r : ztake (zlen p) (zdrop (zlen (varint n)) (varint n ++ p ++ r)) = p.
Proof. rewrite zdrop_app_exact. apply ztake_app_exact. Qed.

Theorem reads_wire e v r x : valid v -> treads e (want v) (wire v ++ r) x (from_wire e v) (zlen (wire v)).
Proof.
  intros Hv. destruct v; cbn [want wire from_wire valid] in *.
  - constructor.
  - destruct Hv as (Hn & _). cbn [app]. replace (zlen (2 :: keyKind :: valueKind :: 10 :: varint size)) with (4 + zlen (varint size)) by (rewrite !zlen_cons; lia).
    eapply T_map. apply digits5; exact Hn.
  - destruct Hv as (Hn & _). cbn [app]. replace (zlen (1 :: kind :: 10 :: varint size)) with (3 + zlen (varint size)) by (rewrite !zlen_cons; lia).
    eapply T_array. apply digits5; exact Hn.
  - cbn [app]. replace (zlen (4 :: 10 :: varint (zlen p) ++ p)) with (2 + zlen (varint (zlen p)) + zlen p) by (rewrite !zlen_cons, zlen_app; lia).
    rewrite <- app_assoc. pose proof (T_bytes e _ x _ _ _ (digits5 (zlen p) (p ++ r) (payload_len p Hv))) as T.
    rewrite take_varint in T. exact T.
  - cbn [app]. replace (zlen (5 :: 10 :: varint (zlen p) ++ p)) with (2 + zlen (varint (zlen p)) + zlen p) by (rewrite !zlen_cons, zlen_app; lia).
    rewrite <- app_assoc. pose proof (T_string e _ x _ _ _ (digits5 (zlen p) (p ++ r) (payload_len p Hv))) as T.
    rewrite take_varint in T. exact T.
  - cbn [app]. replace (zlen (6 :: 5 :: 10 :: varint (zlen p) ++ p)) with (3 + zlen (varint (zlen p)) + zlen p) by (rewrite !zlen_cons, zlen_app; lia).
    rewrite <- app_assoc. pose proof (T_error e _ x _ _ _ (digits5 (zlen p) (p ++ r) (payload_len p Hv))) as T.
    rewrite take_varint in T. exact T.
  - cbn [app]. destruct b; [apply (T_bool e 1)|apply (T_bool e 0)].
  - eapply T_u8. reflexivity.
  - cbn [app]. rewrite <- (val16_varint n Hv). rewrite zlen_cons. apply T_u16. eapply D16_done.
    apply (varint_vsplit n 3); [apply lt16_128; exact Hv|lia].
  - cbn [app]. rewrite zlen_cons. eapply T_u32, digits5, Hv.
  - cbn [app]. rewrite zlen_cons. eapply T_u64, digits10, Hv.
  - cbn [app]. rewrite zlen_cons. rewrite <- (zigzag_unzigzag n) at 2.
    apply (T_i32 e _ x (zigzag n) _ true). apply digits5, zigzag32, Hv.
  - cbn [app]. rewrite zlen_cons. rewrite <- (zigzag_unzigzag n) at 2.
    apply (T_i64 e _ x (zigzag n) _ true). apply digits10, zigzag64, Hv.
  - rewrite <- (be_value4 bits Hv) at 2. cbn [app]. change (zlen (14 :: be4 bits)) with 5.
    apply (T_f32 e (be4 bits) _ x (r ++ x)); [symmetry; apply app_assoc|reflexivity].
  - rewrite <- (be_value8 bits Hv) at 2. cbn [app]. change (zlen (15 :: be8 bits)) with 9.
    apply (T_f64 e (be8 bits) _ x (r ++ x)); [symmetry; apply app_assoc|reflexivity].
Qed.
Lemma ts_decode_wire e v r d : valid v -> dec_ok d -> ahead d = wire v ++ r ->
  ts_decode e (want v) d = DOk (from_wire e v) (moved (zlen (wire v)) d) /\ ahead (moved (zlen (wire v)) d) = r.
Proof.
  intros Hv Hd E. split.
  - apply treads_run; [exact Hd|]. rewrite E. apply reads_wire; exact Hv.
  - rewrite ahead_moved by (exact Hd || apply zlen_nonneg). rewrite E. apply zdrop_app_exact.
Qed.
Lemma ts_decode_wires e vs : forall r d, Forall valid vs -> dec_ok d -> ahead d = wires vs ++ r ->
  ts_read_all e (map want vs) d = DOk (map (from_wire e) vs) (moved (zlen (wires vs)) d) /\
  ahead (moved (zlen (wires vs)) d) = r.
Proof.
  induction vs as [|v vs IH]; intros r d Hv Hd E.
  - cbn [map ts_read_all]. change (zlen (wires [])) with 0. rewrite moved_0. auto.
  - inversion Hv; subst. rewrite wires_cons in *. rewrite <- app_assoc in E.
    destruct (ts_decode_wire e v _ d H1 Hd E) as [E1 A1].
    cbn [map ts_read_all]. rewrite E1. cbn [dbind].
    destruct (IH r (moved (zlen (wire v)) d) H2) as [E2 A2]; [apply moved_ok; [exact Hd|apply zlen_nonneg]|exact A1|].
    rewrite E2. cbn [dbind]. rewrite moved_moved, zlen_app in *. auto.
Qed.

(** What comes back of what TypeScript wrote. *)
Lemma text_back u : js_string u -> text_decode (text_encode u) = drop_bom (repaired u).
Proof.
  intros Hu. pose proof (scalars_ok (length u) u (le_n _) Hu) as Hs. unfold text_encode, repaired.
  rewrite decode_text, units_no_bom by exact Hs. reflexivity.
Qed.
Lemma from_value_of e v w : js_ok v -> value_of e v = Some w -> from_wire e w = read_back e v.
Proof.
  intros Hv E. destruct v; cbn [value_of js_ok] in *; inversion E; subst; cbn [from_wire read_back]; try reflexivity;
    rewrite text_back by apply Hv; reflexivity.
Qed.
Lemma want_value_of e v w : value_of e v = Some w -> jwant v = Some (want w).
Proof. intros E. destruct v; cbn [value_of] in E; inversion E; reflexivity. Qed.
Lemma jwant_value_of e v q : jwant v = Some q -> exists w, value_of e v = Some w /\ want w = q.
Proof. intros E. destruct v; cbn [jwant] in E; inversion E; cbn [value_of]; eexists; split; reflexivity. Qed.
Theorem ts_round_trip e v q r d : engine_ok e -> js_ok v -> jwant v = Some q -> dec_ok d -> ahead d = twire e v ++ r ->
  ts_decode e q d = DOk (read_back e v) (moved (zlen (twire e v)) d) /\ ahead (moved (zlen (twire e v)) d) = r.
Proof.
  intros He Hv Eq Hd E. destruct (jwant_value_of e v q Eq) as (w & Ew & <-).
  pose proof (value_of_valid e v w He Hv Ew) as Hw. rewrite <- (from_value_of e v w Hv Ew).
  unfold twire in *. rewrite Ew in *. apply ts_decode_wire; assumption.
Qed.
Theorem any_round_trip e r d : dec_ok d -> ahead d = twire e JAny ++ r ->
  td_any d = DOk JAny (moved 1 d) /\ ahead (moved 1 d) = r.
Proof.
  intros Hd E. change (twire e JAny ++ r) with (3 :: r) in E. split; [|eapply ahead_1; eassumption].
  unfold td_any. rewrite (peek_cons d 3 r Hd E). reflexivity.
Qed.
Theorem any_exact d : dec_ok d -> (forall r, ahead d <> 3 :: r) -> td_any d = DThrow (Invalid ENotNil) d.
Proof. intros Hd H. unfold td_any. change kAny with 3. rewrite (is_no (ahead d) 3 d Hd eq_refl H). reflexivity. Qed.

(** Which values come back unchanged. *)
Lemma js32_idem e b : engine_ok e -> isnan32 b = false -> js32 e b = b.
Proof. intros _ H. unfold js32. rewrite H. reflexivity. Qed.
Lemma js64_idem e b : engine_ok e -> isnan64 b = false -> js64 e b = b.
Proof. intros _ H. unfold js64. rewrite H. reflexivity. Qed.
Theorem same_back e v : engine_ok e -> js_ok v -> unchanged v -> read_back e v = v.
Proof.
  intros He Hv H. destruct v; cbn [read_back unchanged js_ok] in *; try reflexivity.
  - change (2 ^ 14) with 16384 in *. destruct (Z.ltb_spec n 16384); [reflexivity|]. f_equal. lia.
  - rewrite !(js32_idem e bits He H). reflexivity.
  - rewrite !(js64_idem e bits He H). reflexivity.
  - destruct H as [W N]. rewrite wellformed_repaired by exact W. f_equal. destruct u as [|c u]; [reflexivity|].
    cbn [drop_bom]. destruct (Z.eqb_spec c 0xFEFF) as [->|]; [exfalso; eapply N; reflexivity|reflexivity].
  - destruct H as [W N]. rewrite wellformed_repaired by exact W. f_equal. destruct u as [|c u]; [reflexivity|].
    cbn [drop_bom]. destruct (Z.eqb_spec c 0xFEFF) as [->|]; [exfalso; eapply N; reflexivity|reflexivity].
Qed.
Lemma repaired_len n : forall u, (length u <= n)%nat -> js_string u -> length (repaired u) = length u.
Proof.
  induction n as [|n IH]; intros u H Hu; [destruct u; [reflexivity|cbn in H; lia]|].
  unfold repaired in *. destruct u as [|a u]; [reflexivity|]. cbn [length] in H. cbn [scalars].
  inversion Hu as [|? ? Ha Hu' ]; subst. change (2 ^ 16) with 65536 in Ha.
  assert (U : forall c, c < 65536 -> length (units c) = 1%nat).
  { intros c Hc. unfold units. destruct (Z.ltb_spec c 0x10000); [reflexivity|lia]. }
  destruct ((a <? 0xD800) || (0xDFFF <? a)) eqn:E1.
  { cbn [map concat length]. rewrite app_length, IH by (lia || exact Hu'). rewrite U by lia. reflexivity. }
  destruct (0xDBFF <? a) eqn:E2.
  { cbn [map concat length]. rewrite app_length, IH by (lia || exact Hu'). rewrite U by lia. reflexivity. }
  destruct u as [|b u]; [reflexivity|].
  destruct ((0xDC00 <=? b) && (b <=? 0xDFFF)) eqn:E3.
  { cbn [map concat length] in *. inversion Hu'; subst. rewrite app_length, IH by (lia || assumption).
    unfold units. destruct (Z.ltb_spec (0x10000 + (a - 0xD800) * 1024 + (b - 0xDC00)) 0x10000); [lia|reflexivity]. }
  cbn [map concat]. rewrite app_length, IH by (lia || exact Hu'). rewrite U by lia. reflexivity.
Qed.
Lemma text_unchanged u : js_string u -> drop_bom (repaired u) = u -> wellformed u /\ (forall r, u <> 0xFEFF :: r).
Proof.
  intros Hu E. pose proof (repaired_len (length u) u (le_n _) Hu) as L.
  assert (E' : repaired u = u /\ (forall r, repaired u <> 0xFEFF :: r)).
  { destruct (repaired u) as [|c p] eqn:R; cbn [drop_bom] in E; [split; [exact E|discriminate]|].
    destruct (Z.eqb_spec c 0xFEFF) as [->|Hne].
    - exfalso. apply (f_equal (@length Z)) in E. cbn [length] in L. lia.
    - split; [exact E|]. intros r Er. apply cons_eq in Er as [Ec _]. contradiction. }
  destruct E' as [E1 E2]. split; [|intros r Er; apply (E2 r); rewrite E1; exact Er].
  exists (scalars u). split; [eapply scalars_ok; eauto|]. symmetry. exact E1.
Qed.
Lemma mid_one n : n mod 128 + 128 + 16384 * (n / 16384) = n -> n / 128 mod 128 = 1.
Proof.
  intros E. assert (A : n / 128 = 1 + n / 16384 * 128).
  { apply Z.mul_reg_l with 128; [lia|]. pose proof (Z.div_mod n 128). lia. }
  rewrite A, Z.mod_add by lia. reflexivity.
Qed.
(** ... and no other. *)
Theorem changed_back e v : js_ok v -> (forall b, v <> JF32 b) -> (forall b, v <> JF64 b) ->
  read_back e v = v -> unchanged v.
Proof.
  intros Hv N32 N64 E. destruct v; cbn [read_back unchanged js_ok] in *; auto.
  - change (2 ^ 14) with 16384 in *. change (2 ^ 16) with 65536 in Hv.
    destruct (Z.ltb_spec n 16384); [left; assumption|right]. apply mid_one. apply (f_equal (fun v => match v with JU16 n => n | _ => 0 end)) in E. exact E.
  - exfalso. eapply N32; reflexivity.
  - exfalso. eapply N64; reflexivity.
  - apply text_unchanged; [apply Hv|injection E as E; exact E].
  - apply text_unchanged; [apply Hv|injection E as E; exact E].
Qed.
Theorem nan_back e b : engine_ok e ->
  (isnan32 b = true -> exists c, read_back e (JF32 b) = JF32 c /\ isnan32 c = true) /\
  (isnan64 b = true -> exists c, read_back e (JF64 b) = JF64 c /\ isnan64 c = true).
Proof.
  intros [H32 H64]. split; intros H; cbn [read_back]; eexists; (split; [reflexivity|]).
  - unfold js32. rewrite H. destruct (H32 b H) as [E _]. rewrite E. apply H32. exact E.
  - unfold js64. rewrite H. destruct (H64 b H) as [E _]. rewrite E. apply H64. exact E.
Qed.
(** TextDecoder returns well-formed strings, whatever the bytes. *)
Definition uinv (d : udec) : Prop :=
  (needed d = 0) \/
  (0x80 <= lower d /\ upper d <= 0xBF /\
   ((needed d = 1 /\ seen d = 0 /\ 2 <= cp d <= 31) \/
    (needed d = 2 /\ seen d = 0 /\ 0 <= cp d <= 15 /\ (cp d = 0 -> 0xA0 <= lower d) /\ (cp d = 13 -> upper d <= 0x9F)) \/
    (needed d = 2 /\ seen d = 1 /\ 0x20 <= cp d <= 0x3FF /\ ~ 0x360 <= cp d <= 0x37F) \/
    (needed d = 3 /\ seen d = 0 /\ 0 <= cp d <= 4 /\ (cp d = 0 -> 0x90 <= lower d) /\ (cp d = 4 -> upper d <= 0x8F)) \/
    (needed d = 3 /\ seen d = 1 /\ 0x10 <= cp d <= 0x10F) \/
    (needed d = 3 /\ seen d = 2 /\ 0x400 <= cp d <= 0x43FF))).
Lemma lead_inv b : isbyte b -> Forall scalar_value (fst (lead b)) /\ uinv (snd (lead b)).
Proof.
  intros Hb. unfold isbyte in Hb. unfold lead, between.
  destruct (Z.leb_spec b 0x7F).
  { cbn [fst snd]. split; [repeat constructor; unfold scalar_value; lia|left; reflexivity]. }
  destruct (Z.leb_spec 0xC2 b), (Z.leb_spec b 0xDF); cbn [andb].
  { cbn [fst snd]. split; [constructor|]. right. cbn [needed seen cp lower upper].
    rewrite (land_low _ 5 0x1F) by (reflexivity || lia). change (2 ^ 5) with 32. lia. }
  all: destruct (Z.leb_spec 0xE0 b), (Z.leb_spec b 0xEF); cbn [andb]; try lia.
  all: try (cbn [fst snd]; split; [constructor|]; right; cbn [needed seen cp lower upper];
    rewrite (land_low _ 4 0xF) by (reflexivity || lia); change (2 ^ 4) with 16;
    destruct (Z.eqb_spec b 0xE0), (Z.eqb_spec b 0xED); lia).
  all: destruct (Z.leb_spec 0xF0 b), (Z.leb_spec b 0xF4); cbn [andb]; try lia.
  all: try (cbn [fst snd]; split; [constructor|]; right; cbn [needed seen cp lower upper];
    rewrite (land_low _ 3 0x7) by (reflexivity || lia); change (2 ^ 3) with 8;
    destruct (Z.eqb_spec b 0xF0), (Z.eqb_spec b 0xF4); lia).
  all: cbn [fst snd]; split; [repeat constructor; unfold scalar_value; lia|left; reflexivity].
Qed.
Lemma utf8_decode_scalars p : forall d, bytes_ok p -> uinv d -> Forall scalar_value (utf8_decode d p).
Proof.
  induction p as [|b p IH]; intros d Hp Hd; cbn [utf8_decode].
  - destruct (needed d =? 0); repeat constructor; unfold scalar_value; lia.
  - apply bytes_ok_cons in Hp as [Hb Hp]. destruct (lead_inv b Hb) as [L1 L2].
    destruct (lead b) as [out d'] eqn:El. cbn [fst snd] in *.
    destruct (Z.eqb_spec (needed d) 0) as [E0|E0].
    { apply Forall_app. split; [exact L1|apply IH; assumption]. }
    destruct Hd as [Hd|(Hl & Hu & Hd)]; [contradiction|].
    unfold between. destruct (Z.leb_spec (lower d) b), (Z.leb_spec b (upper d)); cbn [andb negb].
    2,3,4: constructor; [unfold scalar_value; lia|apply Forall_app; split; [exact L1|apply IH; assumption]].
    rewrite (land_low _ 6 0x3F) by (reflexivity || lia). change (2 ^ 6) with 64. rewrite join6 by lia.
    assert (B : b mod 64 = b - 128) by lia. rewrite B.
    destruct (Z.eqb_spec (seen d + 1) (needed d)).
    + constructor; [unfold scalar_value; lia|]. apply IH; [exact Hp|left; reflexivity].
    + apply IH; [exact Hp|]. right. cbn [needed seen cp lower upper]. clear IH L1 L2 El Hp.
      split; [lia|]. split; [lia|].
      destruct Hd as [Hd|[Hd|[Hd|[Hd|[Hd|Hd]]]]]; try (exfalso; lia).
      * right. right. left. lia.
      * do 4 right. left. lia.
      * do 5 right. lia.
Qed.
Lemma strip_bytes p : bytes_ok p -> bytes_ok (strip_bom p).
Proof.
  intros H. destruct p as [|a [|b [|c p]]]; try exact H. unfold strip_bom.
  destruct (_ && _); [|exact H]. apply bytes_ok_cons in H as [_ H]. apply bytes_ok_cons in H as [_ H]. apply bytes_ok_cons in H as [_ H]. exact H.
Qed.
Theorem text_decode_wellformed p : bytes_ok p -> wellformed (text_decode p).
Proof.
  intros H. unfold text_decode. eexists. split; [|reflexivity].
  apply utf8_decode_scalars; [apply strip_bytes; exact H|left; reflexivity].
Qed.
Lemma wellformed_js u : wellformed u -> js_string u.
Proof.
  intros (cs & H & ->). unfold js_string. induction H as [|c cs Hc Hcs IH]; [constructor|].
  cbn [map concat]. apply Forall_app. split; [|exact IH]. unfold scalar_value in Hc. change (2 ^ 16) with 65536.
  unfold units. destruct (Z.ltb_spec c 0x10000); repeat constructor; lia.
Qed.

(** The same for what other implementations wrote. *)
Lemma text_exact p : bytes_ok p ->
  (text_encode (text_decode p) = p <-> utf8 p /\ (forall r, p <> [0xEF; 0xBB; 0xBF] ++ r)).
Proof.
  intros Hp. pose proof (text_decode_wellformed p Hp) as W. split.
  - intros E. assert (U : utf8 p) by (rewrite <- E; apply text_encode_utf8, wellformed_js, W).
    split; [exact U|]. intros r Er. destruct U as (cs & Hcs & Ep). rewrite Ep in E. rewrite decode_text in E by exact Hcs.
    destruct cs as [|c cs]; [rewrite Er in Ep; discriminate|]. cbn [scalars_no_bom] in E.
    assert (Ec : c = 0xFEFF).
    { inversion Hcs; subst. eapply char_bom; [eassumption|]. cbn [map concat] in Er. exact Er. }
    subst c. change (0xFEFF =? 0xFEFF) with true in E. cbv iota in E. inversion Hcs; subst.
    unfold text_encode in E. rewrite scalars_units in E by assumption.
    cbn [map concat] in E. apply (f_equal (@length Z)) in E. rewrite app_length in E.
    change (length (utf8_char 0xFEFF)) with 3%nat in E. lia.
  - intros [(cs & Hcs & ->) N]. rewrite decode_text by exact Hcs.
    destruct cs as [|c cs]; [reflexivity|]. cbn [scalars_no_bom].
    destruct (Z.eqb_spec c 0xFEFF) as [->|Hne].
    + exfalso. eapply N. cbn [map concat]. reflexivity.
    + unfold text_encode. rewrite scalars_units by exact Hcs. reflexivity.
Qed.
Theorem faithful e v : engine_ok e -> valid v -> ts_faithful v -> value_of e (from_wire e v) = Some v.
Proof.
  intros He Hv H. destruct v; cbn [from_wire value_of ts_faithful valid] in *; auto.
  - f_equal. f_equal. apply text_exact; [apply Hv|exact H].
  - f_equal. f_equal. apply text_exact; [apply Hv|exact H].
  - change (2 ^ 14) with 16384 in *. destruct (Z.ltb_spec n 16384); [reflexivity|]. do 2 f_equal. lia.
  - rewrite !(js32_idem e bits He H). reflexivity.
  - rewrite !(js64_idem e bits He H). reflexivity.
Qed.
Theorem unfaithful e v : valid v -> (forall b, v <> VF32 b) -> (forall b, v <> VF64 b) ->
  value_of e (from_wire e v) = Some v -> ts_faithful v.
Proof.
  intros Hv N32 N64 E. destruct v; cbn [from_wire value_of ts_faithful valid] in *; auto.
  - apply text_exact; [apply Hv|injection E as E; exact E].
  - apply text_exact; [apply Hv|injection E as E; exact E].
  - change (2 ^ 14) with 16384 in *. change (2 ^ 16) with 65536 in Hv.
    destruct (Z.ltb_spec n 16384); [left; assumption|right]. apply mid_one. apply (f_equal (fun v => match v with Some (VU16 n) => n | _ => 0 end)) in E. exact E.
  - exfalso. eapply N32; reflexivity.
  - exfalso. eapply N64; reflexivity.
Qed.
