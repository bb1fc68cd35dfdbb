(** Shared proof material for the Go decoders: a generic varint loop and its meaning. *)
From Verif Require Import Base Spec SpecProofs.

(** generic loop; the concrete loops of v1 and the unrolled ladders of v2 are instances *)
Fixpoint gloop (w N : Z) (ed el : gerr) (fin : Z -> Z) (fuel : nat) (b : bytes) (i x s : Z)
  : res (bytes * Z * option gerr) :=
  match fuel with
  | O => Ok (b, 0, Some el)
  | S fuel =>
      let! cb := index b i in
      if cb <? 128 then
        if (i >? N) && (cb >? 1) then Ok (b, 0, Some ed)
        else let! r := slice_from b (i + 1) in
             Ok (r, fin (Z.lor x (Z.shiftl (cb mod 2 ^ w) s mod 2 ^ w)), None)
      else gloop w N ed el fin fuel b (i + 1)
             (Z.lor x (Z.shiftl ((Z.land cb 127) mod 2 ^ w) s mod 2 ^ w)) (s + 7)
  end.

Lemma gloop_spec w N ed el fin : 16 <= w ->
  forall fuel pre t x s i,
  bytes_ok t -> i = zlen pre -> i + Z.of_nat fuel <= N + 1 ->
  0 <= s -> 0 <= x < 2 ^ s -> s + 7 * (Z.of_nat fuel - 1) <= w ->
  gloop w N ed el fin fuel (pre ++ t) i x s =
  match scan fuel t with
  | SDone ds r => Ok (r, fin ((x + dval ds * 2 ^ s) mod 2 ^ w), None)
  | SLong => Ok (pre ++ t, 0, Some el)
  | STrunc => Panic
  end.
Proof.
  intros Hw. induction fuel as [|fuel IH]; intros pre t x s i Ht Hi HN Hs Hx Hsw.
  - reflexivity.
  - cbn [gloop scan]. assert (0 < 2 ^ s) by (apply Z.pow_pos_nonneg; lia).
    assert (Hw8 : 65536 <= 2 ^ w) by (change 65536 with (2 ^ 16); apply Z.pow_le_mono_r; lia).
    pose proof (zlen_nonneg pre).
    destruct t as [|c t].
    + rewrite index_end by (rewrite app_nil_r; lia). reflexivity.
    + apply bytes_ok_cons in Ht. destruct Ht as [Hc Ht]. unfold isbyte in Hc.
      rewrite index_app1 by exact Hi. cbn [bind].
      destruct (Z.ltb_spec c 128) as [Hlt|Hge].
      * destruct (Z.gtb_spec i N) as [HiN|HiN]; [lia|]. cbn [andb].
        rewrite slice_from_ok by (rewrite zlen_app, zlen_cons; pose proof (zlen_nonneg t); lia).
        cbn [bind]. replace (zdrop (i + 1) (pre ++ c :: t)) with t.
        2:{ rewrite zdrop_app2 by lia. rewrite zdrop_cons by lia.
            replace (i + 1 - zlen pre - 1) with 0 by lia. reflexivity. }
        rewrite (Z.mod_small c) by lia. rewrite lor_shift_wrap by lia.
        cbn [dval]. rewrite (Z.mod_small c) by lia. rewrite Z.mul_0_r, Z.add_0_r. reflexivity.
      * rewrite land_127. assert (Hd : 0 <= c mod 128 < 128) by lia.
        rewrite (Z.mod_small (c mod 128)) by lia.
        destruct fuel as [|fuel].
        { cbn [gloop scan]. reflexivity. }
        rewrite lor_shift_wrap by lia.
        assert (Hs7 : 2 ^ (s + 7) = 128 * 2 ^ s)
          by (rewrite Z.pow_add_r by lia; change (2 ^ 7) with 128; ring).
        assert (2 ^ (s + 7) <= 2 ^ w) by (apply Z.pow_le_mono_r; lia).
        assert (Hx' : 0 <= x + c mod 128 * 2 ^ s < 2 ^ (s + 7)) by nia.
        rewrite (Z.mod_small (x + _)) by lia.
        replace (pre ++ c :: t) with ((pre ++ [c]) ++ t) by (rewrite <- app_assoc; reflexivity).
        rewrite IH; [|assumption|rewrite zlen_app, zlen_cons, zlen_nil; lia|lia|lia|lia|lia].
        destruct (scan (S fuel) t); try reflexivity.
        cbn [dval]. rewrite Hs7. do 4 f_equal. f_equal. ring.
Qed.

(** first iteration with nothing accumulated *)
Lemma gloop_start w N ed el fin fuel k t :
  16 <= w -> bytes_ok t -> Z.of_nat fuel <= N -> 7 * (Z.of_nat fuel - 1) <= w ->
  gloop w N ed el fin fuel (k :: t) 1 0 0 =
  match scan fuel t with
  | SDone ds r => Ok (r, fin (dval ds mod 2 ^ w), None)
  | SLong => Ok (k :: t, 0, Some el)
  | STrunc => Panic
  end.
Proof.
  intros Hw Ht HN Hf. change (k :: t) with ([k] ++ t).
  rewrite gloop_spec; try assumption; try reflexivity; try lia.
  destruct (scan fuel t); try reflexivity.
  rewrite Z.add_0_l, Z.pow_0_r, Z.mul_1_r. reflexivity.
Qed.

(** ** signed finish: [x := int(ux>>1); if ux&1 != 0 { x = -(x+1) }] *)
Lemma land_1 u : Z.land u 1 = u mod 2.
Proof. change 1 with (Z.ones 1). rewrite Z.land_ones by lia. reflexivity. Qed.
Lemma signed_fin w u : 1 < w -> 0 <= u < 2 ^ w ->
  (let x := sw w (Z.shiftr u 1) in
   if negb (Z.land u 1 =? 0) then sw w (- sw w (x + 1)) else x) = unzigzag u.
Proof.
  intros Hw Hu. cbn zeta. rewrite land_1, Z.shiftr_div_pow2 by lia. change (2 ^ 1) with 2.
  assert (E : 2 ^ w = 2 * 2 ^ (w - 1)) by (rewrite <- Z.pow_succ_r by lia; f_equal; lia).
  assert (E2 : 2 ^ (w - 1) = 2 * 2 ^ (w - 2)) by (rewrite <- Z.pow_succ_r by lia; f_equal; lia).
  assert (0 < 2 ^ (w - 2)) by (apply Z.pow_pos_nonneg; lia).
  unfold unzigzag.
  rewrite (sw_small w (u / 2)) by lia.
  destruct (Z.eqb_spec (u mod 2) 0) as [Hm|Hm]; cbn [negb]; [reflexivity|].
  destruct (Z.eq_dec (u / 2 + 1) (2 ^ (w - 1))) as [He|He].
  - assert (sw w (u / 2 + 1) = - 2 ^ (w - 1)) as ->.
    { unfold sw. rewrite Z.mod_small by lia.
      destruct (Z.ltb_spec (u / 2 + 1) (2 ^ (w - 1))); lia. }
    unfold sw. rewrite Z.opp_involutive, Z.mod_small by lia.
    destruct (Z.ltb_spec (2 ^ (w - 1)) (2 ^ (w - 1))); lia.
  - rewrite (sw_small w (u / 2 + 1)) by lia. rewrite sw_small by lia. lia.
Qed.

(** zig-zag as computed by the encoders: [cast := uint(v) << 1; if v < 0 {cast = ^cast}] *)
Lemma zigzag_cast w v : 1 < w -> - 2 ^ (w - 1) <= v < 2 ^ (w - 1) ->
  (let c := Z.shiftl (v mod 2 ^ w) 1 mod 2 ^ w in
   if v <? 0 then Z.lnot c mod 2 ^ w else c) = zigzag v.
Proof.
  intros Hw Hv. cbn zeta. rewrite Z.shiftl_mul_pow2 by lia. change (2 ^ 1) with 2.
  assert (E : 2 ^ w = 2 * 2 ^ (w - 1)) by (rewrite <- Z.pow_succ_r by lia; f_equal; lia).
  assert (0 < 2 ^ (w - 1)) by (apply Z.pow_pos_nonneg; lia).
  unfold zigzag. destruct (Z.ltb_spec v 0) as [Hn|Hn].
  - assert (v mod 2 ^ w = v + 2 ^ w) as ->
      by (rewrite <- (Z.mod_add v 1) by lia; rewrite Z.mod_small; lia).
    assert (((v + 2 ^ w) * 2) mod 2 ^ w = 2 * v + 2 ^ w) as ->.
    { replace ((v + 2 ^ w) * 2) with ((2 * v + 2 ^ w) + 1 * 2 ^ w) by ring.
      rewrite Z.mod_add by lia. apply Z.mod_small. lia. }
    replace (Z.lnot (2 * v + 2 ^ w)) with ((-2 * v - 1) + (-1) * 2 ^ w).
    2:{ unfold Z.lnot. lia. }
    rewrite Z.mod_add by lia. apply Z.mod_small. lia.
  - rewrite (Z.mod_small v) by lia. rewrite Z.mod_small by lia. ring.
Qed.

(** big-endian reads *)
Definition be4_val (b1 b2 b3 b4 : Z) : Z := b4 + b3 * 2 ^ 8 + b2 * 2 ^ 16 + b1 * 2 ^ 24.
Lemma be32_read b1 b2 b3 b4 : isbyte b1 -> isbyte b2 -> isbyte b3 -> isbyte b4 ->
  Z.lor (Z.lor (Z.lor (u32 b4) (u32 (Z.shiftl (u32 b3) 8)))
           (u32 (Z.shiftl (u32 b2) 16))) (u32 (Z.shiftl (u32 b1) 24)) = be4_val b1 b2 b3 b4.
Proof.
  unfold isbyte, u32, be4_val; intros.
  rewrite (Z.mod_small b2), (Z.mod_small b3), (Z.mod_small b4), (Z.mod_small b1) by lia.
  rewrite (lor_shift_wrap 32 b4 b3 8) by lia. rewrite (Z.mod_small (b4 + _)) by lia.
  rewrite (lor_shift_wrap 32 _ b2 16) by lia. rewrite (Z.mod_small (b4 + _ + _)) by lia.
  rewrite (lor_shift_wrap 32 _ b1 24) by lia. rewrite Z.mod_small by lia. reflexivity.
Qed.
Definition be8_val (b1 b2 b3 b4 b5 b6 b7 b8 : Z) : Z :=
  be4_val b5 b6 b7 b8 + be4_val b1 b2 b3 b4 * 2 ^ 32.
Lemma be64_read b1 b2 b3 b4 b5 b6 b7 b8 :
  isbyte b1 -> isbyte b2 -> isbyte b3 -> isbyte b4 ->
  isbyte b5 -> isbyte b6 -> isbyte b7 -> isbyte b8 ->
  Z.lor (Z.lor (Z.lor (Z.lor (Z.lor (Z.lor (Z.lor
    (u64 b8) (u64 (Z.shiftl (u64 b7) 8))) (u64 (Z.shiftl (u64 b6) 16)))
    (u64 (Z.shiftl (u64 b5) 24))) (u64 (Z.shiftl (u64 b4) 32)))
    (u64 (Z.shiftl (u64 b3) 40))) (u64 (Z.shiftl (u64 b2) 48)))
    (u64 (Z.shiftl (u64 b1) 56)) = be8_val b1 b2 b3 b4 b5 b6 b7 b8.
Proof.
  unfold isbyte, u64, be8_val, be4_val; intros.
  rewrite (Z.mod_small b1), (Z.mod_small b2), (Z.mod_small b3), (Z.mod_small b4) by lia.
  rewrite (Z.mod_small b5), (Z.mod_small b6), (Z.mod_small b7), (Z.mod_small b8) by lia.
  rewrite (lor_shift_wrap 64 b8 b7 8) by lia; rewrite (Z.mod_small (b8 + _)) by lia.
  rewrite (lor_shift_wrap 64 _ b6 16) by lia; rewrite (Z.mod_small (b8 + _ + _)) by lia.
  rewrite (lor_shift_wrap 64 _ b5 24) by lia; rewrite (Z.mod_small (b8 + _ + _ + _)) by lia.
  rewrite (lor_shift_wrap 64 _ b4 32) by lia; rewrite (Z.mod_small (b8 + _ + _ + _ + _)) by lia.
  rewrite (lor_shift_wrap 64 _ b3 40) by lia; rewrite (Z.mod_small (b8 + _ + _ + _ + _ + _)) by lia.
  rewrite (lor_shift_wrap 64 _ b2 48) by lia;
    rewrite (Z.mod_small (b8 + _ + _ + _ + _ + _ + _)) by lia.
  rewrite (lor_shift_wrap 64 _ b1 56) by lia; rewrite Z.mod_small by lia.
  ring.
Qed.
Lemma be4_val_be4 n : 0 <= n < 2 ^ 32 ->
  be4_val (n / 2 ^ 24 mod 256) (n / 2 ^ 16 mod 256) (n / 2 ^ 8 mod 256) (n mod 256) = n.
Proof. unfold be4_val; intros. lia. Qed.
Lemma be4_hi n : be4 (n / 2 ^ 32) =
  [n / 2 ^ 56 mod 256; n / 2 ^ 48 mod 256; n / 2 ^ 40 mod 256; n / 2 ^ 32 mod 256].
Proof.
  unfold be4. rewrite !Z.div_div by lia. reflexivity.
Qed.
Lemma be8_val_be8 n : 0 <= n < 2 ^ 64 ->
  be8_val (n / 2 ^ 56 mod 256) (n / 2 ^ 48 mod 256) (n / 2 ^ 40 mod 256) (n / 2 ^ 32 mod 256)
          (n / 2 ^ 24 mod 256) (n / 2 ^ 16 mod 256) (n / 2 ^ 8 mod 256) (n mod 256) = n.
Proof.
  unfold be8_val; intros H.
  assert (be4_val (n / 2 ^ 24 mod 256) (n / 2 ^ 16 mod 256) (n / 2 ^ 8 mod 256) (n mod 256)
          = n mod 2 ^ 32) as ->.
  { unfold be4_val. lia. }
  assert (be4_val (n / 2 ^ 56 mod 256) (n / 2 ^ 48 mod 256) (n / 2 ^ 40 mod 256) (n / 2 ^ 32 mod 256)
          = n / 2 ^ 32) as ->.
  { pose proof (be4_val_be4 (n / 2 ^ 32)) as P. rewrite !Z.div_div in P by lia.
    apply P. split; [lia|]. apply Z.div_lt_upper_bound; lia. }
  lia.
Qed.
(** shifts of the float encoders *)
Lemma u8_shiftr n k : 0 <= k -> u8 (Z.shiftr n k) = n / 2 ^ k mod 256.
Proof. intros. unfold u8. rewrite Z.shiftr_div_pow2 by lia. reflexivity. Qed.
