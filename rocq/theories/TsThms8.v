(** Arguments outside the API's ranges (C53). *)
From Verif Require Import Base Spec SpecProofs GoProps2 GoThms2 TsModel TsSpec TsEnc TsThms TsThms2 TsText.

Lemma shr7_any v : shr7 v = (v mod 2 ^ 32) / 128.
Proof. unfold shr7, u32. apply shiftr_7. Qed.
Lemma or128_any v : or128 v mod 256 = 128 + v mod 128.
Proof.
  assert (E : or128 v = or128 (v mod 2 ^ 32)).
  { unfold or128. f_equal. unfold s32, sw. rewrite Z.mod_mod by lia. reflexivity. }
  rewrite E, or128_mod by (apply Z.mod_pos_bound; lia). f_equal.
  change (2 ^ 32) with (128 * 33554432). rewrite Z.rem_mul_r by lia.
  rewrite Z.mul_comm, Z.mod_add, Z.mod_mod by lia. reflexivity.
Qed.
Definition digits32 (v : Z) : bytes :=
  if v <? 128 then [v] else (128 + v mod 128) :: varint ((v mod 2 ^ 32) / 128).
Lemma loop_any v s : 0 <= v -> varint_loop 8 v s = EOk (puts (digits32 v) s).
Proof.
  intros H. unfold digits32. change (varint_loop 8 v s) with
    (if 128 <=? v then varint_loop 7 (shr7 v) (advance 1 (store (pos s) (or128 v) s)) else EOk (advance 1 (store (pos s) v s))).
  destruct (Z.leb_spec 128 v), (Z.ltb_spec v 128); try lia; [|reflexivity].
  rewrite shr7_any. set (w := v mod 2 ^ 32 / 128).
  assert (Hw : 0 <= w < 2 ^ 25).
  { unfold w. pose proof (Z.mod_pos_bound v (2 ^ 32)). change (2 ^ 32) with 4294967296 in *. change (2 ^ 25) with 33554432. lia. }
  assert (Hk : 0 <= w < 128 ^ (Z.of_nat 7 + 1)) by (split; [lia|]; eapply Z.lt_trans; [apply Hw|reflexivity]).
  rewrite (varint_loop_puts 7 7 w) by (try lia; apply Hk).
  unfold varint. rewrite (leb_stable 7 9 w ltac:(lia) Hk). cbn [puts fold_left]. unfold put1, puts. do 3 f_equal.
  apply store_mod. rewrite or128_any. symmetry. apply Z.mod_small. lia.
Qed.
Lemma loop_negative v s : v < 0 -> varint_loop 8 v s = EOk (puts [v mod 256] s).
Proof.
  intros H. change (varint_loop 8 v s) with
    (if 128 <=? v then varint_loop 7 (shr7 v) (advance 1 (store (pos s) (or128 v) s)) else EOk (advance 1 (store (pos s) v s))).
  destruct (Z.leb_spec 128 v); [lia|]. cbn [puts fold_left]. unfold put1. do 2 f_equal.
  apply store_mod. symmetry. apply Z.mod_mod. lia.
Qed.
Lemma big_negative v s : v < 0 -> varintBig_loop (S (Z.to_nat (Z.log2 v))) v s = EOk (puts [v mod 256] s).
Proof.
  intros H. cbn [varintBig_loop]. destruct (Z.leb_spec 128 v); [lia|]. cbn [puts fold_left]. unfold put1. do 2 f_equal.
  apply store_mod. symmetry. apply Z.mod_mod. lia.
Qed.
Lemma digits32_ok v : 0 <= v -> vsplit 5 (digits32 v) (digits32 v) [] /\ dval (digits32 v) = v mod 2 ^ 32 /\ bytes_ok (digits32 v).
Proof.
  intros H. unfold digits32. destruct (Z.ltb_spec v 128).
  { split; [split; [reflexivity|split; [vm_compute; discriminate|]]; exists [], v; repeat split; [constructor|lia]|].
    split; [cbn [dval]; rewrite !Z.mod_small by lia; lia|repeat constructor; unfold isbyte; lia]. }
  set (w := v mod 2 ^ 32 / 128). assert (Hw : 0 <= w < 2 ^ 25).
  { unfold w. pose proof (Z.mod_pos_bound v (2 ^ 32)). change (2 ^ 32) with 4294967296 in *. change (2 ^ 25) with 33554432. lia. }
  assert (H4 : 0 <= w < 128 ^ Z.of_nat 4) by (split; [lia|]; eapply Z.lt_le_trans; [apply Hw|vm_compute; discriminate]).
  destruct (varint_vsplit w 4 [] H4 ltac:(lia)) as (_ & L & cs & l & E & F & Hl). change (Z.of_nat 4) with 4 in L.
  split.
  { split; [symmetry; apply app_nil_r|]. split; [rewrite zlen_cons; lia|].
    exists ((128 + v mod 128) :: cs), l. rewrite E. repeat split; [|exact Hl]. constructor; [lia|exact F]. }
  split.
  - cbn [dval]. rewrite varint_dval by lia. unfold w. replace ((128 + v mod 128) mod 128) with (v mod 128) by lia.
    assert (v mod 128 = (v mod 2 ^ 32) mod 128).
    { change (2 ^ 32) with (128 * 33554432). rewrite Z.rem_mul_r by lia. rewrite Z.mul_comm, Z.mod_add, Z.mod_mod by lia. reflexivity. }
    lia.
  - apply bytes_ok_cons. split; [unfold isbyte; lia|]. apply varint_ok. lia.
Qed.
Lemma resize_none m s : m <= blen s - pos s -> resize m s = s.
Proof. intros H. unfold resize. destruct (Z.ltb_spec (blen s - pos s) m); [lia|reflexivity]. Qed.
Lemma put_held s b p : holds s b -> zlen p <= blen s - pos s -> bytes_ok p -> holds (puts p s) (b ++ p).
Proof. intros H L B. apply puts_holds; [exact H|lia|exact B]. Qed.

Theorem number_wraps n k m s b : holds s b -> 6 <= blen s - pos s -> m <= 5 -> isbyte k ->
  (0 <= n -> exists ds s', ts_varint n k m false s = EOk s' /\ holds s' (b ++ k :: ds) /\
     vsplit 5 ds ds [] /\ dval ds = n mod 2 ^ 32) /\
  (n < 0 -> exists s', ts_varint n k m false s = EOk s' /\ holds s' (b ++ [k; n mod 256])) /\
  (exists ds s', ts_varint n k m true s = EOk s' /\ holds s' (b ++ k :: ds) /\
     vsplit 5 ds ds [] /\ dval ds = zigzag n mod 2 ^ 32).
Proof.
  intros Hs Hr Hm Hk.
  assert (A : forall v, 0 <= v -> let s1 := advance 1 (store (pos s) k s) in
    exists ds s', varint_loop 8 v s1 = EOk s' /\ holds s' (b ++ k :: ds) /\ vsplit 5 ds ds [] /\ dval ds = v mod 2 ^ 32).
  { intros v Hv s1. destruct (digits32_ok v Hv) as (V & D & B). exists (digits32 v). eexists.
    split; [apply loop_any; exact Hv|]. split; [|split; assumption].
    change (puts (digits32 v) s1) with (puts (k :: digits32 v) s).
    apply put_held; [exact Hs| |apply bytes_ok_cons; split; assumption].
    rewrite zlen_cons. destruct V as (_ & V & _). lia. }
  split; [|split].
  - intros Hn. unfold ts_varint. rewrite resize_none by lia. apply (A n Hn).
  - intros Hn. unfold ts_varint. rewrite resize_none by lia. cbn zeta. rewrite loop_negative by exact Hn.
    eexists; split; [reflexivity|]. change (holds (puts [k; n mod 256] s) (b ++ [k; n mod 256])).
    apply put_held; [exact Hs|change (zlen [k; n mod 256]) with 2; lia|].
    repeat constructor; [apply Hk|apply Hk|..]; apply Z.mod_pos_bound; lia.
  - unfold ts_varint. rewrite resize_none by lia. cbn zeta.
    replace (if 0 <=? n then n * 2 else n * -2 - 1) with (zigzag n)
      by (unfold zigzag; destruct (Z.ltb_spec n 0), (Z.leb_spec 0 n); lia).
    apply (A (zigzag n)). unfold zigzag. destruct (Z.ltb_spec n 0); lia.
Qed.
Lemma leb128_ok n ds : leb128 n ds -> bytes_ok ds.
Proof. induction 1; apply bytes_ok_cons; (split; [unfold isbyte; lia|]); [constructor|assumption]. Qed.
Theorem bigint_any n k s b : holds s b -> 9 <= blen s - pos s -> isbyte k ->
  (0 <= n -> exists ds, leb128 n ds /\ (1 + zlen ds <= blen s - pos s ->
     exists s', ts_varintBig n k 9 false s = EOk s' /\ holds s' (b ++ k :: ds))) /\
  (n < 0 -> exists s', ts_varintBig n k 9 false s = EOk s' /\ holds s' (b ++ [k; n mod 256])) /\
  (exists ds, leb128 (zigzag n) ds /\ (1 + zlen ds <= blen s - pos s ->
     exists s', ts_varintBig n k 9 true s = EOk s' /\ holds s' (b ++ k :: ds))).
Proof.
  intros Hs Hr Hk.
  assert (A : forall v, 0 <= v -> let s1 := advance 1 (store (pos s) k s) in
    exists ds, leb128 v ds /\ (1 + zlen ds <= blen s - pos s ->
     exists s', varintBig_loop (S (Z.to_nat (Z.log2 v))) v s1 = EOk s' /\ holds s' (b ++ k :: ds))).
  { intros v Hv s1. destruct (varintBig_loop_any v s1 Hv) as (ds & D & E). exists ds. split; [exact D|].
    intros L. eexists. split; [exact E|]. change (puts ds s1) with (puts (k :: ds) s).
    apply put_held; [exact Hs|rewrite zlen_cons; lia|apply bytes_ok_cons; split; [exact Hk|eapply leb128_ok; exact D]]. }
  split; [|split].
  - intros Hn. unfold ts_varintBig. rewrite resize_none by lia. apply (A n Hn).
  - intros Hn. unfold ts_varintBig. rewrite resize_none by lia. cbn zeta. rewrite big_negative by exact Hn.
    eexists; split; [reflexivity|]. change (holds (puts [k; n mod 256] s) (b ++ [k; n mod 256])).
    apply put_held; [exact Hs|change (zlen [k; n mod 256]) with 2; lia|].
    repeat constructor; [apply Hk|apply Hk|..]; apply Z.mod_pos_bound; lia.
  - unfold ts_varintBig. rewrite resize_none by lia. cbn zeta.
    replace (if 0 <=? n then n * 2 else n * -2 - 1) with (zigzag n)
      by (unfold zigzag; destruct (Z.ltb_spec n 0), (Z.leb_spec 0 n); lia).
    apply (A (zigzag n)). unfold zigzag. destruct (Z.ltb_spec n 0); lia.
Qed.
(** uint8 stores the number modulo 256. *)
Theorem uint8_wraps e n s b : holds s b -> 2 <= blen s - pos s -> engine_ok e ->
  exists s', ts_encode e (JU8 n) s = EOk s' /\ holds s' (b ++ [8; n mod 256]).
Proof.
  intros Hs Hr He. assert (E : ts_encode e (JU8 n) = ts_encode e (JU8 (n mod 256))).
  { cbn [ts_encode]. unfold ts_uint8. rewrite Z.mod_mod by lia. reflexivity. }
  rewrite E. assert (Hv : js_ok (JU8 (n mod 256))) by (cbn; apply Z.mod_pos_bound; lia).
  eexists. split; [apply (encode_fits e (JU8 (n mod 256)) s b He Hv Hs)|].
  - cbn [parts fits]. unfold twire; cbn [value_of wire]. unfold regrow, room_of; cbn [fst snd].
    destruct (Z.ltb_spec (blen s - pos s) 2); [lia|]. change (zlen [8; n mod 256]) with 2. cbn [fst]. lia.
  - cbn [parts writes fold_left fst snd]. rewrite resize_none by lia. unfold twire; cbn [value_of wire].
    apply put_held; [exact Hs|change (zlen [8; n mod 256]) with 2; lia|].
    repeat constructor; unfold isbyte; try lia; apply Z.mod_pos_bound; lia.
Qed.
