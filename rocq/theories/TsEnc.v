(** Proofs about the TypeScript encoder: every call is its parts, each a [resize] and a run of
    byte stores. *)
From Verif Require Import Base Spec SpecProofs Utf8 TsModel TsSpec.

Definition put1 (v : Z) (s : enc) : enc := advance 1 (store (pos s) v s).
Definition puts (p : bytes) (s : enc) : enc := fold_left (fun s v => put1 v s) p s.

Lemma pos_store i v s : pos (store i v s) = pos s.
Proof. unfold store. destruct ((0 <=? i) && (i <? blen s)); reflexivity. Qed.
Lemma blen_store i v s : blen (store i v s) = blen s.
Proof. unfold store. destruct ((0 <=? i) && (i <? blen s)); reflexivity. Qed.
Lemma boff_store i v s : boff (store i v s) = boff s.
Proof. unfold store. destruct ((0 <=? i) && (i <? blen s)); reflexivity. Qed.
Lemma old_store i v s : old (store i v s) = old s.
Proof. unfold store. destruct ((0 <=? i) && (i <? blen s)); reflexivity. Qed.
Lemma store_advance i v n s : store i v (advance n s) = advance n (store i v s).
Proof. unfold store, advance; cbn. destruct ((0 <=? i) && (i <? blen s)); reflexivity. Qed.
Lemma advance_advance a b s : advance a (advance b s) = advance (b + a) s.
Proof. unfold advance; cbn. rewrite Z.add_assoc. reflexivity. Qed.
Lemma puts_app p q s : puts (p ++ q) s = puts q (puts p s).
Proof. unfold puts. apply fold_left_app. Qed.
Lemma puts_two a b s :
  advance 2 (store (pos (store (pos s) a s) + 1) b (store (pos s) a s)) = puts [a; b] s.
Proof.
  cbn [puts fold_left]. unfold put1. cbn [pos advance]. rewrite pos_store.
  rewrite store_advance, advance_advance. reflexivity.
Qed.
Lemma puts_three a b c s :
  advance 3 (store (pos (store (pos (store (pos s) a s) + 1) b (store (pos s) a s)) + 2) c
    (store (pos (store (pos s) a s) + 1) b (store (pos s) a s))) = puts [a; b; c] s.
Proof.
  change [a; b; c] with ([a; b] ++ [c]). rewrite puts_app, <- puts_two.
  cbn [puts fold_left]. unfold put1. rewrite store_advance, advance_advance.
  cbn [pos advance]. rewrite !pos_store. reflexivity.
Qed.

(** A state as constructed or reached: the view lies inside the ArrayBuffer. *)
Definition wf (s : enc) : Prop :=
  0 <= boff s /\ 0 <= pos s /\ 0 <= blen s /\ boff s + blen s <= zlen (mem s).

Lemma store_len i v s : wf s -> zlen (mem (store i v s)) = zlen (mem s).
Proof.
  intros (Hb & Hp & Hl & Hm). unfold store.
  destruct (Z.leb_spec 0 i), (Z.ltb_spec i (blen s)); cbn [andb mem]; try reflexivity.
  apply zlen_splice; [lia|]. change (zlen [v mod 256]) with 1. lia.
Qed.
Lemma store_prefix i v s n : wf s -> 0 <= n -> n <= boff s + i ->
  ztake n (mem (store i v s)) = ztake n (mem s).
Proof.
  intros (Hb & Hp & Hl & Hm) Hn Hi. unfold store.
  destruct (Z.leb_spec 0 i), (Z.ltb_spec i (blen s)); cbn [andb mem]; try reflexivity.
  apply ztake_splice_le; lia.
Qed.
Lemma put1_wf v s : wf s -> wf (put1 v s).
Proof.
  intros H. pose proof (store_len (pos s) v s H) as Hm. destruct H as (Hb & Hp & Hl & Hb2).
  unfold wf, put1. cbn [boff pos blen mem advance]. rewrite boff_store, pos_store, blen_store, Hm.
  lia.
Qed.
Lemma puts_geo p : forall s, wf s ->
  wf (puts p s) /\ pos (puts p s) = pos s + zlen p /\ room_of (puts p s) = room_of s /\
  boff (puts p s) = boff s /\ old (puts p s) = old s.
Proof.
  induction p as [|v p IH]; intros s H; cbn [puts fold_left].
  { rewrite zlen_nil, Z.add_0_r. auto. }
  destruct (IH (put1 v s) (put1_wf v s H)) as (H1 & H2 & H3 & H4 & H5).
  unfold puts in *. split; [exact H1|]. rewrite H2, H3, H4, H5, zlen_cons.
  unfold room_of, put1. cbn [pos blen mem boff old advance].
  rewrite pos_store, blen_store, boff_store, old_store, store_len by exact H.
  split; [lia|auto].
Qed.
Lemma puts_prefix p : forall s n, wf s -> 0 <= n <= pos s ->
  ztake n (mem (puts p s)) = ztake n (mem s).
Proof.
  induction p as [|v p IH]; intros s n H Hn; [reflexivity|].
  change (puts (v :: p) s) with (puts p (put1 v s)).
  rewrite IH; [|apply put1_wf; exact H|unfold put1; cbn [pos advance]; rewrite pos_store; lia].
  unfold put1. cbn [mem advance]. apply store_prefix; [exact H|lia|]. destruct H; lia.
Qed.

(** in range, stores are what [set] does *)
Lemma splice_0 {A} (l : list A) p : splice l 0 p = p ++ zdrop (zlen p) l.
Proof. unfold splice. rewrite ztake_0. reflexivity. Qed.
Lemma puts_in p : forall s, wf s -> pos s + zlen p <= blen s -> bytes_ok p ->
  puts p s = mkenc (old s) (splice (mem s) (boff s + pos s) p) (boff s) (blen s) (pos s + zlen p).
Proof.
  induction p as [|v p IH]; intros s H Hl Hp.
  { cbn [puts fold_left]. rewrite splice_nil. change (zlen (@nil Z)) with 0. rewrite Z.add_0_r. destruct s; reflexivity. }
  apply bytes_ok_cons in Hp as [Hv Hp]. rewrite zlen_cons in Hl. pose proof (zlen_nonneg p) as Hz.
  change (puts (v :: p) s) with (puts p (put1 v s)).
  assert (E : put1 v s = mkenc (old s) (splice (mem s) (boff s + pos s) [v]) (boff s) (blen s) (pos s + 1)).
  { destruct H as (Hb & Hp0 & Hbl & Hm). unfold put1, store.
    destruct (Z.leb_spec 0 (pos s)); [|lia]. destruct (Z.ltb_spec (pos s) (blen s)); [|lia].
    cbn [andb]. unfold advance; cbn [old mem boff blen pos]. rewrite Z.mod_small by exact Hv. reflexivity. }
  rewrite IH; [|apply put1_wf; exact H|rewrite E; cbn [pos blen]; lia|exact Hp].
  rewrite E; cbn [old mem boff blen pos]. rewrite zlen_cons. destruct H as (Hb & Hp0 & Hbl & Hm).
  f_equal; [|lia].
  replace (boff s + (pos s + 1)) with (boff s + pos s + zlen [v]) by (change (zlen [v]) with 1; lia).
  rewrite splice_splice_app by (change (zlen [v]) with 1; lia). reflexivity.
Qed.
Lemma set_puts p s : wf s -> bytes_ok p ->
  (set p (pos s) s >>> fun s => EOk (advance (zlen p) s))
  = if pos s + zlen p <=? blen s then EOk (puts p s) else EThrow s.
Proof.
  intros H Hp. unfold set. destruct (Z.leb_spec (pos s + zlen p) (blen s)); [|reflexivity].
  rewrite puts_in by assumption. reflexivity.
Qed.

Lemma holds_wf s b : holds s b -> wf s.
Proof. intros (H1 & H2 & H3 & H4). unfold wf. lia. Qed.
Lemma puts_holds p s b : holds s b -> pos s + zlen p <= blen s -> bytes_ok p -> holds (puts p s) (b ++ p).
Proof.
  intros H Hl Hp. rewrite puts_in by (try apply (holds_wf s b); assumption).
  destruct H as (H1 & H2 & H3 & H4). pose proof (zlen_nonneg p) as Hz.
  unfold holds; cbn [boff pos blen mem]. rewrite H1, Z.add_0_l.
  rewrite zlen_splice by lia. split; [reflexivity|]. split; [lia|]. split; [lia|].
  rewrite ztake_splice_end by lia. rewrite H4. reflexivity.
Qed.

(** resize *)
Lemma resize_geo m s : wf s ->
  wf (resize m s) /\ pos (resize m s) = pos s /\ room_of (resize m s) = regrow (room_of s) (pos s) m.
Proof.
  intros (H1 & H2 & H3 & H4). unfold resize, regrow, room_of; cbn [fst snd].
  destruct (Z.ltb_spec (blen s - pos s) m); cbn [pos blen mem].
  2:{ split; [unfold wf; lia|auto]. }
  pose proof (zlen_nonneg (mem s)).
  assert (E : zlen (splice (repeat 0 (Z.to_nat (zlen (mem s) * 2))) 0 (ztake (blen s) (zdrop (boff s) (mem s)))) = zlen (mem s) * 2).
  { rewrite zlen_splice; [rewrite zlen_repeat; lia|lia|].
    rewrite zlen_repeat, zlen_ztake; [lia|]. rewrite zlen_zdrop; lia. }
  split.
  - unfold wf; cbn [boff pos blen mem]. rewrite E. lia.
  - split; [reflexivity|]. rewrite E. f_equal; lia.
Qed.
Lemma resize_holds m s b : holds s b -> holds (resize m s) b.
Proof.
  intros H. pose proof (resize_geo m s (holds_wf s b H)) as (Hw & Hp & Hr).
  destruct H as (H1 & H2 & H3 & H4). unfold resize in *.
  destruct (Z.ltb_spec (blen s - pos s) m); [|unfold holds; auto].
  cbn [pos blen mem boff] in *. destruct Hw as (_ & _ & _ & Hw). cbn [boff blen mem] in Hw.
  unfold holds; cbn [boff pos blen mem]. split; [reflexivity|]. split; [lia|]. split; [lia|].
  rewrite H1, zdrop_0, splice_0.
  rewrite ztake_app1 by (rewrite zlen_ztake; lia). rewrite ztake_ztake by lia. exact H4.
Qed.
Lemma resize_old m s : exists l, old (resize m s) = old s ++ l /\
  (l = [] /\ mem (resize m s) = mem s \/ l = [mem s]).
Proof.
  unfold resize. destruct (blen s - pos s <? m); [exists [mem s]|exists []; rewrite app_nil_r]; auto.
Qed.

(** ** the digit loops store the varint *)
Lemma shr7_div v : 0 <= v < 2 ^ 32 -> shr7 v = v / 128.
Proof. intros H. unfold shr7. rewrite u32_small by exact H. apply shiftr_7. Qed.
Lemma or128_mod v : 0 <= v < 2 ^ 32 -> or128 v mod 256 = 128 + v mod 128.
Proof.
  intros H. unfold or128.
  assert (E : s32 v mod 256 = v mod 256).
  { unfold s32, sw. rewrite (Z.mod_small v) by exact H. destruct (v <? 2 ^ (32 - 1)); [reflexivity|].
    change (2 ^ 32) with (16777216 * 256). rewrite <- (Z.mod_add _ 16777216 256) by lia. f_equal. lia. }
  change 256 with (2 ^ 8) at 1. rewrite <- Z.land_ones, Z.land_lor_distr_l, !Z.land_ones by lia.
  change (2 ^ 8) with 256. rewrite E. change (128 mod 256) with 128.
  change (v mod 256) with (u8 v). rewrite lor_byte_128 by lia. lia.
Qed.
Lemma store_mod i v w s : v mod 256 = w mod 256 -> store i v s = store i w s.
Proof. intros H. unfold store. rewrite H. reflexivity. Qed.
Lemma varint_loop_puts k : forall fuel v s, (k <= fuel)%nat -> 0 <= v < 2 ^ 32 ->
  v < 128 ^ (Z.of_nat k + 1) -> varint_loop fuel v s = EOk (puts (leb k v) s).
Proof.
  induction k as [|k IH]; intros fuel v s Hf Hv Hk.
  - change (128 ^ (Z.of_nat 0 + 1)) with 128 in Hk. destruct fuel; cbn [varint_loop leb];
      (destruct (Z.leb_spec 128 v); [lia|]); reflexivity.
  - destruct fuel as [|fuel]; [lia|]. cbn [varint_loop leb].
    destruct (Z.leb_spec 128 v), (Z.ltb_spec v 128); try lia; [|reflexivity].
    rewrite shr7_div by exact Hv. cbn [puts fold_left]. rewrite IH; [|lia|lia|].
    + unfold put1, puts. do 3 f_equal. apply store_mod. rewrite or128_mod by exact Hv.
      symmetry. apply Z.mod_small. lia.
    + apply Z.div_lt_upper_bound; [lia|]. replace (Z.of_nat (S k) + 1) with (1 + (Z.of_nat k + 1)) in Hk by lia.
      rewrite Z.pow_add_r in Hk by lia. exact Hk.
Qed.
Lemma leb_stable k : forall k' n, (k <= k')%nat -> 0 <= n < 128 ^ (Z.of_nat k + 1) -> leb k' n = leb k n.
Proof.
  intros k' n Hk Hn. apply (leb128_fun n).
  - apply leb_leb128. split; [lia|]. eapply Z.lt_le_trans; [apply Hn|]. apply Z.pow_le_mono_r; lia.
  - apply leb_leb128. exact Hn.
Qed.
Lemma varint_loop_ok v s : 0 <= v < 2 ^ 32 -> varint_loop 8 v s = EOk (puts (varint v) s).
Proof.
  intros H. assert (Hk : 0 <= v < 128 ^ (Z.of_nat 8 + 1)).
  { split; [lia|]. eapply Z.lt_trans; [apply H|]. reflexivity. }
  rewrite (varint_loop_puts 8 8 v s (le_n 8) H (proj2 Hk)).
  unfold varint. rewrite (leb_stable 8 9 v (Nat.le_succ_diag_r 8) Hk). reflexivity.
Qed.
Lemma varintBig_loop_puts k : forall fuel v s, (k <= fuel)%nat -> 0 <= v ->
  v < 128 ^ (Z.of_nat k + 1) -> varintBig_loop fuel v s = EOk (puts (leb k v) s).
Proof.
  induction k as [|k IH]; intros fuel v s Hf Hv Hk.
  - change (128 ^ (Z.of_nat 0 + 1)) with 128 in Hk. destruct fuel; cbn [varintBig_loop leb];
      (destruct (Z.leb_spec 128 v); [lia|]); reflexivity.
  - destruct fuel as [|fuel]; [lia|]. cbn [varintBig_loop leb].
    destruct (Z.leb_spec 128 v), (Z.ltb_spec v 128); try lia; [|reflexivity].
    rewrite shiftr_7. cbn [puts fold_left]. rewrite IH; [|lia|lia|].
    + unfold put1, puts. do 3 f_equal. rewrite land_127, lor_128 by lia. f_equal. lia.
    + apply Z.div_lt_upper_bound; [lia|]. replace (Z.of_nat (S k) + 1) with (1 + (Z.of_nat k + 1)) in Hk by lia.
      rewrite Z.pow_add_r in Hk by lia. exact Hk.
Qed.
(** Every bigint from 0 on, whatever its size, is written as its varint. *)
Lemma varintBig_loop_any v s : 0 <= v ->
  exists ds, leb128 v ds /\ varintBig_loop (S (Z.to_nat (Z.log2 v))) v s = EOk (puts ds s).
Proof.
  intros H. set (k := S (Z.to_nat (Z.log2 v))).
  assert (v < 128 ^ (Z.of_nat k + 1)).
  { destruct (Z.eq_dec v 0) as [->|]; [apply Z.pow_pos_nonneg; lia|].
    assert (v < 2 ^ (Z.log2 v + 1)) by (apply Z.log2_spec; lia).
    eapply Z.lt_le_trans; [eassumption|]. pose proof (Z.log2_nonneg v).
    transitivity (128 ^ (Z.log2 v + 1)); [apply Z.pow_le_mono_l; lia|apply Z.pow_le_mono_r; lia]. }
  exists (leb k v). split; [apply leb_leb128; lia|]. apply varintBig_loop_puts; [lia|exact H|assumption].
Qed.
Lemma varintBig_loop_ok v s : 0 <= v < 2 ^ 64 ->
  varintBig_loop (S (Z.to_nat (Z.log2 v))) v s = EOk (puts (varint v) s).
Proof.
  intros H. destruct (varintBig_loop_any v s (proj1 H)) as (ds & Hd & ->).
  apply varint_is_leb128 in Hd; [subst; reflexivity|]. lia.
Qed.

Lemma ts_varint_ok n k m s : 0 <= n < 2 ^ 32 -> ts_varint n k m false s = EOk (puts (k :: varint n) (resize m s)).
Proof. intros H. unfold ts_varint. rewrite varint_loop_ok by exact H. reflexivity. Qed.
Lemma ts_varint_signed n k m s : - 2 ^ 31 <= n < 2 ^ 31 ->
  ts_varint n k m true s = EOk (puts (k :: varint (zigzag n)) (resize m s)).
Proof.
  intros H. unfold ts_varint. replace (if 0 <=? n then n * 2 else n * -2 - 1) with (zigzag n).
  - rewrite varint_loop_ok by (apply zigzag32; exact H). reflexivity.
  - unfold zigzag. destruct (Z.ltb_spec n 0), (Z.leb_spec 0 n); lia.
Qed.
Lemma ts_varintBig_ok n k m s : 0 <= n < 2 ^ 64 -> ts_varintBig n k m false s = EOk (puts (k :: varint n) (resize m s)).
Proof. intros H. unfold ts_varintBig. rewrite varintBig_loop_ok by exact H. reflexivity. Qed.
Lemma ts_varintBig_signed n k m s : - 2 ^ 63 <= n < 2 ^ 63 ->
  ts_varintBig n k m true s = EOk (puts (k :: varint (zigzag n)) (resize m s)).
Proof.
  intros H. unfold ts_varintBig. replace (if 0 <=? n then n * 2 else n * -2 - 1) with (zigzag n).
  - rewrite varintBig_loop_ok by (apply zigzag64; exact H). reflexivity.
  - unfold zigzag. destruct (Z.ltb_spec n 0), (Z.leb_spec 0 n); lia.
Qed.
Lemma fixed_ok m k p s : wf s -> bytes_ok p ->
  fixed m k p s =
  let s1 := puts [k] (resize m s) in
  if pos s1 + zlen p <=? blen s1 then EOk (puts p s1) else EThrow (store (pos (resize m s)) k (resize m s)).
Proof.
  intros H Hp. unfold fixed. cbn zeta. set (r := resize m s).
  assert (Hr : wf r) by apply (resize_geo m s H).
  cbn [puts fold_left]. unfold put1. cbn [pos advance blen]. unfold set.
  rewrite !pos_store, !blen_store.
  destruct (Z.leb_spec (pos r + 1 + zlen p) (blen r)); [|reflexivity]. cbn [ebind].
  rewrite puts_in; [|apply (put1_wf k r Hr)|cbn [pos blen advance]; rewrite pos_store, blen_store; lia|exact Hp].
  unfold advance; cbn [old mem boff blen pos]. rewrite !pos_store, !boff_store.
  f_equal. rewrite ?old_store, ?blen_store. f_equal; lia.
Qed.
