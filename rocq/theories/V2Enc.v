(** Proofs about the v2 buffer and encoder. *)
From Verif Require Import Base Spec SpecProofs GoLoop V2Model.

Notation binv := wf.

Definition arrays (b : buffer) : list bytes := old b ++ [arr b].
Definition content (b : buffer) : bytes := ztake (off b) (arr b).
(** later state [b'] keeps all abandoned arrays and the first [off b] bytes of the current one *)
Definition stable (b b' : buffer) : Prop :=
  exists a rest, arrays b' = old b ++ a :: rest /\ ztake (off b) a = ztake (off b) (arr b).
Definition appended (b b' : buffer) (p : bytes) : Prop :=
  binv b' /\ off b' = off b + zlen p /\ content b' = content b ++ p /\ stable b b' /\
  zlen (arr b) <= zlen (arr b').

Lemma Bytes_content b : binv b -> Bytes b = Ok (content b).
Proof.
  intros [H1 H2]. unfold Bytes, Cap, content.
  destruct (Z.ltb_spec (off b) 0); [lia|]. destruct (Z.ltb_spec (zlen (arr b)) (off b)); [lia|].
  reflexivity.
Qed.

Lemma stable_refl b : stable b b.
Proof. exists (arr b), []. split; reflexivity. Qed.
Lemma stable_trans b1 b2 b3 : 0 <= off b1 <= off b2 -> stable b1 b2 -> stable b2 b3 -> stable b1 b3.
Proof.
  intros Hl (a & rest & E & T) (a' & rest' & E' & T').
  unfold arrays in E. destruct rest as [|z rest0] using rev_ind.
  - apply app_inj_tail in E. destruct E as [E1 E2]. subst a.
    exists a', rest'. rewrite <- E1. split; [exact E'|].
    rewrite <- T. rewrite <- (ztake_ztake (off b1) (off b2) a') by lia.
    rewrite T'. apply ztake_ztake; lia.
  - clear IHrest0. change (a :: rest0 ++ [z]) with ((a :: rest0) ++ [z]) in E.
    rewrite app_assoc in E. apply app_inj_tail in E. destruct E as [E1 _].
    exists a, (rest0 ++ a' :: rest'). split; [|exact T].
    rewrite E', E1, <- app_assoc. reflexivity.
Qed.
Lemma appended_refl b : binv b -> appended b b [].
Proof.
  intros H. split; [exact H|]. rewrite zlen_nil, Z.add_0_r, app_nil_r.
  repeat split; [apply stable_refl|lia].
Qed.
Lemma appended_trans b1 b2 b3 p q : binv b1 ->
  appended b1 b2 p -> appended b2 b3 q -> appended b1 b3 (p ++ q).
Proof.
  intros Hi (I2 & O2 & B2 & S2 & C2) (I3 & O3 & B3 & S3 & C3). split; [exact I3|].
  split; [rewrite zlen_app; lia|]. split; [rewrite B3, B2, app_assoc; reflexivity|].
  split; [|lia]. eapply stable_trans; [|eassumption|eassumption].
  pose proof (zlen_nonneg p). unfold wf in Hi. lia.
Qed.

(** ** Grow *)
Lemma Grow_ok g b n : binv b -> 0 <= n ->
  exists b', Grow g b n = Ok b' /\ appended b b' [] /\ off b + n <= zlen (arr b') /\
    (n <= zlen (arr b) - off b -> b' = b) /\
    (zlen (arr b) - off b < n -> n <= zlen (arr b) -> 2 * zlen (arr b) <= zlen (arr b')) /\
    (zlen (arr b) < n -> n + zlen (arr b) <= zlen (arr b')).
Proof.
  intros [H1 H2] Hn. unfold Grow, Cap.
  destruct (Z.ltb_spec (zlen (arr b) - off b) n) as [Hg|Hg].
  2:{ exists b. split; [reflexivity|]. split; [apply appended_refl; split; assumption|].
      repeat split; lia. }
  set (k := if zlen (arr b) <? n then n + zlen (arr b) - off b else zlen (arr b) * 2 - off b).
  replace (if zlen (arr b) <? n then append_zeros g b (off b) (n + zlen (arr b) - off b)
           else append_zeros g b (off b) (zlen (arr b) * 2 - off b))
    with (append_zeros g b (off b) k) by (subst k; destruct (zlen (arr b) <? n); reflexivity).
  assert (Hk : (zlen (arr b) < n /\ k = n + zlen (arr b) - off b) \/
               (n <= zlen (arr b) /\ k = zlen (arr b) * 2 - off b)).
  { subst k. destruct (Z.ltb_spec (zlen (arr b)) n); [left|right]; split; lia. }
  clearbody k. unfold append_zeros.
  destruct (Z.ltb_spec (off b) 0); [lia|]. destruct (Z.ltb_spec (zlen (arr b)) (off b)); [lia|].
  destruct (Z.ltb_spec k 0); [lia|]. cbn [orb].
  destruct (Z.leb_spec (off b + k) (zlen (arr b))); [lia|].
  cbn [bind]. eexists; split; [reflexivity|]. cbn [arr old off Cap].
  set (sp := g (length (old b)) (off b + k)). pose proof (zlen_nonneg sp).
  assert (Hz : zlen (ztake (off b) (arr b) ++ repeat 0 (Z.to_nat k) ++ sp) = off b + k + zlen sp).
  { rewrite !zlen_app, zlen_ztake, zlen_repeat by lia. lia. }
  assert (HT : ztake (off b) (ztake (off b) (arr b) ++ repeat 0 (Z.to_nat k) ++ sp)
               = ztake (off b) (arr b)).
  { rewrite ztake_app1 by (rewrite zlen_ztake; lia). apply ztake_ztake; lia. }
  rewrite Hz. repeat split; cbn [blen arr off old]; rewrite ?Hz; try lia.
  - rewrite zlen_nil. lia.
  - unfold content; cbn [arr off]. rewrite HT, app_nil_r. reflexivity.
  - exists (arr b). eexists. split; [|reflexivity]. unfold arrays; cbn [old arr].
    rewrite <- app_assoc. reflexivity.
Qed.

(** ** stores *)
Definition st (b : buffer) (o : Z) (p : bytes) : buffer :=
  mkbuf (old b) (splice (arr b) o p) (blen b) (off b).

Lemma store_st b o p c : 0 <= o -> o + zlen p < blen b -> blen b <= zlen (arr b) ->
  store (st b o p) (o + zlen p) c = Ok (st b o (p ++ [c])).
Proof.
  intros Ho Hl Hb. pose proof (zlen_nonneg p). unfold store, st; cbn [blen arr old off].
  destruct (Z.ltb_spec (o + zlen p) 0); [lia|]. destruct (Z.leb_spec (blen b) (o + zlen p)); [lia|].
  cbn [orb]. rewrite splice_splice_app by lia. reflexivity.
Qed.
Lemma store_st' b o p c i : i = o + zlen p -> 0 <= o -> i < blen b -> blen b <= zlen (arr b) ->
  store (st b o p) i c = Ok (st b o (p ++ [c])).
Proof. intros ->. apply store_st. Qed.
Lemma store_first b c : 0 <= off b < blen b -> blen b <= zlen (arr b) ->
  store b (off b) c = Ok (st b (off b) [c]).
Proof.
  intros H1 H2. replace (store b (off b) c) with (store (st b (off b) []) (off b + zlen (@nil Z)) c).
  - rewrite store_st by (rewrite ?zlen_nil; lia). reflexivity.
  - rewrite zlen_nil, Z.add_0_r. unfold st. rewrite splice_nil. destruct b; reflexivity.
Qed.
Lemma copy_st b o p q i : i = o + zlen p -> 0 <= o -> i + zlen q <= blen b ->
  blen b <= zlen (arr b) ->
  copy_at (st b o p) i q = Ok (st b o (p ++ q), zlen q).
Proof.
  intros -> Ho Hl Hb. pose proof (zlen_nonneg p). pose proof (zlen_nonneg q).
  unfold copy_at, st; cbn [blen arr old off].
  destruct (Z.ltb_spec (o + zlen p) 0); [lia|]. destruct (Z.ltb_spec (blen b) (o + zlen p)); [lia|].
  cbn [orb]. rewrite Z.min_r by lia. rewrite ztake_all by lia.
  rewrite splice_splice_app by lia. reflexivity.
Qed.

(** after Grow, having stored [p] at the offset and set the offset behind it *)
Lemma st_appended b b1 p : binv b -> appended b b1 [] -> off b + zlen p <= zlen (arr b1) ->
  appended b (set_off (st b1 (off b1) p) (off b1 + zlen p)) p.
Proof.
  intros Hi (I1 & O1 & B1 & S1 & C1) Hl. rewrite zlen_nil, Z.add_0_r in O1.
  rewrite app_nil_r in B1. pose proof (zlen_nonneg p). destruct I1 as [I1 I1'].
  change p with ([] ++ p) at 3. apply (appended_trans b b1); [exact Hi| |].
  - split; [split; assumption|]. rewrite zlen_nil, app_nil_r. split; [lia|]. repeat split; assumption.
  - unfold appended, wf, content, st, set_off; cbn [arr off blen old].
    rewrite zlen_splice by lia. repeat split; try lia.
    + apply ztake_splice_end; lia.
    + exists (splice (arr b1) (off b1) p), []. split; [reflexivity|]. apply ztake_splice_le; lia.
Qed.

(** ** ladders *)
Fixpoint lad {A} (K : buffer -> Z -> res A) (k : nat) (b : buffer) (o v : Z) : res A :=
  match k with
  | O => let! b := store b o (u8 v) in K b (o + 1)
  | S k => if v <? 128 then let! b := store b o (u8 v) in K b (o + 1)
           else let! b := store b o (Z.lor (u8 (Z.land v 127)) 128) in
                lad K k b (o + 1) (Z.shiftr v 7)
  end.

Lemma lad_ok {A} (K : buffer -> Z -> res A) k : forall b o0 p o v,
  o = o0 + zlen p -> 0 <= o0 -> 0 <= v < 128 ^ (Z.of_nat k + 1) ->
  o + zlen (leb k v) <= blen b -> blen b <= zlen (arr b) ->
  lad K k (st b o0 p) o v = K (st b o0 (p ++ leb k v)) (o + zlen (leb k v)).
Proof.
  induction k as [|k IH]; intros b o0 p o v Ho Ho0 Hv Hl Hb; cbn [lad leb] in *.
  - change (128 ^ (Z.of_nat 0 + 1)) with 128 in Hv. rewrite zlen_cons, zlen_nil in *.
    rewrite u8_small by lia. rewrite store_st' by lia. cbn [bind]. rewrite Z.add_0_r. reflexivity.
  - destruct (Z.ltb_spec v 128) as [Hlt|Hge].
    + rewrite zlen_cons, zlen_nil in *. rewrite u8_small by lia. rewrite store_st' by lia.
      cbn [bind]. rewrite Z.add_0_r. reflexivity.
    + rewrite zlen_cons in *. pose proof (zlen_nonneg (leb k (v / 128))).
      rewrite land_127, u8_small by lia. rewrite lor_128 by lia.
      rewrite store_st' by lia. cbn [bind]. rewrite shiftr_7.
      replace (Z.of_nat (S k) + 1) with (Z.succ (Z.of_nat k + 1)) in Hv by lia.
      rewrite Z.pow_succ_r in Hv by lia.
      rewrite IH; try assumption; try lia.
      * rewrite <- app_assoc. cbn [app]. rewrite (Z.add_comm (v mod 128) 128). f_equal. lia.
      * rewrite zlen_app, zlen_cons, zlen_nil. lia.
Qed.
Lemma leb_fuel k n : (k <= 9)%nat -> 0 <= n < 128 ^ (Z.of_nat k + 1) -> leb k n = varint n.
Proof.
  intros Hk Hn. apply (leb128_fun n).
  - apply leb_leb128; exact Hn.
  - apply leb_leb128. split; [lia|]. eapply Z.lt_le_trans; [apply Hn|].
    apply Z.pow_le_mono_r; lia.
Qed.
Lemma varint_len n m : 0 <= n < 2 ^ 64 -> 0 < m -> n < 128 ^ m -> zlen (varint n) <= m.
Proof.
  intros Hn Hm Hb. apply leb_len; [|exact Hm|exact Hb]. split; [lia|].
  eapply Z.lt_le_trans; [apply Hn|]. vm_compute; discriminate.
Qed.
Lemma varint_len16 n : 0 <= n < 2 ^ 16 -> zlen (varint n) <= 3.
Proof. intros. apply varint_len; [lia|lia|]. change (128 ^ 3) with 2097152. lia. Qed.
Lemma varint_len32 n : 0 <= n < 2 ^ 32 -> zlen (varint n) <= 5.
Proof. intros. apply varint_len; [lia|lia|]. change (128 ^ 5) with 34359738368. lia. Qed.
Lemma varint_len64 n : 0 <= n < 2 ^ 64 -> zlen (varint n) <= 10.
Proof.
  intros. apply varint_len; [lia|lia|]. eapply Z.lt_le_trans; [apply H|]. vm_compute; discriminate.
Qed.
Definition Kset (b : buffer) (o : Z) : res buffer := Ok (set_off b o).

(** literal encoders as ladders *)
Lemma encodeUint16_lit g b v : encodeUint16 g b v =
  let! b := Grow g b 4 in let o := off b in
  let! b := store b o 9 in lad Kset 3 b (o + 1) v.
Proof. reflexivity. Qed.
Lemma encodeUint32_lit g b v : encodeUint32 g b v =
  let! b := Grow g b 6 in let o := off b in
  let! b := store b o 10 in lad Kset 5 b (o + 1) v.
Proof. reflexivity. Qed.
Lemma encodeUint64_lit g b v : encodeUint64 g b v =
  let! b := Grow g b 11 in let o := off b in
  let! b := store b o 11 in lad Kset 9 b (o + 1) v.
Proof. reflexivity. Qed.
Lemma encodeInt32_lit g b v : encodeInt32 g b v =
  let! b := Grow g b 6 in let o := off b in
  let! b := store b o 12 in
  lad Kset 5 b (o + 1)
    (if v <? 0 then u32 (Z.lnot (u32 (Z.shiftl (u32 v) 1))) else u32 (Z.shiftl (u32 v) 1)).
Proof. reflexivity. Qed.
Lemma encodeInt64_lit g b v : encodeInt64 g b v =
  let! b := Grow g b 11 in let o := off b in
  let! b := store b o 13 in
  lad Kset 9 b (o + 1)
    (if v <? 0 then u64 (Z.lnot (u64 (Z.shiftl (u64 v) 1))) else u64 (Z.shiftl (u64 v) 1)).
Proof. reflexivity. Qed.
Lemma encodeMap_lit g b n k1 k2 : encodeMap g b n k1 k2 =
  let! b := Grow g b 9 in let o := off b in
  let! b := store b o 2 in let! b := store b (o + 1) k1 in
  let! b := store b (o + 1 + 1) k2 in let! b := store b (o + 1 + 1 + 1) 10 in
  lad Kset 5 b (o + 1 + 1 + 1 + 1) n.
Proof. reflexivity. Qed.
Lemma encodeSlice_lit g b n k : encodeSlice g b n k =
  let! b := Grow g b 8 in let o := off b in
  let! b := store b o 1 in let! b := store b (o + 1) k in
  let! b := store b (o + 1 + 1) 10 in
  lad Kset 5 b (o + 1 + 1 + 1) n.
Proof. reflexivity. Qed.
Definition Kpair (b : buffer) (o : Z) : res (buffer * Z) := Ok (b, o).
Definition fin_copy (p : bytes) (x : res (buffer * Z)) : res buffer :=
  let! (b, o) := x in let! (b, n) := copy_at b o p in Ok (set_off b (o + n)).
Lemma encodeString_lit g b p : encodeString g b p =
  let! b := Grow g b (7 + zlen p) in let o := off b in
  let! b := store b o 5 in let! b := store b (o + 1) 10 in
  fin_copy p (lad Kpair 5 b (o + 1 + 1) (u32 (zlen p))).
Proof. reflexivity. Qed.
Lemma encodeError_lit g b p : encodeError g b p =
  let! b := Grow g b (8 + zlen p) in let o := off b in
  let! b := store b o 6 in let! b := store b (o + 1) 5 in let! b := store b (o + 1 + 1) 10 in
  fin_copy p (lad Kpair 5 b (o + 1 + 1 + 1) (u32 (zlen p))).
Proof. reflexivity. Qed.
(** encodeBytes: the innermost [< continuation] branch does not advance the offset *)
Definition bad_tail (b : buffer) (o v : Z) : res (buffer * Z) :=
  if v <? 128 then let! b := store b o (u8 v) in Ok (b, o)
  else let! b := store b o (Z.lor (u8 (Z.land v 127)) 128) in lad Kpair 0 b (o + 1) (Z.shiftr v 7).
Fixpoint blad (k : nat) (b : buffer) (o v : Z) : res (buffer * Z) :=
  match k with
  | O => bad_tail b o v
  | S k => if v <? 128 then let! b := store b o (u8 v) in Ok (b, o + 1)
           else let! b := store b o (Z.lor (u8 (Z.land v 127)) 128) in
                blad k b (o + 1) (Z.shiftr v 7)
  end.
Lemma encodeBytes_lit g b p : encodeBytes g b p =
  let! b := Grow g b (7 + zlen p) in let o := off b in
  let! b := store b o 4 in let! b := store b (o + 1) 10 in
  fin_copy p (blad 4 b (o + 1 + 1) (u32 (zlen p))).
Proof. reflexivity. Qed.

(** ** each encoder appends the wire form *)
Lemma grow_first g b n : binv b -> 0 < n -> exists b1, Grow g b n = Ok b1 /\
  appended b b1 [] /\ off b1 = off b /\ 0 <= off b1 /\ off b1 + n <= blen b1 /\ blen b1 = zlen (arr b1).
Proof.
  intros Hi Hn. destruct (Grow_ok g b n Hi ltac:(lia)) as (b1 & E & A & L & _).
  exists b1. pose proof A as (I & O & _). rewrite zlen_nil in O. destruct I as [I1 I2].
  split; [exact E|]. split; [exact A|]. repeat split; lia.
Qed.

(** stores of a known prefix *)
Ltac first_store b1 := rewrite (store_first b1) by lia; cbn [bind].
Ltac next_store := rewrite store_st' by (rewrite ?zlen_cons, ?zlen_nil; cbn [blen arr]; lia);
  cbn [bind app].

Lemma fin_set b b1 p : binv b -> appended b b1 [] -> off b1 = off b ->
  off b1 + zlen p <= blen b1 -> blen b1 = zlen (arr b1) ->
  forall o, o = off b1 + zlen p ->
  exists b', Kset (st b1 (off b1) p) o = Ok b' /\ appended b b' p.
Proof.
  intros Hi A O L E o ->. eexists; split; [reflexivity|]. apply st_appended; try assumption. lia.
Qed.

Lemma kind_lad b (n : Z) (k : nat) pre v : binv b -> (k <= 9)%nat -> 0 <= v < 2 ^ 64 ->
  v < 128 ^ (Z.of_nat k + 1) -> zlen pre + zlen (varint v) <= n ->
  forall b1, appended b b1 [] -> off b1 = off b -> 0 <= off b1 -> off b1 + n <= blen b1 ->
  blen b1 = zlen (arr b1) ->
  exists b', lad Kset k (st b1 (off b1) pre) (off b1 + zlen pre) v = Ok b' /\ appended b b' (pre ++ varint v).
Proof.
  intros Hi Hk Hv Hvk Hn b1 A O O' L E.
  rewrite lad_ok; rewrite ?(leb_fuel k v) by lia; try lia.
  apply fin_set; rewrite ?zlen_app; try assumption; lia.
Qed.

Lemma pow128_10 n : 0 <= n < 2 ^ 64 -> n < 128 ^ (Z.of_nat 9 + 1).
Proof. intros H. eapply Z.lt_le_trans; [apply H|]. vm_compute; discriminate. Qed.
Lemma pow128_6 n : 0 <= n < 2 ^ 32 -> n < 128 ^ (Z.of_nat 5 + 1).
Proof. intros H. eapply Z.lt_le_trans; [apply H|]. vm_compute; discriminate. Qed.
Lemma pow128_4 n : 0 <= n < 2 ^ 16 -> n < 128 ^ (Z.of_nat 3 + 1).
Proof. intros H. eapply Z.lt_le_trans; [apply H|]. vm_compute; discriminate. Qed.
Ltac side := first [assumption | lia | apply pow128_10; assumption | apply pow128_6; assumption
  | apply pow128_4; assumption | rewrite ?zlen_cons, ?zlen_nil; lia].
Lemma encodeUint16_ok g b n : binv b -> 0 <= n < 2 ^ 16 ->
  exists b', encodeUint16 g b n = Ok b' /\ appended b b' (9 :: varint n).
Proof.
  intros Hi Hn. rewrite encodeUint16_lit. pose proof (varint_len16 n Hn).
  destruct (grow_first g b 4 Hi ltac:(lia)) as (b1 & -> & A & O & O' & L & E). cbn [bind]. cbv zeta.
  first_store b1.
  replace (off b1 + 1) with (off b1 + zlen [9]) by reflexivity. change (9 :: varint n) with ([9] ++ varint n).
  apply (kind_lad b 4); side.
Qed.

Lemma encodeUint32_ok g b n : binv b -> 0 <= n < 2 ^ 32 ->
  exists b', encodeUint32 g b n = Ok b' /\ appended b b' (10 :: varint n).
Proof.
  intros Hi Hn. rewrite encodeUint32_lit. pose proof (varint_len32 n Hn).
  destruct (grow_first g b 6 Hi ltac:(lia)) as (b1 & -> & A & O & O' & L & E). cbn [bind]. cbv zeta.
  first_store b1.
  replace (off b1 + 1) with (off b1 + zlen [10]) by reflexivity. change (10 :: varint n) with ([10] ++ varint n).
  apply (kind_lad b 6); side.
Qed.
Lemma encodeUint64_ok g b n : binv b -> 0 <= n < 2 ^ 64 ->
  exists b', encodeUint64 g b n = Ok b' /\ appended b b' (11 :: varint n).
Proof.
  intros Hi Hn. rewrite encodeUint64_lit. pose proof (varint_len64 n Hn).
  destruct (grow_first g b 11 Hi ltac:(lia)) as (b1 & -> & A & O & O' & L & E). cbn [bind]. cbv zeta.
  first_store b1.
  replace (off b1 + 1) with (off b1 + zlen [11]) by reflexivity. change (11 :: varint n) with ([11] ++ varint n).
  apply (kind_lad b 11); side.
Qed.
Lemma encodeInt32_ok g b n : binv b -> - 2 ^ 31 <= n < 2 ^ 31 ->
  exists b', encodeInt32 g b n = Ok b' /\ appended b b' (12 :: varint (zigzag n)).
Proof.
  intros Hi Hn. rewrite encodeInt32_lit. pose proof (zigzag32 n Hn) as Hz.
  pose proof (varint_len32 _ Hz).
  destruct (grow_first g b 6 Hi ltac:(lia)) as (b1 & -> & A & O & O' & L & E). cbn [bind]. cbv zeta.
  first_store b1. unfold u32. rewrite (zigzag_cast 32) by lia.
  replace (off b1 + 1) with (off b1 + zlen [12]) by reflexivity. change (12 :: varint (zigzag n)) with ([12] ++ varint (zigzag n)).
  apply (kind_lad b 6); side.
Qed.
Lemma encodeInt64_ok g b n : binv b -> - 2 ^ 63 <= n < 2 ^ 63 ->
  exists b', encodeInt64 g b n = Ok b' /\ appended b b' (13 :: varint (zigzag n)).
Proof.
  intros Hi Hn. rewrite encodeInt64_lit. pose proof (zigzag64 n Hn) as Hz.
  pose proof (varint_len64 _ Hz).
  destruct (grow_first g b 11 Hi ltac:(lia)) as (b1 & -> & A & O & O' & L & E). cbn [bind]. cbv zeta.
  first_store b1. unfold u64. rewrite (zigzag_cast 64) by lia.
  replace (off b1 + 1) with (off b1 + zlen [13]) by reflexivity. change (13 :: varint (zigzag n)) with ([13] ++ varint (zigzag n)).
  apply (kind_lad b 11); side.
Qed.
Lemma encodeMap_ok g b n k1 k2 : binv b -> 0 <= n < 2 ^ 32 ->
  exists b', encodeMap g b n k1 k2 = Ok b' /\ appended b b' (2 :: k1 :: k2 :: 10 :: varint n).
Proof.
  intros Hi Hn. rewrite encodeMap_lit. pose proof (varint_len32 n Hn).
  destruct (grow_first g b 9 Hi ltac:(lia)) as (b1 & -> & A & O & O' & L & E). cbn [bind]. cbv zeta.
  first_store b1. do 3 next_store.
  replace (off b1 + 1 + 1 + 1 + 1) with (off b1 + zlen [2; k1; k2; 10]) by (cbn; lia).
  change (2 :: k1 :: k2 :: 10 :: varint n) with ([2; k1; k2; 10] ++ varint n).
  apply (kind_lad b 9); side.
Qed.
Lemma encodeSlice_ok g b n k : binv b -> 0 <= n < 2 ^ 32 ->
  exists b', encodeSlice g b n k = Ok b' /\ appended b b' (1 :: k :: 10 :: varint n).
Proof.
  intros Hi Hn. rewrite encodeSlice_lit. pose proof (varint_len32 n Hn).
  destruct (grow_first g b 8 Hi ltac:(lia)) as (b1 & -> & A & O & O' & L & E). cbn [bind]. cbv zeta.
  first_store b1. do 2 next_store.
  replace (off b1 + 1 + 1 + 1) with (off b1 + zlen [1; k; 10]) by (cbn; lia).
  change (1 :: k :: 10 :: varint n) with ([1; k; 10] ++ varint n).
  apply (kind_lad b 8); side.
Qed.

(** length-prefixed payload behind a stored prefix *)
Lemma fin_copy_ok b pre p : binv b -> zlen p < 2 ^ 32 ->
  forall b1, appended b b1 [] -> off b1 = off b -> 0 <= off b1 ->
  off b1 + (zlen pre + 5 + zlen p) <= blen b1 -> blen b1 = zlen (arr b1) ->
  exists b', fin_copy p (Ok (st b1 (off b1) (pre ++ varint (zlen p)),
                             off b1 + zlen (pre ++ varint (zlen p)))) = Ok b' /\
    appended b b' (pre ++ varint (zlen p) ++ p).
Proof.
  intros Hi Hp b1 A O O' L E. pose proof (zlen_nonneg p) as Hp0.
  pose proof (varint_len32 (zlen p) ltac:(lia)) as Hl.
  unfold fin_copy. cbn [bind]. rewrite copy_st by (rewrite ?zlen_app; lia). cbn [bind].
  eexists; split; [reflexivity|]. rewrite app_assoc.
  replace (off b1 + zlen (pre ++ varint (zlen p)) + zlen p)
    with (off b1 + zlen ((pre ++ varint (zlen p)) ++ p)) by (rewrite !zlen_app; lia).
  apply st_appended; try assumption. rewrite !zlen_app. lia.
Qed.
Lemma lad_pair b1 pre n : 0 <= off b1 -> 0 <= n < 2 ^ 32 ->
  off b1 + (zlen pre + 5) <= blen b1 -> blen b1 <= zlen (arr b1) ->
  lad Kpair 5 (st b1 (off b1) pre) (off b1 + zlen pre) n =
  Ok (st b1 (off b1) (pre ++ varint n), off b1 + zlen (pre ++ varint n)).
Proof.
  intros H1 H2 H3 H4. pose proof (varint_len32 n H2) as Hl.
  rewrite lad_ok; rewrite ?(leb_fuel 5 n) by lia; try lia.
  unfold Kpair. rewrite zlen_app, Z.add_assoc. reflexivity.
Qed.
Lemma encodeString_ok g b p : binv b -> payload_ok p ->
  exists b', encodeString g b p = Ok b' /\ appended b b' (5 :: 10 :: varint (zlen p) ++ p).
Proof.
  intros Hi Hp. destruct (payload_len p Hp) as [P0 P1]. rewrite encodeString_lit.
  destruct (grow_first g b (7 + zlen p) Hi ltac:(lia)) as (b1 & -> & A & O & O' & L & E).
  cbn [bind]. cbv zeta. first_store b1. next_store. rewrite u32_small by lia.
  replace (off b1 + 1 + 1) with (off b1 + zlen [5; 10]) by (cbn; lia).
  rewrite lad_pair by (rewrite ?zlen_cons, ?zlen_nil; lia).
  change (5 :: 10 :: varint (zlen p) ++ p) with ([5; 10] ++ varint (zlen p) ++ p).
  apply fin_copy_ok; side.
Qed.
Lemma encodeError_ok g b p : binv b -> payload_ok p ->
  exists b', encodeError g b p = Ok b' /\ appended b b' (6 :: 5 :: 10 :: varint (zlen p) ++ p).
Proof.
  intros Hi Hp. destruct (payload_len p Hp) as [P0 P1]. rewrite encodeError_lit.
  destruct (grow_first g b (8 + zlen p) Hi ltac:(lia)) as (b1 & -> & A & O & O' & L & E).
  cbn [bind]. cbv zeta. first_store b1. do 2 next_store. rewrite u32_small by lia.
  replace (off b1 + 1 + 1 + 1) with (off b1 + zlen [6; 5; 10]) by (cbn; lia).
  rewrite lad_pair by (rewrite ?zlen_cons, ?zlen_nil; lia).
  change (6 :: 5 :: 10 :: varint (zlen p) ++ p) with ([6; 5; 10] ++ varint (zlen p) ++ p).
  apply fin_copy_ok; side.
Qed.

(** Bytes: below 2^28 the ladder never reaches the bad branch *)
Lemma blad_lad k : forall b o v, (0 < k)%nat -> 0 <= v < 128 ^ Z.of_nat k -> blad k b o v = lad Kpair (S k) b o v.
Proof.
  induction k as [|k IH]; intros b o v Hk Hv.
  - lia.
  - cbn [blad]. rewrite Nat2Z.inj_succ, Z.pow_succ_r in Hv by lia.
    change (lad Kpair (S (S k)) b o v) with
      (if v <? 128 then let! b := store b o (u8 v) in Kpair b (o + 1)
       else let! b := store b o (Z.lor (u8 (Z.land v 127)) 128) in
            lad Kpair (S k) b (o + 1) (Z.shiftr v 7)).
    destruct (Z.ltb_spec v 128); [reflexivity|].
    destruct (store b o (Z.lor (u8 (Z.land v 127)) 128)) as [b2|]; [|reflexivity]. cbn [bind].
    rewrite shiftr_7. destruct k as [|k].
    + change (128 ^ Z.of_nat 0) with 1 in Hv. lia.
    + apply IH; lia.
Qed.
Lemma encodeBytes_ok g b p : binv b -> zlen p < 2 ^ 28 ->
  exists b', encodeBytes g b p = Ok b' /\ appended b b' (4 :: 10 :: varint (zlen p) ++ p).
Proof.
  intros Hi P1. pose proof (zlen_nonneg p) as P0. rewrite encodeBytes_lit.
  destruct (grow_first g b (7 + zlen p) Hi ltac:(lia)) as (b1 & -> & A & O & O' & L & E).
  cbn [bind]. cbv zeta. first_store b1. next_store. rewrite u32_small by lia.
  rewrite blad_lad by (try change (128 ^ Z.of_nat 4) with (2 ^ 28); lia).
  replace (off b1 + 1 + 1) with (off b1 + zlen [4; 10]) by (cbn; lia).
  rewrite lad_pair by (rewrite ?zlen_cons, ?zlen_nil; lia).
  change (4 :: 10 :: varint (zlen p) ++ p) with ([4; 10] ++ varint (zlen p) ++ p).
  apply fin_copy_ok; side.
Qed.

(** the argument range on which the v2 encoder follows the wire format *)
Definition fits2 (v : value) : Prop := match v with VBytes p => zlen p < 2 ^ 28 | _ => True end.

Lemma simple_ok b (pre : bytes) b1 : binv b -> appended b b1 [] -> off b1 = off b ->
  off b1 + zlen pre <= blen b1 -> blen b1 = zlen (arr b1) ->
  exists b', Ok (set_off (st b1 (off b1) pre) (off b1 + zlen pre)) = Ok b' /\ appended b b' pre.
Proof. intros Hi A O L E. apply fin_set; auto. Qed.

Lemma encode_ok g b v : binv b -> valid v -> fits2 v ->
  exists b', encode g b v = Ok b' /\ appended b b' (wire v).
Proof.
  intros Hi Hv Hf. destruct v; cbn [encode valid wire fits2] in *.
  - unfold encodeNil. change nilSize with 1.
    destruct (grow_first g b 1 Hi ltac:(lia)) as (b1 & -> & A & O & O' & L & E). cbn [bind].
    first_store b1. change (off (st b1 (off b1) [NilRawKind])) with (off b1).
    apply (simple_ok b [0]); auto.
  - apply encodeMap_ok; tauto.
  - apply encodeSlice_ok; tauto.
  - apply encodeBytes_ok; assumption.
  - apply encodeString_ok; assumption.
  - apply encodeError_ok; assumption.
  - unfold encodeBool. change boolSize with 2.
    destruct (grow_first g b 2 Hi ltac:(lia)) as (b1 & -> & A & O & O' & L & E). cbn [bind].
    cbv zeta. first_store b1. destruct b0; next_store.
    + replace (off b1 + 1 + 1) with (off b1 + zlen [7; 1]) by (cbn; lia).
      apply (simple_ok b [7; 1]); auto.
    + replace (off b1 + 1 + 1) with (off b1 + zlen [7; 0]) by (cbn; lia).
      apply (simple_ok b [7; 0]); auto.
  - unfold encodeUint8. change uint8Size with 2.
    destruct (grow_first g b 2 Hi ltac:(lia)) as (b1 & -> & A & O & O' & L & E). cbn [bind].
    cbv zeta. first_store b1. next_store.
    replace (off b1 + 1 + 1) with (off b1 + zlen [8; n]) by (cbn; lia).
    apply (simple_ok b [8; n]); auto.
  - apply encodeUint16_ok; assumption.
  - apply encodeUint32_ok; assumption.
  - apply encodeUint64_ok; assumption.
  - apply encodeInt32_ok; assumption.
  - apply encodeInt64_ok; assumption.
  - unfold encodeFloat32. change float32Size with 5.
    destruct (grow_first g b 5 Hi ltac:(lia)) as (b1 & -> & A & O & O' & L & E). cbn [bind].
    cbv zeta. rewrite !u8_shiftr by lia. first_store b1. do 4 next_store.
    replace (off b1 + 1 + 1 + 1 + 1 + 1) with (off b1 + zlen (14 :: be4 bits)) by (cbn; lia).
    apply (simple_ok b (14 :: be4 bits)); auto.
  - unfold encodeFloat64. change float64Size with 9.
    destruct (grow_first g b 9 Hi ltac:(lia)) as (b1 & -> & A & O & O' & L & E). cbn [bind].
    cbv zeta. rewrite !u8_shiftr by lia. first_store b1. do 8 next_store.
    replace (off b1 + 1 + 1 + 1 + 1 + 1 + 1 + 1 + 1 + 1) with (off b1 + zlen (15 :: be8 bits))
      by (cbn; lia).
    apply (simple_ok b (15 :: be8 bits)); auto.
Qed.

Lemma encode_all_ok g vs : forall b, binv b -> Forall valid vs -> Forall fits2 vs ->
  exists b', encode_all g b vs = Ok b' /\ appended b b' (wires vs).
Proof.
  induction vs as [|v vs IH]; intros b Hi Hv Hf.
  - exists b. split; [reflexivity|]. apply appended_refl; exact Hi.
  - inversion Hv; inversion Hf; subst. cbn [encode_all].
    destruct (encode_ok g b v) as (b1 & -> & A1); try assumption. cbn [bind].
    destruct (IH b1) as (b2 & -> & A2); try assumption; [apply A1|].
    exists b2. split; [reflexivity|]. rewrite wires_cons. eapply appended_trans; eassumption.
Qed.

(** the bytes actually appended when 2^28 <= len < 2^32: the fifth length byte is lost *)
Lemma blad_bad k : forall b o0 p o v,
  o = o0 + zlen p -> 0 <= o0 -> 128 ^ Z.of_nat k <= v < 128 ^ (Z.of_nat k + 1) ->
  o + Z.of_nat k + 1 <= blen b -> blen b <= zlen (arr b) ->
  blad k (st b o0 p) o v = Ok (st b o0 (p ++ leb k v), o + Z.of_nat k) /\ zlen (leb k v) = Z.of_nat k + 1.
Proof.
  induction k as [|k IH]; intros b o0 p o v Ho Ho0 Hv Hl Hb.
  - change (128 ^ Z.of_nat 0) with 1 in Hv. change (128 ^ (Z.of_nat 0 + 1)) with 128 in Hv.
    cbn [blad leb]. unfold bad_tail. destruct (Z.ltb_spec v 128); [|lia].
    rewrite u8_small by lia. rewrite store_st' by lia. cbn [bind].
    change (Z.of_nat 0) with 0. rewrite Z.add_0_r. split; reflexivity.
  - cbn [blad leb].
    rewrite Nat2Z.inj_succ in *. replace (Z.succ (Z.of_nat k) + 1) with (Z.succ (Z.of_nat k + 1)) in Hv by lia.
    rewrite !Z.pow_succ_r in Hv by lia. pose proof (Z.pow_pos_nonneg 128 (Z.of_nat k) ltac:(lia) ltac:(lia)).
    destruct (Z.ltb_spec v 128); [lia|].
    rewrite land_127, u8_small by lia. rewrite lor_128 by lia.
    rewrite store_st' by lia. cbn [bind]. rewrite shiftr_7.
    destruct (IH b o0 (p ++ [v mod 128 + 128]) (o + 1) (v / 128)) as [-> IL]; try assumption; try lia.
    + rewrite zlen_app, zlen_cons, zlen_nil. lia.
    + rewrite zlen_cons, IL, <- app_assoc. cbn [app]. rewrite (Z.add_comm (v mod 128) 128).
      split; [|lia]. do 2 f_equal. lia.
Qed.
Lemma encodeBytes_bad g b p : binv b -> 2 ^ 28 <= zlen p < 2 ^ 32 ->
  exists b', encodeBytes g b p = Ok b' /\
    appended b b' (4 :: 10 :: ztake 4 (varint (zlen p)) ++ p).
Proof.
  intros Hi P1. rewrite encodeBytes_lit.
  destruct (grow_first g b (7 + zlen p) Hi ltac:(lia)) as (b1 & -> & A & O & O' & L & E).
  cbn [bind]. cbv zeta. first_store b1. next_store. rewrite u32_small by lia.
  replace (off b1 + 1 + 1) with (off b1 + zlen [4; 10]) by (cbn; lia).
  assert (HV : 128 ^ Z.of_nat 4 <= zlen p < 128 ^ (Z.of_nat 4 + 1)).
  { change (128 ^ Z.of_nat 4) with (2 ^ 28). change (128 ^ (Z.of_nat 4 + 1)) with (2 ^ 35). lia. }
  assert (HL : off b1 + zlen [4; 10] + Z.of_nat 4 + 1 <= blen b1).
  { rewrite !zlen_cons, zlen_nil. lia. }
  destruct (blad_bad 4 b1 (off b1) [4; 10] (off b1 + zlen [4; 10]) (zlen p) eq_refl O' HV HL
              ltac:(lia)) as [EB LB].
  match goal with |- context [blad 4 ?x ?y ?z] => replace (blad 4 x y z) with
    (Ok (st b1 (off b1) ([4; 10] ++ leb 4 (zlen p)), off b1 + zlen [4; 10] + Z.of_nat 4))
    by (symmetry; exact EB) end.
  assert (EL : leb 4 (zlen p) = varint (zlen p)).
  { apply leb_fuel; [lia|]. change (128 ^ (Z.of_nat 4 + 1)) with (2 ^ 35). lia. }
  rewrite EL in *.
  set (V := varint (zlen p)) in *. change (Z.of_nat 4) with 4 in *.
  unfold fin_copy. cbn [bind].
  assert (EV : [4; 10] ++ V = ([4; 10] ++ ztake 4 V) ++ zdrop 4 V).
  { rewrite <- app_assoc, ztake_zdrop. reflexivity. }
  assert (LT : zlen (ztake 4 V) = 4) by (apply zlen_ztake; lia).
  assert (LD : zlen (zdrop 4 V) = 1) by (rewrite zlen_zdrop; lia).
  (* the copy overwrites the last length byte *)
  assert (EC : copy_at (st b1 (off b1) ([4; 10] ++ V)) (off b1 + zlen [4; 10] + 4) p
               = Ok (st b1 (off b1) (([4; 10] ++ ztake 4 V) ++ p), zlen p)).
  { rewrite EV. unfold copy_at, st; cbn [blen arr old off].
    rewrite !zlen_cons, zlen_nil.
    clear HL. destruct (Z.ltb_spec (off b1 + (1 + (1 + 0)) + 4) 0); [lia|].
    destruct (Z.ltb_spec (blen b1) (off b1 + (1 + (1 + 0)) + 4)); [lia|]. cbn [orb].
    rewrite Z.min_r by lia. rewrite (ztake_all (zlen p) p) by lia. do 3 f_equal.
    set (Q := [4; 10] ++ ztake 4 V).
    assert (LQ : zlen Q = 6) by (subst Q; rewrite zlen_app, !zlen_cons, zlen_nil; lia).
    unfold splice at 1.
    replace (off b1 + (1 + (1 + 0)) + 4) with (off b1 + zlen Q) by lia.
    rewrite <- (splice_splice_app (arr b1) (off b1) Q (zdrop 4 V)) by lia.
    rewrite ztake_splice_le by (rewrite ?zlen_splice; lia).
    rewrite ztake_splice_end by lia.
    rewrite zdrop_splice_ge by (rewrite ?zlen_splice; lia).
    rewrite zdrop_splice_ge by lia.
    unfold splice. rewrite zlen_app. rewrite <- !app_assoc. do 4 f_equal. lia. }
  match goal with |- context [copy_at ?x ?y ?z] => replace (copy_at x y z) with
    (Ok (st b1 (off b1) (([4; 10] ++ ztake 4 V) ++ p), zlen p)) by (symmetry; exact EC) end.
  cbn [bind].
  eexists; split; [reflexivity|].
  change (4 :: 10 :: ztake 4 V ++ p) with (([4; 10] ++ ztake 4 V) ++ p).
  replace (off b1 + zlen [4; 10] + 4 + zlen p) with (off b1 + zlen (([4; 10] ++ ztake 4 V) ++ p)).
  2:{ rewrite !zlen_app, !zlen_cons, zlen_nil. lia. }
  apply st_appended; try assumption. rewrite !zlen_app, !zlen_cons, zlen_nil. lia.
Qed.
