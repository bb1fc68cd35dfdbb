(** Proofs for C86. *)
From Verif Require Import Base Spec SpecProofs GoLoop BufSpec GoBuf GoBuf2 GoBuf3 AliasModel AliasSpec.
From Verif Require V1Model V2Model V1Enc V2Enc.

Lemma ztake_zdrop_prefix {A} (n lo k : Z) (a a' : list A) : 0 <= lo -> 0 <= k -> lo + k <= n ->
  ztake n a' = ztake n a -> ztake k (zdrop lo a') = ztake k (zdrop lo a).
Proof.
  intros H1 H2 H3 E.
  assert (G : forall l : list A, ztake k (zdrop lo l) = ztake k (zdrop lo (ztake n l))).
  { intros l. unfold ztake, zdrop. rewrite skipn_firstn_comm, firstn_firstn. f_equal. lia. }
  rewrite (G a'), (G a), E. reflexivity.
Qed.

(** a slice the client may still use: in an abandoned array, or in front of what will be written *)
Definition safe (o : list bytes) (n : Z) (r : region) : Prop :=
  0 <= rlo r /\ 0 <= rlen r /\ (ra r <= length o)%nat /\ (ra r = length o -> rlo r + rlen r <= n).
Lemma cells_stable (o : list bytes) a n arrs a' rest r : safe o n r -> arrs = o ++ a' :: rest ->
  ztake n a' = ztake n a -> cells arrs r = cells (o ++ [a]) r.
Proof.
  intros (H1 & H2 & H3 & H4) -> E. unfold cells. destruct (Nat.eq_dec (ra r) (length o)) as [Er|Er].
  - rewrite Er. rewrite !nth_middle. apply (ztake_zdrop_prefix n); auto.
  - rewrite !app_nth1 by lia. reflexivity.
Qed.
Lemma safe_stable (o o' : list bytes) n n' (a a' b : bytes) rest r : safe o n r -> o' ++ [b] = o ++ a' :: rest -> n <= n' ->
  safe o' n' r.
Proof.
  intros (H1 & H2 & H3 & H4) E L. assert (E2 : (length o' = length o + length rest)%nat).
  { apply (f_equal (@length _)) in E. rewrite !app_length in E. cbn [length] in E. lia. }
  split; [auto|]. split; [auto|]. split; [lia|]. intros Er. specialize (H4 ltac:(lia)). lia.
Qed.

(** ** v1 *)
Section V1.
Import V1Model V1Enc.
Definition holds1 (b : buffer) (r : region) (p : bytes) : Prop := safe (old b) (len b) r /\ cells (arrays1 b) r = p /\ zlen p = rlen r.
Lemma holds1_appended b b' q r p : wf b -> appended b b' q -> holds1 b r p -> holds1 b' r p.
Proof.
  intros Hw (W' & B & (a & rest & E & T)) (S & C & Z). pose proof (Bytes_len b Hw) as L. pose proof (Bytes_len b' W') as L'.
  rewrite B, zlen_app in L'. pose proof (zlen_nonneg q). unfold arrays in E.
  split; [eapply safe_stable; [exact a|exact S|exact E|lia]|]. split; [|exact Z].
  rewrite <- C. unfold arrays1. eapply cells_stable; [exact S|exact E|exact T].
Qed.
Lemma encodeBytes1_ok g b r p : wf b -> holds1 b r p -> zlen p < 2 ^ 32 ->
  exists b', encodeBytes1 g b r = Ok b' /\ appended b b' (4 :: 10 :: varint (zlen p) ++ p).
Proof.
  intros Hi Hh Hl. pose proof (zlen_nonneg p). unfold encodeBytes1. cbv zeta.
  pose proof (Write_ok g b BytesKind Hi) as A1.
  pose proof (holds1_appended _ _ _ _ _ Hi A1 Hh) as H1.
  assert (Er : rlen r = zlen p) by (destruct Hh as (_ & _ & E); lia). rewrite Er.
  rewrite u32_small by lia.
  destruct (encodeUint32_ok g _ (zlen p) (proj1 A1) ltac:(lia)) as (b2 & E2 & A2). rewrite E2. cbn [bind].
  pose proof (holds1_appended _ _ _ _ _ (proj1 A1) A2 H1) as H2.
  unfold Write1. destruct H2 as (_ & -> & _).
  eexists; split; [reflexivity|].
  pose proof (Write_ok g b2 p (proj1 A2)) as A3.
  pose proof (appended_trans _ _ _ _ _ (proj1 A1) A2 A3) as A4.
  exact (appended_trans _ _ _ _ _ Hi A1 A4).
Qed.
Definition rel1 (s : buffer * list region) (t : bytes * list bytes) : Prop :=
  wf (fst s) /\ Bytes (fst s) = fst t /\ Forall2 (holds1 (fst s)) (snd s) (snd t).
Lemma holds1_all b b' q hs ss : wf b -> appended b b' q -> Forall2 (holds1 b) hs ss -> Forall2 (holds1 b') hs ss.
Proof. intros Hw A H. induction H; constructor; auto. eapply holds1_appended; eassumption. Qed.
Lemma kept_ok {A} (R : region -> A -> Prop) hs ss k d : Forall2 R hs ss -> (k < length ss)%nat ->
  exists r, kept hs k = Ok r /\ R r (nth k ss d).
Proof.
  intros H. revert k. induction H as [|r p hs ss Hr H IH]; intros k L; [cbn in L; lia|].
  destruct k as [|k]; [exists r; split; [reflexivity|exact Hr]|]. cbn [length] in L.
  destruct (IH k ltac:(lia)) as (r' & E & Hr'). exists r'. split; [|exact Hr']. unfold kept in *. cbn [nth_error]. exact E.
Qed.
Lemma act1_ok g s t a : rel1 s t -> own_ok (fun _ => ok1) (2 ^ 32) t a ->
  exists s', act1 g s a = Ok s' /\ rel1 s' (own_log log1 forget1 t a).
Proof.
  destruct s as [b hs], t as [l ss]. intros (Hw & HB & HF) Ho. cbn [fst snd] in *.
  destruct a as [o|i j|k|k]; cbn [act1 own_ok own_log] in *.
  - destruct o as [v|p|].
    + cbn [apply log1 forget1 ok1] in *. destruct (encode_ok g b v Hw Ho) as (b' & E & A). rewrite E. cbn [bind].
      eexists; split; [reflexivity|]. split; [apply A|]. cbn [fst snd]. split; [rewrite (proj1 (proj2 A)), HB; reflexivity|].
      eapply holds1_all; eassumption.
    + cbn [apply log1 forget1 bind]. pose proof (Write_ok g b p Hw) as A.
      eexists; split; [reflexivity|]. split; [apply A|]. cbn [fst snd]. split; [rewrite (proj1 (proj2 A)), HB; reflexivity|].
      eapply holds1_all; eassumption.
    + cbn [apply log1 forget1 bind]. eexists; split; [reflexivity|]. unfold rel1; cbn [fst snd]. unfold wf in Hw.
      split; [unfold wf, Reset; cbn [arr len]; lia|]. split; [reflexivity|constructor].
  - destruct Ho as [H1 H2]. pose proof (Bytes_len b Hw) as L. rewrite HB in L. unfold Take1.
    destruct (Z.ltb_spec i 0); [lia|]. destruct (Z.ltb_spec j i); [lia|]. destruct (Z.ltb_spec (len b) j); [lia|].
    cbn [orb bind]. eexists; split; [reflexivity|]. split; [exact Hw|]. cbn [fst snd]. split; [exact HB|].
    apply Forall2_app; [exact HF|]. constructor; [|constructor]. split; [|split].
    + unfold safe; cbn [ra rlo rlen]. repeat split; lia.
    + unfold cells, arrays1; cbn [ra rlo rlen]. rewrite nth_middle. unfold part. rewrite <- HB. unfold Bytes.
      symmetry. apply (ztake_zdrop_prefix (len b)); try lia. apply ztake_ztake. lia.
    + unfold part; cbn [rlen]. rewrite zlen_ztake; [reflexivity|]. rewrite zlen_zdrop by lia. lia.
  - destruct Ho as [Hk Hl]. destruct (kept_ok _ hs ss k [] HF Hk) as (r & -> & Hr). cbn [bind].
    destruct (encodeBytes1_ok g b r _ Hw Hr Hl) as (b' & -> & A). cbn [bind].
    eexists; split; [reflexivity|]. split; [apply A|]. cbn [fst snd]. split; [rewrite (proj1 (proj2 A)), HB; reflexivity|].
    eapply holds1_all; eassumption.
  - destruct (kept_ok _ hs ss k [] HF Ho) as (r & -> & Hr). cbn [bind]. unfold Write1. rewrite (proj1 (proj2 Hr)).
    pose proof (Write_ok g b (nth k ss []) Hw) as A.
    eexists; split; [reflexivity|]. split; [apply A|]. cbn [fst snd]. split; [rewrite (proj1 (proj2 A)), HB; reflexivity|].
    eapply holds1_all; eassumption.
Qed.
Lemma acts1_rel g l : forall s t, rel1 s t -> own_ok_all log1 forget1 (fun _ => ok1) (2 ^ 32) t l ->
  exists s', acts1 g s l = Ok s' /\ rel1 s' (fold_left (own_log log1 forget1) l t).
Proof.
  induction l as [|a l IH]; intros s t R Ho; cbn [acts1 fold_left]; [eauto|].
  destruct Ho as [Ha Ho]. destruct (act1_ok g s t a R Ha) as (s1 & -> & R1). cbn [bind]. apply IH; assumption.
Qed.
Theorem acts1_log g l b : wf b -> own_ok_all log1 forget1 (fun _ => ok1) (2 ^ 32) (Bytes b, []) l ->
  exists b' hs, acts1 g (b, []) l = Ok (b', hs) /\
    (Bytes b', map (cells (arrays1 b')) hs) = fold_left (own_log log1 forget1) l (Bytes b, []).
Proof.
  intros Hw Ho. destruct (acts1_rel g l (b, []) (Bytes b, [])) as ([b' hs] & E & R); [|exact Ho|].
  - split; [exact Hw|]. split; [reflexivity|constructor].
  - exists b', hs. split; [exact E|]. destruct (fold_left _ l _) as [l' ss]. destruct R as (_ & HB & HF). cbn [fst snd] in *.
    f_equal; [exact HB|]. clear - HF. induction HF as [|r p hs ss Hr H IH]; [reflexivity|]. cbn [map]. f_equal; [apply Hr|exact IH].
Qed.

(** after Reset: the header is written over the source *)
Lemma cap_append g b p : wf b -> len b + zlen p <= zlen (arr b) ->
  append g b p = mkbuf (old b) (splice (arr b) (len b) p) (len b + zlen p).
Proof. intros Hw H. unfold append. destruct (Z.leb_spec (len b + zlen p) (zlen (arr b))); [reflexivity|lia]. Qed.
Lemma cap_Write g b p : wf b -> len b + zlen p <= zlen (arr b) ->
  Write g b p = mkbuf (old b) (splice (arr b) (len b) p) (len b + zlen p).
Proof.
  intros Hw H. unfold Write. destruct (Z.ltb_spec (zlen (arr b) - len b) (zlen p)); [lia|]. cbv zeta.
  rewrite Z.min_r by lia. rewrite (ztake_all (zlen p) p) by lia. reflexivity.
Qed.
Transparent varint_loop.
Lemma cap_varint fuel g : forall b k v, wf b -> 0 <= v < 128 ^ (Z.of_nat k + 1) -> (k <= fuel)%nat ->
  len b + zlen (leb k v) <= zlen (arr b) ->
  varint_loop fuel g b v = Ok (mkbuf (old b) (splice (arr b) (len b) (leb k v)) (len b + zlen (leb k v))).
Proof.
  induction fuel as [|fuel IH]; intros b k v Hw Hv Hk Hl; cbn [varint_loop]; unfold continuation.
  - assert (k = 0)%nat by lia. subst k. change (128 ^ (Z.of_nat 0 + 1)) with 128 in Hv.
    destruct (Z.ltb_spec v 128); [|lia]. rewrite u8_small by lia. cbn [leb] in *. rewrite cap_append by assumption. reflexivity.
  - destruct (Z.ltb_spec v 128) as [Hlt|Hge].
    + rewrite u8_small by lia. assert (El : leb k v = [v]).
      { destruct k; cbn [leb]; [reflexivity|]. destruct (Z.ltb_spec v 128); [reflexivity|lia]. }
      rewrite El in *. rewrite cap_append by assumption. reflexivity.
    + destruct k as [|k]; [change (128 ^ (Z.of_nat 0 + 1)) with 128 in Hv; lia|].
      assert (El : leb (S k) v = 128 + v mod 128 :: leb k (v / 128)).
      { cbn [leb]. destruct (Z.ltb_spec v 128); [lia|reflexivity]. }
      rewrite El in *. rewrite zlen_cons in *. pose proof (zlen_nonneg (leb k (v / 128))).
      rewrite lor_byte_128 by lia. rewrite shiftr_7. replace (v mod 128 + 128) with (128 + v mod 128) by ring.
      pose proof Hw as Hw'. unfold wf in Hw'.
      rewrite cap_append by (try assumption; rewrite zlen_cons, zlen_nil; lia). rewrite zlen_cons, zlen_nil.
      replace (Z.of_nat (S k) + 1) with (Z.succ (Z.of_nat k + 1)) in Hv by lia.
      rewrite Z.pow_succ_r in Hv by lia.
      rewrite (IH _ k (v / 128)); cbn [old arr len].
      * f_equal. f_equal; [|lia]. replace (len b + (1 + 0)) with (len b + zlen [128 + v mod 128]) by (rewrite zlen_cons, zlen_nil; lia).
        rewrite splice_splice_app by (rewrite ?zlen_cons, ?zlen_nil; lia). reflexivity.
      * unfold wf; cbn [arr len]. rewrite zlen_splice by (rewrite ?zlen_cons, ?zlen_nil; lia). lia.
      * split; [lia|]. apply Z.div_lt_upper_bound; lia.
      * lia.
      * rewrite zlen_splice by (rewrite ?zlen_cons, ?zlen_nil; lia). lia.
Qed.
Opaque varint_loop.

Lemma over_header (l H : bytes) a : ztake (zlen l) a = l -> zlen l <= zlen a -> zlen H + zlen l <= zlen a ->
  ztake (zlen l) (splice a 0 H) = ztake (zlen l) (H ++ zdrop (zlen H) l).
Proof.
  intros E L1 L2. pose proof (zlen_nonneg H). pose proof (zlen_nonneg l). unfold splice. rewrite ztake_0. cbn [app].
  destruct (Z.leb_spec (zlen l) (zlen H)).
  - rewrite !ztake_app1 by lia. reflexivity.
  - unfold ztake, zdrop, zlen in *. rewrite !firstn_app. f_equal.
    change (0 + Z.of_nat (length H)) with (Z.of_nat (length H)).
    assert (E' : firstn (length l) a = l) by (rewrite Nat2Z.id in E; exact E). rewrite !Nat2Z.id.
    rewrite <- E' at 3. rewrite skipn_firstn_comm, firstn_firstn. f_equal. lia.
Qed.
Lemma hdr_len n : 0 <= n < 2 ^ 32 -> 2 <= zlen (hdr n) <= 7.
Proof. intros H. unfold hdr. rewrite !zlen_cons. pose proof (V2Enc.varint_len32 n H). pose proof (zlen_nonneg (varint n)). lia. Qed.
Lemma z1 (x : Z) : zlen [x] = 1. Proof. reflexivity. Qed.
Lemma z2 (x y : Z) : zlen [x; y] = 2. Proof. reflexivity. Qed.
Theorem after_reset1 g b : wf b -> Len b < 2 ^ 32 -> Len b + 7 <= zlen (arr b) ->
  exists b', encodeBytes1 g (Reset b) (mkreg (length (old b)) 0 (Len b)) = Ok b' /\
    Bytes b' = hdr (Len b) ++ ztake (Len b) (hdr (Len b) ++ zdrop (zlen (hdr (Len b))) (Bytes b)).
Proof.
  unfold Len. intros Hw H32 Hc. pose proof Hw as Hw'. unfold wf in Hw'. set (n := len b) in *.
  pose proof (V2Enc.varint_len32 n ltac:(lia)) as Hv. pose proof (zlen_nonneg (varint n)).
  unfold encodeBytes1. cbv zeta. cbn [rlen]. rewrite u32_small by lia. unfold encodeUint32, BytesKind, Uint32Kind.
  assert (W0 : wf (Reset b)) by (unfold wf, Reset; cbn [arr len]; lia).
  rewrite (cap_Write g (Reset b) [4] W0) by (change (0 + 1 <= zlen (arr b)); lia).
  unfold Reset; cbn [old arr len].
  assert (L1 : zlen (splice (arr b) 0 [4]) = zlen (arr b)) by (apply zlen_splice; rewrite ?z1, ?z2; lia).
  rewrite cap_Write by (unfold wf; cbn [arr len]; rewrite ?L1, ?z1, ?z2; lia). cbn [old arr len].
  rewrite splice_splice_app by (rewrite ?z1, ?z2; lia). cbn [app].
  change (0 + zlen [4] + zlen [10]) with (0 + zlen [4; 10]).
  assert (L2 : zlen (splice (arr b) 0 [4; 10]) = zlen (arr b)) by (apply zlen_splice; rewrite ?z1, ?z2; lia).
  rewrite (cap_varint 20 g _ 9) by (first [unfold wf; cbn [arr len]; rewrite ?L2, ?z1, ?z2; fold (varint n); lia
    | split; [lia|]; apply V2Enc.pow128_10; lia]).
  cbn [old arr len bind]. fold (varint n). rewrite splice_splice_app by (rewrite ?z1, ?z2; lia).
  change ([4; 10] ++ varint n) with (hdr n). unfold Write1.
  replace (0 + zlen [4; 10] + zlen (varint n)) with (zlen (hdr n)) by (unfold hdr; rewrite z2, !zlen_cons; lia).
  pose proof (hdr_len n ltac:(lia)) as HL.
  assert (LH : zlen (splice (arr b) 0 (hdr n)) = zlen (arr b)) by (apply zlen_splice; lia).
  set (P := cells _ _).
  assert (EP : P = ztake n (hdr n ++ zdrop (zlen (hdr n)) (Bytes b))).
  { unfold P, cells, arrays1; cbn [ra rlo rlen old arr]. rewrite nth_middle. unfold zdrop at 1. cbn [Z.to_nat skipn].
    pose proof (over_header (Bytes b) (hdr n) (arr b)) as O. rewrite (Bytes_len b Hw) in O. fold n in O.
    apply O; [reflexivity|lia|lia]. }
  assert (LP : zlen P = n).
  { rewrite EP. apply zlen_ztake. rewrite zlen_app. pose proof (zlen_nonneg (zdrop (zlen (hdr n)) (Bytes b))).
    destruct (Z.leb_spec n (zlen (hdr n))); [lia|]. rewrite zlen_zdrop by (rewrite (Bytes_len b Hw); fold n; lia).
    rewrite (Bytes_len b Hw). fold n. lia. }
  rewrite cap_Write by (unfold wf; cbn [arr len]; rewrite LH; lia). cbn [old arr len].
  eexists; split; [reflexivity|]. rewrite <- EP. unfold Bytes; cbn [arr len].
  pose proof (splice_splice_app (arr b) 0 (hdr n) P) as SS. rewrite Z.add_0_l in SS. rewrite SS by lia.
  rewrite LP. pose proof (ztake_splice_end (arr b) 0 (hdr n ++ P)) as TS. rewrite Z.add_0_l, zlen_app, LP in TS.
  rewrite TS by lia. unfold ztake. reflexivity.
Qed.
End V1.

(** ** v2 *)
Section V2.
Import V2Model V2Enc.
Definition holds2 (b : buffer) (r : region) (p : bytes) : Prop := safe (old b) (off b) r /\ cells (arrays2 b) r = p /\ zlen p = rlen r.
Lemma holds2_stable b b' r p : off b <= off b' -> stable b b' -> holds2 b r p -> holds2 b' r p.
Proof.
  intros L (a & rest & E & T) (S & C & Z). unfold arrays in E.
  split; [eapply safe_stable; [exact a|exact S|exact E|lia]|]. split; [|exact Z].
  rewrite <- C. unfold arrays2. eapply cells_stable; [exact S|exact E|exact T].
Qed.
Lemma holds2_appended b b' q r p : appended b b' q -> holds2 b r p -> holds2 b' r p.
Proof. intros (W' & O & C & S & _). pose proof (zlen_nonneg q). apply holds2_stable; [lia|exact S]. Qed.
Definition fin_copy2 (r : region) (x : res (buffer * Z)) : res buffer :=
  let! (b, o) := x in let! (b, n) := copy_at b o (cells (arrays2 b) r) in Ok (set_off b (o + n)).
Lemma encodeBytes2_lit g b r : encodeBytes2 g b r =
  let! b := Grow g b (7 + rlen r) in let o := off b in
  let! b := store b o 4 in let! b := store b (o + 1) 10 in
  fin_copy2 r (blad 4 b (o + 1 + 1) (u32 (rlen r))).
Proof. reflexivity. Qed.
Lemma encodeBytes2_ok g b r p : wf b -> holds2 b r p -> zlen p < 2 ^ 28 ->
  exists b', encodeBytes2 g b r = Ok b' /\ appended b b' (4 :: 10 :: varint (zlen p) ++ p).
Proof.
  intros Hi Hh P1. pose proof (zlen_nonneg p) as P0. rewrite encodeBytes2_lit.
  assert (Er : rlen r = zlen p) by (destruct Hh as (_ & _ & E); lia). rewrite Er.
  destruct (grow_first g b (7 + zlen p) Hi ltac:(lia)) as (b1 & -> & A & O & O' & L & E).
  cbn [bind]. cbv zeta. rewrite (store_first b1) by lia. cbn [bind].
  rewrite store_st' by (rewrite ?z1; cbn [blen arr]; lia). cbn [bind app]. rewrite u32_small by lia.
  rewrite blad_lad by (try change (128 ^ Z.of_nat 4) with (2 ^ 28); lia).
  replace (off b1 + 1 + 1) with (off b1 + zlen [4; 10]) by (rewrite z2; lia).
  pose proof (varint_len32 (zlen p) ltac:(lia)) as Hv.
  rewrite lad_pair by (rewrite ?z2; lia).
  pose proof (holds2_appended _ _ _ _ _ A Hh) as H1.
  assert (Ec : cells (arrays2 (st b1 (off b1) ([4; 10] ++ varint (zlen p)))) r = p).
  { destruct H1 as (S & C & _). rewrite <- C. unfold arrays2, st; cbn [old arr].
    eapply cells_stable; [exact S|reflexivity|]. apply ztake_splice_le; lia. }
  unfold fin_copy2. cbn [bind]. rewrite Ec.
  change (4 :: 10 :: varint (zlen p) ++ p) with ([4; 10] ++ varint (zlen p) ++ p).
  apply fin_copy_ok; try assumption; rewrite ?z2; lia.
Qed.
Lemma Write2_ok g b r p : wf b -> holds2 b r p -> exists b', Write2 g b r = Ok b' /\ appended b b' p.
Proof.
  intros Hw Hh. pose proof (zlen_nonneg p). unfold Write2.
  assert (Er : rlen r = zlen p) by (destruct Hh as (_ & _ & E); lia). rewrite Er.
  destruct (Grow_ok g b (zlen p) Hw ltac:(lia)) as (b1 & -> & A & L & _). cbn [bind].
  pose proof (holds2_appended _ _ _ _ _ A Hh) as (_ & -> & _).
  pose proof A as (I1 & O1 & _). rewrite zlen_nil in O1. destruct I1 as [I1 I2]. unfold Cap.
  destruct (Z.ltb_spec (off b1) 0); [lia|]. destruct (Z.ltb_spec (zlen (arr b1)) (off b1)); [lia|].
  cbn [orb]. rewrite Z.min_r by lia. rewrite (ztake_all (zlen p) p) by lia.
  eexists; split; [reflexivity|]. apply (st_appended b b1 p); [exact Hw|exact A|lia].
Qed.
Definition rel2 (s : buffer * list region) (t : bytes * list bytes) : Prop :=
  wf (fst s) /\ content (fst s) = fst t /\ Forall2 (holds2 (fst s)) (snd s) (snd t).
Lemma holds2_all b b' hs ss : off b <= off b' -> stable b b' -> Forall2 (holds2 b) hs ss -> Forall2 (holds2 b') hs ss.
Proof. intros Hw A H. induction H; constructor; auto. eapply holds2_stable; eassumption. Qed.
Lemma act2_ok g s t a : rel2 s t -> own_ok ok2 (2 ^ 28) t a ->
  exists s', act2 g s a = Ok s' /\ rel2 s' (own_log log2 forget2 t a).
Proof.
  destruct s as [b hs], t as [l ss]. intros (Hw & HB & HF) Ho. cbn [fst snd] in *. subst l.
  destruct a as [o|i j|k|k]; cbn [act2 own_ok own_log] in *.
  - destruct (apply2_ok g b o Hw Ho) as (b' & E & W & C & _ & S). rewrite E. cbn [bind].
    eexists; split; [reflexivity|]. split; [exact W|]. split; [exact C|]. cbn [fst snd].
    destruct o; cbn [forget2]; try constructor; destruct (S I) as [S1 S2]; eapply holds2_all; eassumption.
  - destruct Ho as [H1 H2]. unfold Take2. rewrite (Bytes_content b Hw). cbn [bind].
    destruct (Z.ltb_spec i 0); [lia|]. destruct (Z.ltb_spec j i); [lia|]. destruct (Z.ltb_spec (zlen (content b)) j); [lia|].
    cbn [orb bind]. eexists; split; [reflexivity|]. split; [exact Hw|]. cbn [fst snd]. split; [reflexivity|].
    assert (L : zlen (content b) = off b) by (unfold content; apply zlen_ztake; destruct Hw; lia).
    apply Forall2_app; [exact HF|]. constructor; [|constructor]. split; [|split].
    + unfold safe; cbn [ra rlo rlen]. repeat split; lia.
    + unfold cells, arrays2; cbn [ra rlo rlen]. rewrite nth_middle. unfold part, content.
      symmetry. apply (ztake_zdrop_prefix (off b)); try lia. apply ztake_ztake. destruct Hw; lia.
    + unfold part; cbn [rlen]. rewrite zlen_ztake; [reflexivity|]. rewrite zlen_zdrop by lia. lia.
  - destruct Ho as [Hk Hl]. destruct (kept_ok _ hs ss k [] HF Hk) as (r & -> & Hr). cbn [bind].
    destruct (encodeBytes2_ok g b r _ Hw Hr Hl) as (b' & -> & A). cbn [bind].
    pose proof A as (W & O & C & S & _). pose proof (zlen_nonneg (4 :: 10 :: varint (zlen (nth k ss [])) ++ nth k ss [])).
    eexists; split; [reflexivity|]. split; [exact W|]. cbn [fst snd]. split; [exact C|]. eapply holds2_all; [|exact S|exact HF]. lia.
  - destruct (kept_ok _ hs ss k [] HF Ho) as (r & -> & Hr). cbn [bind].
    destruct (Write2_ok g b r _ Hw Hr) as (b' & -> & A). cbn [bind].
    pose proof A as (W & O & C & S & _). pose proof (zlen_nonneg (nth k ss [])).
    eexists; split; [reflexivity|]. split; [exact W|]. cbn [fst snd]. split; [exact C|]. eapply holds2_all; [|exact S|exact HF]. lia.
Qed.
Lemma acts2_rel g l : forall s t, rel2 s t -> own_ok_all log2 forget2 ok2 (2 ^ 28) t l ->
  exists s', acts2 g s l = Ok s' /\ rel2 s' (fold_left (own_log log2 forget2) l t).
Proof.
  induction l as [|a l IH]; intros s t R Ho; cbn [acts2 fold_left]; [eauto|].
  destruct Ho as [Ha Ho]. destruct (act2_ok g s t a R Ha) as (s1 & -> & R1). cbn [bind]. apply IH; assumption.
Qed.
Theorem acts2_log g l b p : wf b -> Bytes b = Ok p -> own_ok_all log2 forget2 ok2 (2 ^ 28) (p, []) l ->
  exists b' hs q ss, acts2 g (b, []) l = Ok (b', hs) /\ Bytes b' = Ok q /\ map (cells (arrays2 b')) hs = ss /\
    (q, ss) = fold_left (own_log log2 forget2) l (p, []).
Proof.
  intros Hw HB Ho. rewrite (Bytes_content b Hw) in HB. injection HB as <-.
  destruct (acts2_rel g l (b, []) (content b, [])) as ([b' hs] & E & R); [|exact Ho|].
  - split; [exact Hw|]. split; [reflexivity|constructor].
  - exists b', hs. destruct (fold_left _ l _) as [l' ss]. destruct R as (W & HB & HF). cbn [fst snd] in *.
    exists l', ss. split; [exact E|]. split; [rewrite (Bytes_content _ W), HB; reflexivity|]. split; [|reflexivity].
    clear - HF. induction HF as [|r p hs ss Hr H IH]; [reflexivity|]. cbn [map]. f_equal; [apply Hr|exact IH].
Qed.

(** after Reset *)
Theorem after_reset2 g b l : wf b -> Bytes b = Ok l -> zlen l < 2 ^ 28 -> zlen l + 7 <= Cap b ->
  exists b', encodeBytes2 g (Reset b) (mkreg (length (old b)) 0 (zlen l)) = Ok b' /\
    Bytes b' = Ok (hdr (zlen l) ++ ztake (zlen l) (hdr (zlen l) ++ zdrop (zlen (hdr (zlen l))) l)).
Proof.
  intros Hw HB H28 Hc. pose proof Hw as [W1 W2]. unfold Cap in Hc. rewrite (Bytes_content b Hw) in HB. injection HB as <-.
  assert (Ln : zlen (content b) = off b) by (unfold content; apply zlen_ztake; lia).
  set (n := zlen (content b)) in *. pose proof (zlen_nonneg (content b)). fold n in H.
  pose proof (varint_len32 n ltac:(lia)) as Hv. pose proof (hdr_len n ltac:(lia)) as HL.
  rewrite encodeBytes2_lit. cbn [rlen].
  assert (EG : Grow g (Reset b) (7 + n) = Ok (Reset b)).
  { unfold Grow, Reset, set_off, Cap; cbn [arr off]. destruct (Z.ltb_spec (zlen (arr b) - 0) (7 + n)); [lia|reflexivity]. }
  rewrite EG. cbn [bind]. cbv zeta.
  assert (O0 : off (Reset b) = 0) by reflexivity. assert (B0 : blen (Reset b) = zlen (arr b)) by exact W1.
  assert (A0 : arr (Reset b) = arr b) by reflexivity.
  rewrite (store_first (Reset b)) by (rewrite ?O0, ?B0, ?A0; lia). cbn [bind].
  rewrite store_st' by (rewrite ?z1, ?O0, ?B0, ?A0; lia). cbn [bind app]. rewrite u32_small by lia.
  rewrite blad_lad by (try change (128 ^ Z.of_nat 4) with (2 ^ 28); lia).
  replace (off (Reset b) + 1 + 1) with (off (Reset b) + zlen [4; 10]) by (rewrite z2; lia).
  rewrite lad_pair by (rewrite ?z2, ?O0, ?B0, ?A0; lia).
  change ([4; 10] ++ varint n) with (hdr n). unfold fin_copy2. cbn [bind].
  set (P := cells _ _).
  assert (EP : P = ztake n (hdr n ++ zdrop (zlen (hdr n)) (content b))).
  { unfold P, cells, arrays2, st, Reset, set_off; cbn [ra rlo rlen old arr off]. rewrite nth_middle. unfold zdrop at 1. cbn [Z.to_nat skipn].
    apply (over_header (content b) (hdr n) (arr b)); fold n; [|lia|lia]. rewrite Ln. reflexivity. }
  assert (LP : zlen P = n).
  { rewrite EP. apply zlen_ztake. rewrite zlen_app. pose proof (zlen_nonneg (zdrop (zlen (hdr n)) (content b))).
    destruct (Z.leb_spec n (zlen (hdr n))); [lia|]. rewrite zlen_zdrop by (fold n; lia). fold n. lia. }
  rewrite (copy_st (Reset b)) by (rewrite ?O0, ?B0, ?A0; lia). cbn [bind].
  eexists; split; [reflexivity|]. rewrite <- EP. unfold Bytes, Cap, set_off, st; cbn [off arr]. rewrite O0, A0, LP.
  rewrite zlen_splice by (rewrite ?zlen_app; lia).
  destruct (Z.ltb_spec (0 + zlen (hdr n) + n) 0); [lia|]. destruct (Z.ltb_spec (zlen (arr b)) (0 + zlen (hdr n) + n)); [lia|]. cbn [orb].
  f_equal. pose proof (ztake_splice_end (arr b) 0 (hdr n ++ P)) as TS. rewrite zlen_app, LP in TS.
  replace (0 + zlen (hdr n) + n) with (0 + (zlen (hdr n) + n)) by lia. rewrite TS by lia. unfold ztake. reflexivity.
Qed.
End V2.

(** what comes out after Reset is not the encoding of what the slice read *)
Lemma reset_corrupts l c t : zlen l < 2 ^ 32 -> l = c :: t -> c <> 4 ->
  hdr (zlen l) ++ ztake (zlen l) (hdr (zlen l) ++ zdrop (zlen (hdr (zlen l))) l) <> wire (VBytes l).
Proof.
  intros H E Hc. change (wire (VBytes l)) with (hdr (zlen l) ++ l). intros X. apply app_inv_head in X.
  assert (Hp : 0 < zlen l) by (rewrite E, zlen_cons; pose proof (zlen_nonneg t); lia).
  assert (Y : nth_error (ztake (zlen l) (hdr (zlen l) ++ zdrop (zlen (hdr (zlen l))) l)) 0 = nth_error l 0) by (rewrite X; reflexivity).
  unfold ztake in Y. destruct (Z.to_nat (zlen l)) eqn:En; [lia|]. unfold hdr at 1 in Y. cbn in Y. rewrite E in Y. cbn in Y. congruence.
Qed.
