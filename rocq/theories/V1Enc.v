(** Proofs about the v1 buffer and encoder. *)
From Verif Require Import Base Spec SpecProofs GoLoop V1Model.

Notation binv := wf.

(** every array ever used by the buffer, oldest first *)
Definition arrays (b : buffer) : list bytes := old b ++ [arr b].

(** later state [b'] keeps all abandoned arrays and the first [len b] bytes of the current one *)
Definition stable (b b' : buffer) : Prop :=
  exists a rest, arrays b' = old b ++ a :: rest /\ ztake (len b) a = ztake (len b) (arr b).

Definition appended (b b' : buffer) (p : bytes) : Prop :=
  binv b' /\ Bytes b' = Bytes b ++ p /\ stable b b'.

Lemma Bytes_len b : binv b -> zlen (Bytes b) = len b.
Proof. intros H. unfold Bytes. apply zlen_ztake. exact H. Qed.

Lemma stable_refl b : stable b b.
Proof. exists (arr b), []. split; reflexivity. Qed.
Lemma stable_trans b1 b2 b3 : 0 <= len b1 <= len b2 -> stable b1 b2 -> stable b2 b3 -> stable b1 b3.
Proof.
  intros Hl (a & rest & E & T) (a' & rest' & E' & T').
  unfold arrays in E. destruct rest as [|z rest0] using rev_ind.
  - apply app_inj_tail in E. destruct E as [E1 E2]. subst a.
    exists a', rest'. rewrite <- E1. split; [exact E'|].
    rewrite <- T. rewrite <- (ztake_ztake (len b1) (len b2) a') by lia.
    rewrite T'. apply ztake_ztake; lia.
  - clear IHrest0. change (a :: rest0 ++ [z]) with ((a :: rest0) ++ [z]) in E.
    rewrite app_assoc in E. apply app_inj_tail in E. destruct E as [E1 _].
    exists a, (rest0 ++ a' :: rest'). split; [|exact T].
    rewrite E', E1, <- app_assoc. reflexivity.
Qed.
Lemma appended_refl b : binv b -> appended b b [].
Proof. intros H. repeat split; try apply H; [rewrite app_nil_r; reflexivity|apply stable_refl]. Qed.
Lemma appended_trans b1 b2 b3 p q : binv b1 ->
  appended b1 b2 p -> appended b2 b3 q -> appended b1 b3 (p ++ q).
Proof.
  intros Hi (I2 & B2 & S2) (I3 & B3 & S3). split; [exact I3|]. split.
  - rewrite B3, B2, app_assoc. reflexivity.
  - eapply stable_trans; [|eassumption|eassumption].
    pose proof (Bytes_len _ Hi) as H1. pose proof (Bytes_len _ I2) as H2.
    rewrite B2, zlen_app in H2. pose proof (zlen_nonneg p).
    unfold wf in Hi. lia.
Qed.

Lemma append_ok g b p : binv b -> appended b (append g b p) p.
Proof.
  intros Hi. unfold append. pose proof (zlen_nonneg p). unfold wf in Hi.
  destruct (Z.leb_spec (len b + zlen p) (zlen (arr b))) as [Hf|Hf].
  - split; [unfold wf; cbn [len arr]; rewrite zlen_splice; lia|]. split.
    + unfold Bytes; cbn [len arr]. apply ztake_splice_end; lia.
    + exists (splice (arr b) (len b) p), []. split; [reflexivity|].
      apply ztake_splice_le; lia.
  - split; [unfold wf; cbn [len arr]; rewrite !zlen_app, zlen_ztake;
            [pose proof (zlen_nonneg (g (length (old b)) (len b + zlen p))); lia|lia]|]. split.
    + unfold Bytes; cbn [len arr]. rewrite app_assoc.
      rewrite <- (zlen_ztake (len b) (arr b)) at 1 by lia. rewrite <- zlen_app.
      apply ztake_app_exact.
    + exists (arr b), [ztake (len b) (arr b) ++ p ++ g (length (old b)) (len b + zlen p)].
      split; [|reflexivity]. unfold arrays; cbn [old arr]. rewrite <- app_assoc. reflexivity.
Qed.
Lemma Write_ok g b p : binv b -> appended b (Write g b p) p.
Proof.
  intros Hi. unfold Write. destruct (Z.ltb_spec (zlen (arr b) - len b) (zlen p)) as [H|H].
  - apply append_ok; exact Hi.
  - pose proof (append_ok g b p Hi) as A. unfold append in A. cbn zeta.
    rewrite Z.min_r by lia. rewrite ztake_all by lia.
    destruct (Z.leb_spec (len b + zlen p) (zlen (arr b))); [exact A|lia].
Qed.

Lemma varint_loop_ok fuel g : forall b value k,
  binv b -> 0 <= value < 128 ^ (Z.of_nat k + 1) -> (k <= fuel)%nat ->
  exists b', varint_loop fuel g b value = Ok b' /\ appended b b' (leb k value).
Proof.
  induction fuel as [|fuel IH]; intros b value k Hi Hv Hk; cbn [varint_loop]; unfold continuation.
  - assert (k = 0)%nat by lia. subst k. change (128 ^ (Z.of_nat 0 + 1)) with 128 in Hv.
    destruct (Z.ltb_spec value 128); [|lia]. eexists; split; [reflexivity|].
    rewrite u8_small by lia. apply append_ok; exact Hi.
  - destruct (Z.ltb_spec value 128) as [Hlt|Hge].
    + eexists; split; [reflexivity|]. rewrite u8_small by lia.
      replace (leb k value) with [value]; [apply append_ok; exact Hi|].
      destruct k; cbn [leb]; [reflexivity|]. destruct (Z.ltb_spec value 128); [reflexivity|lia].
    + destruct k as [|k]; [change (128 ^ (Z.of_nat 0 + 1)) with 128 in Hv; lia|].
      cbn [leb]. destruct (Z.ltb_spec value 128); [lia|].
      rewrite lor_byte_128 by lia. rewrite shiftr_7.
      replace (value mod 128 + 128) with (128 + value mod 128) by ring.
      pose proof (append_ok g b [128 + value mod 128] Hi) as A1.
      replace (Z.of_nat (S k) + 1) with (Z.succ (Z.of_nat k + 1)) in Hv by lia.
      rewrite Z.pow_succ_r in Hv by lia.
      destruct (IH (append g b [128 + value mod 128]) (value / 128) k) as (b' & E & A2).
      * apply A1.
      * split; [lia|apply Z.div_lt_upper_bound; lia].
      * lia.
      * exists b'. split; [exact E|].
        change (128 + value mod 128 :: leb k (value / 128))
          with ([128 + value mod 128] ++ leb k (value / 128)).
        eapply appended_trans; eassumption.
Qed.
Lemma varint_ok64 g b value : binv b -> 0 <= value < 2 ^ 64 ->
  exists b', varint_loop 20 g b value = Ok b' /\ appended b b' (varint value).
Proof.
  intros Hi Hv. apply varint_loop_ok; [exact Hi| |lia].
  split; [lia|]. eapply Z.lt_le_trans; [apply Hv|]. vm_compute; discriminate.
Qed.
Opaque varint_loop.
Lemma kind_varint g b k n : binv b -> 0 <= n < 2 ^ 64 ->
  exists b', varint_loop 20 g (Write g b [k]) n = Ok b' /\ appended b b' (k :: varint n).
Proof.
  intros Hi Hn. pose proof (Write_ok g b [k] Hi) as A.
  destruct (varint_ok64 g (Write g b [k]) n (proj1 A) Hn) as (b' & E & A2).
  exists b'. split; [exact E|]. change (k :: varint n) with ([k] ++ varint n).
  eapply appended_trans; eassumption.
Qed.
Lemma encodeUint32_ok g b n : binv b -> 0 <= n < 2 ^ 32 ->
  exists b', encodeUint32 g b n = Ok b' /\ appended b b' (10 :: varint n).
Proof. intros Hi Hn. unfold encodeUint32, Uint32Kind. apply kind_varint. exact Hi. lia. Qed.
Lemma encodeString_ok g b p : binv b -> payload_ok p ->
  exists b', encodeString g b p = Ok b' /\ appended b b' (5 :: 10 :: varint (zlen p) ++ p).
Proof.
  intros Hi Hp. pose proof (payload_len p Hp) as Hl. unfold encodeString. cbn zeta.
  pose proof (Write_ok g b StringKind Hi) as A1. rewrite u32_small by exact Hl.
  destruct (encodeUint32_ok g _ _ (proj1 A1) Hl) as (b2 & E2 & A2). rewrite E2. cbn [bind].
  eexists; split; [reflexivity|].
  pose proof (Write_ok g b2 p (proj1 A2)) as A3.
  pose proof (appended_trans _ _ _ _ _ (proj1 A1) A2 A3) as A4.
  exact (appended_trans _ _ _ _ _ Hi A1 A4).
Qed.

Lemma encode_ok g b v : binv b -> valid v ->
  exists b', encode g b v = Ok b' /\ appended b b' (wire v).
Proof.
  intros Hi Hv. destruct v; cbn [encode wire valid] in *.
  - eexists; split; [reflexivity|]. apply Write_ok; exact Hi.
  - destruct Hv as (Hn & _ & _). unfold encodeMap. cbn zeta.
    pose proof (Write_ok g b MapKind Hi) as A1.
    pose proof (Write_ok g _ [keyKind] (proj1 A1)) as A2.
    pose proof (Write_ok g _ [valueKind] (proj1 A2)) as A3.
    destruct (encodeUint32_ok g _ size (proj1 A3) Hn) as (b' & E & A4).
    exists b'. split; [exact E|].
    pose proof (appended_trans _ _ _ _ _ (proj1 A2) A3 A4) as A5.
    pose proof (appended_trans _ _ _ _ _ (proj1 A1) A2 A5) as A6.
    exact (appended_trans _ _ _ _ _ Hi A1 A6).
  - destruct Hv as (Hn & _). unfold encodeSlice. cbn zeta.
    pose proof (Write_ok g b SliceKind Hi) as A1.
    pose proof (Write_ok g _ [kind] (proj1 A1)) as A2.
    destruct (encodeUint32_ok g _ size (proj1 A2) Hn) as (b' & E & A4).
    exists b'. split; [exact E|].
    pose proof (appended_trans _ _ _ _ _ (proj1 A1) A2 A4) as A5.
    exact (appended_trans _ _ _ _ _ Hi A1 A5).
  - pose proof (payload_len p Hv) as Hl. unfold encodeBytes. cbn zeta.
    pose proof (Write_ok g b BytesKind Hi) as A1. rewrite u32_small by exact Hl.
    destruct (encodeUint32_ok g _ _ (proj1 A1) Hl) as (b2 & E2 & A2). rewrite E2. cbn [bind].
    eexists; split; [reflexivity|].
    pose proof (Write_ok g b2 p (proj1 A2)) as A3.
    pose proof (appended_trans _ _ _ _ _ (proj1 A1) A2 A3) as A4.
    exact (appended_trans _ _ _ _ _ Hi A1 A4).
  - apply encodeString_ok; assumption.
  - unfold encodeError. pose proof (Write_ok g b ErrorKind Hi) as A1.
    destruct (encodeString_ok g _ p (proj1 A1) Hv) as (b' & E & A2).
    exists b'. split; [exact E|].
    exact (appended_trans _ _ _ _ _ Hi A1 A2).
  - unfold encodeBool. cbn zeta. pose proof (Write_ok g b BoolKind Hi) as A1.
    destruct b0; (eexists; split; [reflexivity|]);
      eapply (appended_trans _ _ _ BoolKind); try exact Hi; try exact A1;
      apply append_ok; apply A1.
  - unfold encodeUint8. eexists; split; [reflexivity|].
    pose proof (Write_ok g b Uint8Kind Hi) as A1.
    eapply (appended_trans _ _ _ Uint8Kind); [exact Hi|exact A1|]. apply append_ok; apply A1.
  - unfold encodeUint16, Uint16Kind. apply kind_varint; [exact Hi|lia].
  - unfold encodeUint32, Uint32Kind. apply kind_varint; [exact Hi|lia].
  - unfold encodeUint64, Uint64Kind. apply kind_varint; [exact Hi|lia].
  - unfold encodeInt32. cbn zeta. pose proof (zigzag_cast 32 n ltac:(lia) Hv) as Z.
    cbn zeta in Z. fold (u32 n) in Z. fold (u32 (Z.shiftl (u32 n) 1)) in Z.
    fold (u32 (Z.lnot (u32 (Z.shiftl (u32 n) 1)))) in Z. rewrite Z.
    unfold Int32Kind. apply kind_varint; [exact Hi|]. pose proof (zigzag32 n Hv). lia.
  - unfold encodeInt64. cbn zeta. pose proof (zigzag_cast 64 n ltac:(lia) Hv) as Z.
    cbn zeta in Z. fold (u64 n) in Z. fold (u64 (Z.shiftl (u64 n) 1)) in Z.
    fold (u64 (Z.lnot (u64 (Z.shiftl (u64 n) 1)))) in Z. rewrite Z.
    unfold Int64Kind. apply kind_varint; [exact Hi|]. pose proof (zigzag64 n Hv). lia.
  - unfold encodeFloat32. eexists; split; [reflexivity|].
    pose proof (Write_ok g b Float32Kind Hi) as A1. rewrite !u8_shiftr by lia.
    eapply (appended_trans _ _ _ Float32Kind); [exact Hi|exact A1|].
    apply (append_ok g _ (be4 bits)); apply A1.
  - unfold encodeFloat64. eexists; split; [reflexivity|].
    pose proof (Write_ok g b Float64Kind Hi) as A1. rewrite !u8_shiftr by lia.
    eapply (appended_trans _ _ _ Float64Kind); [exact Hi|exact A1|].
    apply (append_ok g _ (be8 bits)); apply A1.
Qed.

Lemma encode_all_ok g vs : forall b, binv b -> Forall valid vs ->
  exists b', encode_all g b vs = Ok b' /\ appended b b' (wires vs).
Proof.
  induction vs as [|v vs IH]; intros b Hi Hv; cbn [encode_all].
  - exists b. split; [reflexivity|apply appended_refl; exact Hi].
  - inversion Hv; subst. destruct (encode_ok g b v Hi ltac:(assumption)) as (b1 & E1 & A1).
    rewrite E1. cbn [bind]. destruct (IH b1 (proj1 A1) ltac:(assumption)) as (b2 & E2 & A2).
    exists b2. split; [exact E2|]. rewrite wires_cons. eapply appended_trans; eassumption.
Qed.
