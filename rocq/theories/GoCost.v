(** What v2 buffers cost: reallocation (C79). *)
From Verif Require Import Base Spec SpecProofs BufSpec CostSpec V2Model V2Enc GoThms GoThms2 GoBuf GoBuf2.

(** memory only: the abandoned arrays and the capacity *)
Definition mem (b : buffer) : list bytes * Z := (old b, Cap b).

Lemma zlen_splice (l : bytes) o p : 0 <= o -> o + zlen p <= zlen l -> zlen (splice l o p) = zlen l.
Proof.
  intros A B. pose proof (zlen_nonneg p). unfold splice. rewrite !zlen_app.
  rewrite zlen_ztake by lia. rewrite zlen_zdrop by lia. lia.
Qed.
Lemma store_mem b i c b' : 0 <= i -> blen b <= zlen (arr b) -> store b i c = Ok b' ->
  mem b' = mem b /\ blen b' = blen b.
Proof.
  intros Hi Hb. unfold store. destruct (Z.ltb_spec i 0); [lia|].
  destruct (Z.leb_spec (blen b) i); [discriminate|]. cbn [orb]. intros [= <-].
  unfold mem, Cap; cbn [old arr blen]. rewrite zlen_splice; [tauto|lia|].
  change (zlen [c]) with 1. lia.
Qed.
Lemma stores_mem l : forall b i b', 0 <= i -> blen b <= zlen (arr b) -> stores b i l = Ok b' ->
  mem b' = mem b /\ blen b' = blen b.
Proof.
  induction l as [|c l IH]; intros b i b' Hi Hb H; cbn [stores] in H; [injection H as <-; tauto|].
  destruct (store b i c) as [b1|] eqn:E; cbn [bind] in H; [|discriminate H].
  destruct (store_mem b i c b1 Hi Hb E) as [M L].
  destruct (IH b1 (i + 1) b') as [M2 L2]; [lia| |exact H|].
  - rewrite L. injection M as _ M. unfold Cap in M. lia.
  - rewrite M2, L2. tauto.
Qed.
Lemma copy_mem b i p b' n : 0 <= i -> blen b <= zlen (arr b) -> copy_at b i p = Ok (b', n) -> mem b' = mem b.
Proof.
  intros Hi Hb. unfold copy_at. destruct (Z.ltb_spec i 0); [lia|].
  destruct (Z.ltb_spec (blen b) i); [discriminate|]. cbn [orb]. intros [= <- _].
  pose proof (zlen_nonneg p).
  unfold mem, Cap; cbn [old arr]. rewrite zlen_splice; [reflexivity|lia|].
  rewrite zlen_ztake by lia. lia.
Qed.
Lemma request_pos o l : ok2 l o -> 0 <= request o.
Proof.
  destruct o as [v|p| |n|k]; cbn [request ok2]; intros H; try lia; [|pose proof (zlen_nonneg p); lia].
  destruct v as [| | |p|p|p| | | | | | | | |]; cbn [max_size]; try lia; pose proof (zlen_nonneg p); lia.
Qed.
(** every call has the memory effect of Grow with the room it asks for *)
Lemma apply_mem g b o b' : wf b -> ok2 (content b) o -> apply g b o = Ok b' ->
  exists bg, Grow g b (request o) = Ok bg /\ wf bg /\ off bg = off b /\ mem b' = mem bg.
Proof.
  intros Hw Ho H. pose proof (request_pos o _ Ho) as Hr.
  destruct (Grow_ok g b (request o) Hw Hr) as (bg & E & (W & O & _) & _). rewrite zlen_nil in O.
  exists bg. split; [exact E|]. split; [exact W|]. split; [lia|].
  destruct o as [v|p| |n|k]; cbn [apply request ok2] in *.
  - destruct Ho as [Hv Hf]. assert (fits2 v) as Hf2 by (destruct v; cbn [fits2]; auto).
    rewrite encode_normal in H by assumption. unfold normal in H. rewrite E in H. cbn [bind] in H. cbv zeta in H.
    destruct W as [W1 W2].
    destruct (stores bg (off bg) (head v)) as [b2|] eqn:E2; cbn [bind] in H; [|discriminate H].
    destruct (stores_mem _ bg (off bg) b2 ltac:(lia) ltac:(lia) E2) as [M L].
    destruct (has_payload_v v).
    + destruct (copy_at b2 (off bg + zlen (head v)) (payload_of v)) as [[b3 n]|] eqn:E3; cbn [bind] in H; [|discriminate H].
      injection H as <-. pose proof (zlen_nonneg (head v)).
      assert (mem b3 = mem b2) as M3.
      { eapply copy_mem; [| |exact E3]; [lia|]. rewrite L. injection M as _ M. unfold Cap in M. lia. }
      unfold mem in *. cbn [set_off old]. unfold Cap in *. cbn [set_off arr]. congruence.
    + injection H as <-. unfold mem in *. cbn [set_off old]. unfold Cap in *. cbn [set_off arr]. congruence.
  - unfold Write in H. rewrite E in H. cbn [bind] in H. destruct W as [W1 W2].
    destruct (Z.ltb_spec (off bg) 0); [lia|]. unfold Cap in H.
    destruct (Z.ltb_spec (zlen (arr bg)) (off bg)); [lia|]. cbn [orb] in H. cbv zeta in H.
    injection H as <-. unfold mem, Cap; cbn [old arr]. pose proof (zlen_nonneg p).
    rewrite zlen_splice; [reflexivity|lia|]. rewrite zlen_ztake by lia. lia.
  - unfold Grow in E. destruct Hw as [W1 W2]. unfold Cap in E.
    destruct (Z.ltb_spec (zlen (arr b) - off b) 0); [lia|]. injection E as <-. injection H as <-. reflexivity.
  - congruence.
  - unfold Grow in E. destruct Hw as [W1 W2]. unfold Cap in E.
    destruct (Z.ltb_spec (zlen (arr b) - off b) 0); [lia|]. injection E as <-. injection H as <-. reflexivity.
Qed.
(** Grow, as far as memory is concerned *)
Lemma Grow_mem g b n bg : wf b -> 0 <= n -> Grow g b n = Ok bg ->
  (off b + n <= Cap b /\ bg = b) \/
  (Cap b < off b + n /\ old bg = old b ++ [arr b] /\ 0 < Cap bg /\
   exists k, off b + n <= k /\ 2 * Cap b <= k <= 2 * (off b + n) /\ Cap bg = k + zlen (g (length (old b)) k)).
Proof.
  intros [W1 W2] Hn. unfold Grow. destruct (Z.ltb_spec (Cap b - off b) n) as [L|L]; [|intros [= <-]; left; split; [lia|reflexivity]].
  intros H. right. unfold Cap in *. pose proof (zlen_nonneg (arr b)).
  assert (forall k, zlen (arr b) < off b + k -> 0 <= k ->
    append_zeros g b (off b) k = Ok (mkbuf (old b ++ [arr b])
      (ztake (off b) (arr b) ++ repeat 0 (Z.to_nat k) ++ g (length (old b)) (off b + k)) (off b + k) (off b))) as A.
  { intros k K1 K2. unfold append_zeros. destruct (Z.ltb_spec (off b) 0); [lia|].
    destruct (Z.ltb_spec (zlen (arr b)) (off b)); [lia|]. destruct (Z.ltb_spec k 0); [lia|]. cbn [orb].
    destruct (Z.leb_spec (off b + k) (zlen (arr b))); [lia|]. reflexivity. }
  split; [lia|]. destruct (Z.ltb_spec (zlen (arr b)) n) as [L2|L2];
    rewrite A in H by lia; cbn [bind] in H; injection H as <-; cbn [old arr off];
    rewrite !zlen_app, zlen_repeat, zlen_ztake by lia.
  - pose proof (zlen_nonneg (g (length (old b)) (off b + (n + zlen (arr b) - off b)))).
    split; [reflexivity|]. split; [lia|]. exists (off b + (n + zlen (arr b) - off b)). lia.
  - pose proof (zlen_nonneg (g (length (old b)) (off b + (zlen (arr b) * 2 - off b)))).
    split; [reflexivity|]. split; [lia|]. exists (off b + (zlen (arr b) * 2 - off b)). lia.
Qed.

Lemma content_Bytes b l : Bytes b = Ok l -> content b = l.
Proof.
  unfold Bytes, content. destruct ((off b <? 0) || (Cap b <? off b)); [discriminate|]. intros [= <-]. reflexivity.
Qed.

Lemma block_bytes_app x y : block_bytes (x ++ y) = block_bytes x + block_bytes y.
Proof. induction x as [|a x IH]; [reflexivity|]. cbn [app].
  change (block_bytes (a :: x ++ y)) with (zlen a + block_bytes (x ++ y)).
  change (block_bytes (a :: x)) with (zlen a + block_bytes x). lia. Qed.

Lemma cost_all g w s ops : 0 <= w -> 0 <= s ->
  forall b, wf b -> ok2_all (content b) ops -> exists b' dropped,
  run g b ops = Ok b' /\ wf b' /\ content b' = fold_left log2 ops (content b) /\
  old b' = old b ++ dropped /\
  2 ^ Z.of_nat (length dropped) * Cap b <= Cap b' /\
  (dropped <> [] -> 2 ^ (Z.of_nat (length dropped) - 1) <= Cap b') /\
  block_bytes dropped + Cap b <= Cap b' /\
  (spare_at_most w s g -> Cap b' <= Z.max (Cap b) (2 * (1 + w) * peak (content b) ops + s)) /\
  (dropped = [] <-> peak (content b) ops <= Cap b) /\ (dropped = [] -> Cap b' = Cap b) /\
  peak (content b) ops <= Cap b'.
Proof.
  intros Hw0 Hs0. induction ops as [|o ops IH]; intros b Hw Ho.
  - exists b, []. cbn [run fold_left peak length]. rewrite app_nil_r. change (block_bytes []) with 0.
    pose proof (zlen_nonneg (arr b)). unfold Cap. change (2 ^ Z.of_nat 0) with 1.
    split; [reflexivity|]. split; [exact Hw|]. split; [reflexivity|]. split; [reflexivity|].
    split; [lia|]. split; [congruence|]. split; [lia|]. split; [intros _; lia|]. split; [|split; [reflexivity|lia]].
    split; intros _; [lia|reflexivity].
  - cbn [ok2_all] in Ho. destruct Ho as [Ho Hos]. cbn [run fold_left peak].
    destruct (apply2_ok g b o Hw Ho) as (b1 & E1 & W1 & C1 & _). rewrite E1. cbn [bind].
    rewrite <- C1 in *. destruct (IH b1 W1 Hos) as (b' & d & R & W' & C' & O' & P1 & P2 & P3 & P4 & P5 & P6 & P7).
    destruct (apply_mem g b o b1 Hw Ho E1) as (bg & EG & WG & OG & M). injection M as M1 M2.
    pose proof (request_pos _ _ Ho) as Hr. rewrite content_len in * by exact Hw.
    assert (0 <= Cap b) as Hc by apply zlen_nonneg.
    assert (0 <= Z.of_nat (length d)) as Hd by lia.
    pose proof (Z.pow_pos_nonneg 2 (Z.of_nat (length d)) ltac:(lia) Hd) as Hp.
    destruct (Grow_mem g b (request o) bg Hw Hr EG) as [[F ->]|(F & O1 & F1 & k & K1 & K2 & K3)].
    + exists b', d. split; [exact R|]. split; [exact W'|]. split; [exact C'|].
      rewrite M1 in O'. rewrite M2 in *. split; [exact O'|]. split; [exact P1|]. split; [exact P2|].
      split; [exact P3|]. assert (Cap b <= Cap b') by nia.
      split; [|split; [|split; [exact P6|lia]]].
      * intros B. specialize (P4 B). nia.
      * rewrite P5. lia.
    + exists b', (arr b :: d). split; [exact R|]. split; [exact W'|]. split; [exact C'|].
      rewrite M1, O1 in O'. rewrite <- app_assoc in O'. split; [exact O'|].
      rewrite M2 in *. cbn [length]. rewrite Nat2Z.inj_succ.
      pose proof (zlen_nonneg (g (length (old b)) k)) as Hg.
      split; [rewrite Z.pow_succ_r by lia; nia|].
      split; [intros _; replace (Z.succ (Z.of_nat (length d)) - 1) with (Z.of_nat (length d)) by lia; nia|].
      split; [change (block_bytes (arr b :: d)) with (zlen (arr b) + block_bytes d); unfold Cap in *; lia|].
      assert (Cap bg <= Cap b') by nia.
      split; [|split; [|split; [discriminate|lia]]].
      * intros B. specialize (P4 B). specialize (B (length (old b)) k ltac:(lia)).
        assert (Cap bg <= 2 * (1 + w) * (off b + request o) + s) by nia. nia.
      * split; [discriminate|]. lia.
Qed.

(** encodings exceed what they need by at most nine bytes *)
Lemma varint_1 n : 1 <= zlen (varint n).
Proof.
  unfold varint. cbn [leb]. destruct (n <? 128); rewrite zlen_cons; [change (zlen (@nil Z)) with 0; lia|].
  match goal with |- _ <= 1 + zlen ?l => pose proof (zlen_nonneg l) end. lia.
Qed.
Lemma overshoot v : valid v -> max_size v <= zlen (wire v) + 9.
Proof.
  intros Hv. destruct v; cbn [max_size wire] in *; unfold be8, be4; rewrite ?zlen_cons, ?zlen_app, ?zlen_cons, ?zlen_nil;
    repeat match goal with |- context [zlen (varint ?n)] => pose proof (varint_1 n); generalize dependent (zlen (varint n)); intros end;
    try lia.
Qed.
Lemma peak_writes ops : forall l, ok2_all l ops -> Forall writes ops ->
  zlen l <= zlen (fold_left log2 ops l) /\ peak l ops <= zlen (fold_left log2 ops l) + 9.
Proof.
  induction ops as [|o ops IH]; intros l Ho Hf; cbn [fold_left peak].
  - pose proof (zlen_nonneg l). lia.
  - cbn [ok2_all] in Ho. destruct Ho as [Ho Hos]. inversion Hf as [|? ? H1 H2]; subst.
    destruct (IH _ Hos H2) as [A B]. destruct o as [v|p| |n|k]; cbn [writes] in H1; try tauto;
      cbn [request log2 ok2] in *; rewrite zlen_app in A.
    + destruct Ho as [Hv _]. pose proof (overshoot v Hv). pose proof (zlen_nonneg (wire v)). lia.
    + pose proof (zlen_nonneg p). lia.
Qed.

Lemma cost_api g ops b l : wf b -> Bytes b = Ok l -> ok2_all l ops -> exists b' dropped,
  run g b ops = Ok b' /\ Bytes b' = Ok (fold_left log2 ops l) /\ old b' = old b ++ dropped /\
  2 ^ Z.of_nat (length dropped) * Cap b <= Cap b' /\
  (dropped <> [] -> 2 ^ (Z.of_nat (length dropped) - 1) <= Cap b') /\
  block_bytes dropped + Cap b <= Cap b'.
Proof.
  intros Hw HB Ho. rewrite <- (content_Bytes _ _ HB) in *.
  destruct (cost_all g 0 0 ops ltac:(lia) ltac:(lia) b Hw Ho) as (b' & d & R & W & C & O & P1 & P2 & P3 & _).
  exists b', d. split; [exact R|]. split; [rewrite <- C; apply Bytes_content; apply W|]. tauto.
Qed.
Lemma capacity_api g w s ops b l b' : 0 <= w -> 0 <= s -> spare_at_most w s g ->
  wf b -> Bytes b = Ok l -> ok2_all l ops -> run g b ops = Ok b' ->
  Cap b' <= Z.max (Cap b) (2 * (1 + w) * peak l ops + s).
Proof.
  intros A B G Hw HB Ho R. rewrite <- (content_Bytes _ _ HB) in *.
  destruct (cost_all g w s ops A B b Hw Ho) as (b'' & d & R' & W & C & O & P1 & P2 & P3 & P4 & _).
  rewrite R in R'. injection R' as <-. apply P4, G.
Qed.
Lemma linear_api g w s ops b l b' : 0 <= w -> 0 <= s -> spare_at_most w s g ->
  wf b -> Bytes b = Ok l -> ok2_all l ops -> Forall writes ops -> run g b ops = Ok b' ->
  exists dropped, old b' = old b ++ dropped /\
  Cap b' <= Z.max (Cap b) (2 * (1 + w) * (Len b' + 9) + s) /\
  Cap b' + block_bytes dropped <= 2 * Z.max (Cap b) (2 * (1 + w) * (Len b' + 9) + s).
Proof.
  intros A B G Hw HB Ho Hf R. rewrite <- (content_Bytes _ _ HB) in *.
  destruct (cost_all g w s ops A B b Hw Ho) as (b'' & d & R' & W & C & O & P1 & P2 & P3 & P4 & _).
  rewrite R in R'. injection R' as <-. exists d. split; [exact O|]. specialize (P4 G).
  destruct (peak_writes ops _ Ho Hf) as [_ K]. rewrite <- C, content_len in K by exact W.
  unfold Len. assert (0 <= Cap b) by apply zlen_nonneg.
  assert (2 * (1 + w) * peak (content b) ops + s <= 2 * (1 + w) * (off b' + 9) + s) by nia. lia.
Qed.
Lemma no_alloc_api g ops b l b' : wf b -> Bytes b = Ok l -> ok2_all l ops -> run g b ops = Ok b' ->
  (old b' = old b <-> peak l ops <= Cap b) /\ (old b' = old b -> Cap b' = Cap b) /\ peak l ops <= Cap b'.
Proof.
  intros Hw HB Ho R. rewrite <- (content_Bytes _ _ HB) in *.
  destruct (cost_all g 0 0 ops ltac:(lia) ltac:(lia) b Hw Ho) as (b'' & d & R' & W & C & O & P1 & P2 & P3 & P4 & P5 & P6 & P7).
  rewrite R in R'. injection R' as <-.
  assert (old b' = old b <-> d = []) as K.
  { rewrite O. split; [|intros ->; apply app_nil_r].
    intros E. rewrite <- (app_nil_r (old b)) in E at 2. apply app_inv_head in E. exact E. }
  split; [rewrite K; exact P5|]. split; [rewrite K; exact P6|exact P7].
Qed.
Lemma reuse_api g g' ops b b1 : wf b -> Bytes b = Ok [] -> ok2_all [] ops -> run g b ops = Ok b1 ->
  exists b2, run g' (Reset b1) ops = Ok b2 /\ Bytes b2 = Bytes b1 /\ old b2 = old b1 /\ Cap b2 = Cap b1.
Proof.
  intros Hw HB Ho R. destruct (no_alloc_api g ops b [] b1 Hw HB Ho R) as (_ & _ & P).
  destruct (cost_api g ops b [] Hw HB Ho) as (b1' & d & R1 & B1 & _). rewrite R in R1. injection R1 as <-.
  assert (wf b1) as W1.
  { pose proof (content_Bytes _ _ HB) as E. rewrite <- E in Ho.
    destruct (run2_ok g ops b Hw Ho) as (x & Rx & Wx & _). rewrite R in Rx. injection Rx as <-. exact Wx. }
  assert (wf (Reset b1)) as WR by (destruct W1; unfold wf, Reset, set_off; cbn [blen arr off]; lia).
  assert (Bytes (Reset b1) = Ok []) as BR.
  { rewrite Bytes_content by apply WR. reflexivity. }
  destruct (cost_api g' ops (Reset b1) [] WR BR Ho) as (b2 & d2 & R2 & B2 & _).
  destruct (no_alloc_api g' ops (Reset b1) [] b2 WR BR Ho R2) as (Q1 & Q2 & _).
  exists b2. split; [exact R2|]. split; [congruence|].
  assert (old b2 = old (Reset b1)) as Q by (apply Q1; exact P). split; [exact Q|apply Q2, Q].
Qed.
