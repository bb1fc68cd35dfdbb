(** Buffer histories. *)
From Verif Require Import Base Spec SpecProofs BufSpec.
From Verif Require V1Model V2Model V1Enc V2Enc.

Lemma nth_mid {A} (l : list A) a r d : nth (length l) (l ++ a :: r) d = a.
Proof. rewrite app_nth2, Nat.sub_diag by lia. reflexivity. Qed.

(** ** v1 *)
Section V1.
Import V1Model V1Enc.
Lemma apply1_ok g b o : wf b -> ok1 o -> exists b', apply g b o = Ok b' /\ wf b' /\
  Bytes b' = log1 (Bytes b) o /\ (appends1 o -> len b <= len b' /\ stable b b').
Proof.
  intros Hw Ho. destruct o as [v|p|]; cbn [apply log1 ok1 appends1] in *.
  - destruct (encode_ok g b v Hw Ho) as (b' & E & A). exists b'. split; [exact E|].
    destruct A as (W & B & S). split; [exact W|]. split; [exact B|]. intros _.
    split; [|exact S]. pose proof (zlen_nonneg (wire v)). apply (f_equal zlen) in B.
    rewrite zlen_app, !Bytes_len in B by assumption. lia.
  - exists (Write g b p). split; [reflexivity|]. destruct (Write_ok g b p Hw) as (W & B & S).
    split; [exact W|]. split; [exact B|]. intros _. split; [|exact S].
    pose proof (zlen_nonneg p). apply (f_equal zlen) in B.
    rewrite zlen_app, !Bytes_len in B by assumption. lia.
  - exists (Reset b). split; [reflexivity|]. split; [|split; [reflexivity|tauto]].
    unfold wf, Reset in *; cbn [len arr]. lia.
Qed.
Lemma run1_ok g ops : forall b, wf b -> Forall ok1 ops -> exists b', run g b ops = Ok b' /\ wf b' /\
  Bytes b' = fold_left log1 ops (Bytes b) /\
  (Forall appends1 ops -> len b <= len b' /\ stable b b').
Proof.
  induction ops as [|o ops IH]; intros b Hw Ho.
  - exists b. repeat split; try apply Hw; try reflexivity. apply stable_refl.
  - inversion Ho; subst. destruct (apply1_ok g b o) as (b1 & E1 & W1 & B1 & S1); try assumption.
    destruct (IH b1) as (b2 & E2 & W2 & B2 & S2); try assumption.
    exists b2. cbn [run]. rewrite E1. cbn [bind]. split; [exact E2|]. split; [exact W2|].
    split; [rewrite B2, B1; reflexivity|]. intros HA. inversion HA; subst.
    destruct S1 as [L1 S1]; [assumption|]. destruct S2 as [L2 S2]; [assumption|].
    split; [lia|]. eapply stable_trans; [|eassumption|eassumption]. unfold wf in Hw. lia.
Qed.
Lemma view1_stable b b' : stable b b' -> read_view b' (view b) = Bytes b.
Proof.
  intros (a & rest & E & T). unfold read_view, view; cbn [fst snd].
  unfold arrays in E. rewrite E, nth_mid. exact T.
Qed.
(** after a Reset, the first write that fits overwrites the old view in place *)
Lemma view1_reset g b p : wf b -> zlen p <= zlen (arr b) -> len b <= zlen p ->
  read_view (Write g (Reset b) p) (view b) = ztake (len b) p.
Proof.
  intros Hw Hp Hl. unfold Write, Reset; cbn [arr len old].
  destruct (Z.ltb_spec (zlen (arr b) - 0) (zlen p)); [lia|].
  unfold read_view, view; cbn [fst snd arr len old]. rewrite nth_mid.
  rewrite Z.min_r by lia. rewrite (ztake_all (zlen p) p) by lia.
  unfold splice. rewrite ztake_0. cbn [app].
  apply ztake_app1. exact Hl.
Qed.
End V1.

(** ** v2 *)
Section V2.
Import V2Model V2Enc.
Lemma Write_ok g b p : wf b -> exists b', Write g b p = Ok b' /\ appended b b' p.
Proof.
  intros Hw. pose proof (zlen_nonneg p). unfold Write.
  destruct (Grow_ok g b (zlen p) Hw ltac:(lia)) as (b1 & -> & A & L & _). cbn [bind].
  pose proof A as (I1 & O1 & _). rewrite zlen_nil in O1. destruct I1 as [I1 I2]. unfold Cap.
  destruct (Z.ltb_spec (off b1) 0); [lia|]. destruct (Z.ltb_spec (zlen (arr b1)) (off b1)); [lia|].
  cbn [orb]. rewrite Z.min_r by lia. rewrite (ztake_all (zlen p) p) by lia.
  eexists; split; [reflexivity|]. apply (st_appended b b1 p); [exact Hw|exact A|lia].
Qed.
Lemma content_len b : wf b -> zlen (content b) = off b.
Proof. intros [_ H]. apply zlen_ztake. exact H. Qed.

Lemma apply2_ok g b o : wf b -> ok2 (content b) o -> exists b', apply g b o = Ok b' /\ wf b' /\
  content b' = log2 (content b) o /\ zlen (arr b) <= zlen (arr b') /\
  (appends2 o -> off b <= off b' /\ stable b b').
Proof.
  intros Hw Ho. destruct o as [v|p| |n|k]; cbn [apply log2 ok2 appends2] in *.
  - destruct Ho as [Hv Hf]. assert (fits2 v) as Hf2.
    { destruct v; cbn [fits2]; auto. }
    destruct (encode_ok g b v Hw Hv Hf2) as (b' & E & W & O & C & S & A).
    exists b'. split; [exact E|]. split; [exact W|]. split; [exact C|]. split; [exact A|].
    intros _. split; [|exact S]. pose proof (zlen_nonneg (wire v)). lia.
  - destruct (Write_ok g b p Hw) as (b' & E & W & O & C & S & A).
    exists b'. split; [exact E|]. split; [exact W|]. split; [exact C|]. split; [exact A|].
    intros _. split; [|exact S]. pose proof (zlen_nonneg p). lia.
  - exists (Reset b). split; [reflexivity|]. destruct Hw as [W1 W2].
    split; [unfold wf, Reset, set_off; cbn [blen arr off]; lia|].
    split; [reflexivity|]. split; [reflexivity|tauto].
  - destruct (Grow_ok g b n Hw Ho) as (b' & E & (W & O & C & S & A) & _).
    rewrite app_nil_r in C. rewrite zlen_nil in O.
    exists b'. split; [exact E|]. split; [exact W|]. split; [exact C|]. split; [exact A|].
    intros _. split; [lia|exact S].
  - exists (MoveOffset b k). split; [reflexivity|]. rewrite content_len in * by exact Hw.
    destruct Hw as [W1 W2].
    split; [unfold wf, MoveOffset, set_off; cbn [blen arr off]; lia|].
    split; [|split; [reflexivity|tauto]].
    unfold content, MoveOffset, set_off; cbn [arr off]. symmetry. apply ztake_ztake. lia.
Qed.
Lemma run2_ok g ops : forall b, wf b -> ok2_all (content b) ops -> exists b', run g b ops = Ok b' /\ wf b' /\
  content b' = fold_left log2 ops (content b) /\ zlen (arr b) <= zlen (arr b') /\
  (Forall appends2 ops -> off b <= off b' /\ stable b b').
Proof.
  induction ops as [|o ops IH]; intros b Hw Ho.
  - exists b. split; [reflexivity|]. split; [exact Hw|]. split; [reflexivity|]. split; [lia|].
    intros _. split; [lia|apply stable_refl].
  - cbn [ok2_all] in Ho. destruct Ho as [Ho Hos].
    destruct (apply2_ok g b o) as (b1 & E1 & W1 & B1 & C1 & S1); try assumption.
    destruct (IH b1) as (b2 & E2 & W2 & B2 & C2 & S2); [assumption|rewrite B1; exact Hos|].
    exists b2. cbn [run]. rewrite E1. cbn [bind]. split; [exact E2|]. split; [exact W2|].
    split; [rewrite B2, B1; reflexivity|]. split; [lia|]. intros HA. inversion HA; subst.
    destruct S1 as [L1 S1]; [assumption|]. destruct S2 as [L2 S2]; [assumption|].
    split; [lia|]. eapply stable_trans; [|eassumption|eassumption]. destruct Hw. lia.
Qed.
Lemma view2_stable b b' : stable b b' -> read_view b' (view b) = content b.
Proof.
  intros (a & rest & E & T). unfold read_view, view; cbn [fst snd].
  unfold arrays in E. rewrite E, nth_mid. exact T.
Qed.

(** fresh buffers *)
Lemma NewBufferSize_wf n : 0 <= n -> wf (NewBufferSize n) /\ content (NewBufferSize n) = [].
Proof.
  intros Hn. split; [|reflexivity]. unfold wf, NewBufferSize; cbn [blen arr off].
  rewrite zlen_repeat. lia.
Qed.
Lemma NewBufferFromBytes_wf p : wf (NewBufferFromBytes p []) /\ content (NewBufferFromBytes p []) = [].
Proof.
  split; [|reflexivity]. unfold wf, NewBufferFromBytes; cbn [blen arr off]. rewrite app_nil_r.
  pose proof (zlen_nonneg p). lia.
Qed.
End V2.
