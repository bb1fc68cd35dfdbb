(** 32-bit int against 64-bit int. *)
From Verif Require Import Base Spec SpecProofs GoLoop GoIdeal GoSpec GoProps GoProps2.
From Verif Require V1Dec.

Lemma payload_W W r n : int_ok W r -> 0 <= n < 2 ^ 32 ->
  (payload W r n = payload 64 r n /\ (W = 64 \/ n <= zlen r \/ n <= 2 ^ 31)) \/
  (W = 32 /\ payload W r n = Pcrash /\ payload 64 r n = Pfail r /\ 2 ^ 31 < n).
Proof.
  intros [[-> | ->] Hl] Hn; [left; auto|]. change (2 ^ (32 - 1)) with (2 ^ 31) in Hl.
  rewrite payload_64 by exact Hn. unfold payload.
  destruct (Z.leb_spec n (2 ^ 31)) as [Hs|Hs].
  - left. split; [|auto]. destruct (Z.eq_dec n (2 ^ 31)) as [->|Hne].
    + change (sw 32 (sw 32 (2 ^ 31) - 1)) with (2 ^ 31 - 1).
      destruct (Z.gtb_spec (zlen r) (2 ^ 31 - 1)), (Z.leb_spec (2 ^ 31) (zlen r)); try lia; reflexivity.
    + rewrite (sw_small 32 n) by (change (2 ^ (32 - 1)) with (2 ^ 31); lia).
      rewrite (sw_small 32 (n - 1)) by (change (2 ^ (32 - 1)) with (2 ^ 31); lia).
      destruct (Z.gtb_spec (zlen r) (n - 1)), (Z.leb_spec n (zlen r)); try lia; reflexivity.
  - right. split; [reflexivity|].
    assert (E : sw 32 n = n - 2 ^ 32).
    { unfold sw. rewrite Z.mod_small by lia. change (2 ^ (32 - 1)) with (2 ^ 31).
      destruct (Z.ltb_spec n (2 ^ 31)); lia. }
    rewrite E. rewrite (sw_small 32) by (change (2 ^ (32 - 1)) with (2 ^ 31); lia).
    pose proof (zlen_nonneg r).
    destruct (Z.gtb_spec (zlen r) (n - 2 ^ 32 - 1)); [|lia].
    destruct (Z.leb_spec n (zlen r)); [lia|]. auto.
Qed.
Lemma payload_huge r n : int_ok 32 r -> 2 ^ 31 < n < 2 ^ 32 -> payload 32 r n = Pcrash.
Proof.
  intros Hi Hn. destruct (payload_W 32 r n Hi ltac:(lia)) as [[_ [H|[H|H]]]|(_ & H & _)];
    [discriminate| |lia|exact H]. destruct Hi as [_ Hi]. change (2 ^ (32 - 1)) with (2 ^ 31) in Hi. lia.
Qed.
Lemma length_at_split q t ds r : lead q = header q ++ [10] -> length_at t ds r ->
  vsplit 5 (ds ++ r) ds r /\ header q ++ t = lead q ++ ds ++ r.
Proof.
  intros Hl (u & -> & H). pose proof H as (-> & _). split; [exact H|].
  rewrite Hl, <- app_assoc. reflexivity.
Qed.

Lemma int_ok_shorter W b r : int_ok W b -> zlen r <= zlen b -> int_ok W r.
Proof. intros [H1 H2] H. split; [exact H1|lia]. Qed.

Lemma stringy_W W t : int_ok W (5 :: t) ->
  stringy W (5 :: t) = stringy 64 (5 :: t) \/
  (W = 32 /\ stringy W (5 :: t) = Pcrash /\ (exists r, stringy 64 (5 :: t) = Pfail r) /\
   exists ds r, length_at t ds r /\ 2 ^ 31 < dval ds mod 2 ^ 32).
Proof.
  intros Hi. cbn [stringy]. rewrite Z.eqb_refl.
  destruct (sub32_view t) as [(ds & r & E & H)|[(E & H)|(E & H)]]; rewrite !E; [|left; reflexivity..].
  destruct (payload_W W r (dval ds mod 2 ^ 32)) as [[Hp _]|(-> & Hp & Hf & Hn)].
  - apply (int_ok_shorter _ _ _ Hi). apply length_at_len in H. rewrite zlen_cons. lia.
  - apply dlen_range.
  - left. exact Hp.
  - right. rewrite Hp, Hf. split; [reflexivity|]. split; [reflexivity|]. split; [eauto|].
    exists ds, r. auto.
Qed.

Lemma ideal1_W W dst q b : int_ok W b ->
  ideal1 W dst q b = ideal1 64 dst q b \/
  (W = 32 /\ ideal1 W dst q b = Crash /\ (exists r, ideal1 64 dst q b = Fail r (error_of q)) /\
   huge_length q b).
Proof.
  intros Hi. destruct (header_dec q b) as [[t ->]|Hn].
  2:{ left. rewrite !ideal1_kind by exact Hn. reflexivity. }
  destruct q; try (left; reflexivity).
  - cbn [header app ideal1]. rewrite Z.eqb_refl.
    destruct (sub32_view t) as [(ds & r & E & H)|[(E & H)|(E & H)]]; rewrite !E; [|left; reflexivity..].
    destruct (payload_W W r (dval ds mod 2 ^ 32)) as [[Hp _]|(-> & Hp & Hf & Hx)].
    + apply (int_ok_shorter _ _ _ Hi). apply length_at_len in H. cbn [header app]. rewrite zlen_cons. lia.
    + apply dlen_range.
    + left. rewrite Hp. reflexivity.
    + right. rewrite Hp, Hf. split; [reflexivity|]. split; [reflexivity|]. split; [eauto|].
      split; [exact I|]. exists ds, r. destruct (length_at_split RBytes t ds r eq_refl H). auto.
  - cbn [header app ideal1] in *.
    destruct (stringy_W W t Hi) as [->|(-> & -> & [r0 ->] & ds & r & H & Hx)]; [left; reflexivity|].
    right. split; [reflexivity|]. split; [reflexivity|]. split; [eauto|].
    split; [exact I|]. exists ds, r. destruct (length_at_split RString t ds r eq_refl H). auto.
  - cbn [header app ideal1] in *. rewrite Z.eqb_refl.
    destruct (header_dec RString t) as [[u ->]|Hn].
    2:{ left. assert (E : forall W, stringy W t = Pfail t).
        { intros W'. unfold stringy. destruct t as [|c t]; [reflexivity|].
          destruct (Z.eqb_spec c 5) as [->|]; [|reflexivity]. exfalso; eapply Hn; reflexivity. }
        rewrite !E. reflexivity. }
    cbn [header app] in *.
    destruct (stringy_W W u) as [->|(-> & -> & [r0 ->] & ds & r & H & Hx)];
      [|left; reflexivity|].
    + apply (int_ok_shorter _ _ _ Hi). rewrite !zlen_cons. lia.
    + right. split; [reflexivity|]. split; [reflexivity|]. split; [eauto|].
      split; [exact I|]. exists ds, r.
      destruct (length_at_split RString u ds r eq_refl H) as [Hv Hu].
      cbn [lead header app] in *. split; [exact Hv|]. split; [congruence|exact Hx].
Qed.
Lemma ideal2_W W dst q b : int_ok W b ->
  ideal2 W dst q b = ideal2 64 dst q b \/
  (W = 32 /\ ideal2 W dst q b = Crash /\ (exists r, ideal2 64 dst q b = Fail r (error_of q)) /\
   huge_length q b).
Proof.
  intros Hi. destruct (header_dec q b) as [[t ->]|Hn].
  2:{ left. rewrite !ideal2_kind by exact Hn. reflexivity. }
  destruct q; try (left; reflexivity).
  - cbn [header app ideal2] in *. destruct t as [|x [|d t]]; try (left; reflexivity).
    rewrite Z.eqb_refl. destruct (Z.eqb_spec x 10) as [->|]; [|left; reflexivity]. cbn [andb].
    destruct (scan 5 (d :: t)) as [ds r| |] eqn:E; try (left; reflexivity).
    apply (scan_done 5) in E.
    destruct (payload_W W r (dval ds mod 2 ^ 32)) as [[Hp _]|(-> & Hp & Hf & Hx)].
    + apply (int_ok_shorter _ _ _ Hi). destruct E as (E & _). rewrite E, !zlen_cons, zlen_app.
      pose proof (zlen_nonneg ds). lia.
    + apply dlen_range.
    + left. rewrite Hp. reflexivity.
    + right. rewrite Hp, Hf. split; [reflexivity|]. split; [reflexivity|]. split; [eauto|].
      split; [exact I|]. exists ds, r. pose proof E as (E' & _). rewrite <- E'. auto.
  - destruct t as [|x t]; [left; reflexivity|]. apply (ideal1_W W None RString). exact Hi.
  - destruct t as [|x [|y t]]; try (left; reflexivity).
    cbn [header app ideal2] in *. rewrite Z.eqb_refl.
    pose proof (ideal1_W W None RError (6 :: x :: y :: t) Hi) as H.
    cbn [ideal1] in H. rewrite Z.eqb_refl in H. exact H.
Qed.

Lemma huge_crash1 dst q b : int_ok 32 b -> huge_length q b -> ideal1 32 dst q b = Crash.
Proof.
  intros Hi (Hq & ds & r & Hv & -> & Hx).
  assert (HL : length_at (10 :: ds ++ r) ds r) by (exists (ds ++ r); auto).
  pose proof (dlen_range ds).
  assert (HP : payload 32 r (dval ds mod 2 ^ 32) = Pcrash).
  { apply payload_huge; [|lia]. apply (int_ok_shorter _ _ _ Hi). rewrite !zlen_app.
    pose proof (zlen_nonneg (lead q)). pose proof (zlen_nonneg ds). lia. }
  destruct q; try contradiction; cbn [lead header app ideal1 stringy]; rewrite ?Z.eqb_refl;
    rewrite (sub32_ok _ _ _ HL), HP; reflexivity.
Qed.
Lemma huge_crash2 dst q b : int_ok 32 b -> huge_length q b -> ideal2 32 dst q b = Crash.
Proof.
  intros Hi Hh. pose proof (huge_crash1 None q b Hi Hh) as H1.
  destruct Hh as (Hq & ds & r & Hv & -> & Hx). pose proof (dlen_range ds).
  destruct ds as [|d ds]; [exfalso; destruct Hv as (_ & _ & cs & l & E & _); destruct cs; discriminate|].
  destruct q; try contradiction; cbn [lead header app] in *.
  - cbn [ideal2]. rewrite !Z.eqb_refl. cbn [andb].
    apply (scan_done 5) in Hv. cbn [app] in Hv. rewrite Hv.
    rewrite payload_huge; [reflexivity| |lia].
    apply (int_ok_shorter _ _ _ Hi). rewrite !zlen_cons, zlen_app. pose proof (zlen_nonneg ds). lia.
  - exact H1.
  - cbn [ideal2 ideal1] in *. rewrite Z.eqb_refl in *. exact H1.
Qed.

(** successes do not depend on the width *)
Lemma ideal1_W_done W dst q b r v : int_ok W b ->
  ideal1 W dst q b = Done r v <-> ideal1 64 dst q b = Done r v.
Proof.
  intros Hi. destruct (ideal1_W W dst q b Hi) as [->|(_ & -> & [r' ->] & _)]; [tauto|].
  split; discriminate.
Qed.
Lemma ideal2_W_done W dst q b r v : int_ok W b ->
  ideal2 W dst q b = Done r v <-> ideal2 64 dst q b = Done r v.
Proof.
  intros Hi. destruct (ideal2_W W dst q b Hi) as [->|(_ & -> & [r' ->] & _)]; [tauto|].
  split; discriminate.
Qed.
Lemma ideal1_crash_W W q b : bytes_ok b -> int_ok W b ->
  ideal1 W None q b = Crash <-> crashes q b \/ (W = 32 /\ huge_length q b).
Proof.
  intros Hb Hi. split.
  - intros H. destruct (ideal1_W W None q b Hi) as [E|(HW & _ & _ & Hh)]; [|auto].
    left. rewrite H in E. symmetry in E. apply (ideal1_iff q b Crash Hb) in E. exact E.
  - intros [H|[-> H]]; [apply ideal1_crashes; exact H|apply huge_crash1; assumption].
Qed.
Lemma ideal2_crash_W W q b : bytes_ok b -> int_ok W b ->
  ideal2 W None q b = Crash <-> crashes q b \/ (W = 32 /\ huge_length q b).
Proof.
  intros Hb Hi. split.
  - intros H. destruct (ideal2_W W None q b Hi) as [E|(HW & _ & _ & Hh)]; [|auto].
    left. rewrite H in E. symmetry in E. apply (ideal2_iff q b Crash Hb) in E. exact E.
  - intros [H|[-> H]]; [apply ideal2_crashes; exact H|apply huge_crash2; assumption].
Qed.
