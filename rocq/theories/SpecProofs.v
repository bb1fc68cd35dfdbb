(** Facts about the wire format, and the computable varint scanner used in the proofs. *)
From Verif Require Import Base Spec.

(** ** varints *)
Lemma leb_nonempty k n : leb k n <> [].
Proof. destruct k; cbn [leb]; [discriminate|]. destruct (n <? 128); discriminate. Qed.

Lemma leb_leb128 k : forall n, 0 <= n < 128 ^ (Z.of_nat k + 1) -> leb128 n (leb k n).
Proof.
  induction k as [|k IH]; intros n Hn; cbn [leb].
  - apply leb_last. change (128 ^ (Z.of_nat 0 + 1)) with 128 in Hn. lia.
  - destruct (Z.ltb_spec n 128); [apply leb_last; lia|].
    apply leb_more; [lia|]. apply IH.
    replace (Z.of_nat (S k) + 1) with (Z.succ (Z.of_nat k + 1)) in Hn by lia.
    rewrite Z.pow_succ_r in Hn by lia. split; [lia|].
    apply Z.div_lt_upper_bound; lia.
Qed.
Lemma leb128_fun n ds : leb128 n ds -> forall ds', leb128 n ds' -> ds = ds'.
Proof.
  induction 1 as [n Hn|n ds Hn H IH]; intros ds' H'; inversion H'; subst; try lia; try reflexivity.
  f_equal. apply IH; assumption.
Qed.
Lemma varint_is_leb128 n ds : 0 <= n < 2 ^ 70 -> (leb128 n ds <-> ds = varint n).
Proof.
  intros Hn. assert (leb128 n (varint n)) as H by (apply leb_leb128; exact Hn).
  split; [intros H'; eapply leb128_fun; eassumption|intros ->; exact H].
Qed.

Lemma leb_bytes_ok k : forall n, 0 <= n < 128 ^ (Z.of_nat k + 1) -> bytes_ok (leb k n).
Proof.
  intros n Hn. apply leb_leb128 in Hn.
  induction Hn as [n Hn|n ds Hn H IH]; apply bytes_ok_cons; unfold isbyte.
  - split; [lia|apply bytes_ok_nil].
  - split; [lia|exact IH].
Qed.

(** the scanner: at most [k] digits *)
Inductive scanres := SDone (ds r : bytes) | SLong | STrunc.
Fixpoint scan (k : nat) (b : bytes) : scanres :=
  match k with
  | O => SLong
  | S k =>
      match b with
      | [] => STrunc
      | c :: b => if c <? 128 then SDone [c] b
                  else match scan k b with SDone ds r => SDone (c :: ds) r | x => x end
      end
  end.

Lemma scan_done k : forall b ds r, scan k b = SDone ds r <-> vsplit (Z.of_nat k) b ds r.
Proof.
  induction k as [|k IH]; intros b ds r; cbn [scan].
  - split; [discriminate|]. intros (_ & Hl & cs & l & -> & _).
    rewrite zlen_app, zlen_cons, zlen_nil in Hl. pose proof (zlen_nonneg cs). lia.
  - destruct b as [|c b].
    + split; [discriminate|]. intros (He & _ & cs & l & -> & _). destruct cs; discriminate He.
    + destruct (Z.ltb_spec c 128) as [Hc|Hc].
      * split.
        -- intros H; injection H as <- <-. repeat split.
           ++ rewrite zlen_cons, zlen_nil. lia.
           ++ exists [], c. repeat split; [constructor|lia].
        -- intros (He & Hl & cs & l & -> & Hcs & Hl2). destruct cs as [|c' cs].
           ++ injection He as <- ->. reflexivity.
           ++ injection He as <- _. inversion Hcs; lia.
      * split.
        -- intros H. destruct (scan k b) as [ds' r'| |] eqn:E; try discriminate.
           injection H as <- <-. apply IH in E. destruct E as (-> & Hl & cs & l & -> & Hcs & Hl2).
           repeat split; [rewrite zlen_cons; lia|].
           exists (c :: cs), l. repeat split; [constructor; [lia|exact Hcs]|exact Hl2].
        -- intros (He & Hl & cs & l & -> & Hcs & Hl2). destruct cs as [|c' cs].
           ++ injection He as <- _. lia.
           ++ injection He as <- He. inversion Hcs; subst.
              assert (scan k ((cs ++ [l]) ++ r) = SDone (cs ++ [l]) r) as ->; [|reflexivity].
              apply IH. cbn [app] in Hl. rewrite zlen_cons in Hl.
              repeat split; [lia|]. exists cs, l. auto.
Qed.

Lemma scan_trunc k : forall b,
  scan k b = STrunc <-> (Forall (fun c => 128 <= c) b /\ zlen b < Z.of_nat k).
Proof.
  induction k as [|k IH]; intros b; cbn [scan].
  - split; [discriminate|]. intros [_ H]. pose proof (zlen_nonneg b). lia.
  - destruct b as [|c b].
    + split; [intros _; split; [constructor|rewrite zlen_nil; lia]|reflexivity].
    + destruct (Z.ltb_spec c 128) as [Hc|Hc].
      * split; [discriminate|]. intros [H _]. inversion H; lia.
      * rewrite zlen_cons. split.
        -- intros H. destruct (scan k b) eqn:E; try discriminate. apply IH in E.
           split; [constructor; [lia|tauto]|lia].
        -- intros [H Hl]. inversion H; subst.
           assert (scan k b = STrunc) as -> by (apply IH; split; [assumption|lia]). reflexivity.
Qed.

Lemma scan_long k : forall b,
  scan k b = SLong <->
  (exists cs r, b = cs ++ r /\ zlen cs = Z.of_nat k /\ Forall (fun c => 128 <= c) cs).
Proof.
  induction k as [|k IH]; intros b; cbn [scan].
  - split; [intros _; exists [], b; repeat split; constructor|reflexivity].
  - destruct b as [|c b].
    + split; [discriminate|]. intros (cs & r & He & Hl & _). destruct cs; [|discriminate He].
      rewrite zlen_nil in Hl; lia.
    + destruct (Z.ltb_spec c 128) as [Hc|Hc].
      * split; [discriminate|]. intros (cs & r & He & Hl & Hcs). destruct cs as [|c' cs].
        -- rewrite zlen_nil in Hl; lia.
        -- injection He as <- _. inversion Hcs; lia.
      * split.
        -- intros H. destruct (scan k b) eqn:E; try discriminate. apply IH in E.
           destruct E as (cs & r & -> & Hl & Hcs). exists (c :: cs), r.
           repeat split; [rewrite zlen_cons; lia|constructor; [lia|exact Hcs]].
        -- intros (cs & r & He & Hl & Hcs). destruct cs as [|c' cs]; [rewrite zlen_nil in Hl; lia|].
           injection He as <- ->. rewrite zlen_cons in Hl. inversion Hcs; subst.
           assert (scan k (cs ++ r) = SLong) as ->
             by (apply IH; exists cs, r; repeat split; [lia|assumption]). reflexivity.
Qed.

Lemma scan_more k : forall k' b ds r, (k <= k')%nat -> scan k b = SDone ds r -> scan k' b = SDone ds r.
Proof.
  intros k' b ds r Hk H. apply scan_done in H. apply scan_done.
  destruct H as (-> & Hl & H). repeat split; [lia|exact H].
Qed.
Lemma scan_app k b ds r x : scan k b = SDone ds r -> scan k (b ++ x) = SDone ds (r ++ x).
Proof.
  intros H. apply scan_done in H. apply scan_done. destruct H as (-> & Hl & H).
  split; [rewrite <- app_assoc; reflexivity|]. split; assumption.
Qed.
Lemma scan_shape k b ds r : scan k b = SDone ds r -> b = ds ++ r.
Proof. intros H. apply scan_done in H. destruct H as [H _]; exact H. Qed.
Lemma scan_nonempty k b ds r : scan k b = SDone ds r -> ds <> [].
Proof.
  intros H. apply scan_done in H. destruct H as (_ & _ & cs & l & -> & _). destruct cs; discriminate.
Qed.

Lemma scan_leb k : forall n r k', 0 <= n < 128 ^ (Z.of_nat k + 1) ->
  zlen (leb k n) <= Z.of_nat k' -> scan k' (leb k n ++ r) = SDone (leb k n) r.
Proof.
  induction k as [|k IH]; intros n r k' Hn Hl; destruct k' as [|k']; cbn [leb] in *.
  - rewrite zlen_cons, zlen_nil in Hl; lia.
  - cbn [app scan]. change (128 ^ (Z.of_nat 0 + 1)) with 128 in Hn.
    destruct (Z.ltb_spec n 128); [reflexivity|lia].
  - pose proof (zlen_nonneg (if n <? 128 then [n] else 128 + n mod 128 :: leb k (n / 128))) as Hp.
    destruct (n <? 128); rewrite zlen_cons in Hl, Hp; [rewrite zlen_nil in Hl|
      pose proof (zlen_nonneg (leb k (n / 128)))]; lia.
  - destruct (Z.ltb_spec n 128) as [Hc|Hc].
    + cbn [app scan]. destruct (Z.ltb_spec n 128); [reflexivity|lia].
    + cbn [app scan]. destruct (Z.ltb_spec (128 + n mod 128) 128); [lia|].
      rewrite zlen_cons in Hl.
      replace (Z.of_nat (S k) + 1) with (Z.succ (Z.of_nat k + 1)) in Hn by lia.
      rewrite Z.pow_succ_r in Hn by lia.
      rewrite IH; [reflexivity| |lia].
      split; [lia|]. apply Z.div_lt_upper_bound; lia.
Qed.

Lemma dval_nonneg ds : 0 <= dval ds.
Proof. induction ds as [|d ds IH]; cbn [dval]; lia. Qed.
Lemma dval_bound ds : dval ds < 128 ^ zlen ds.
Proof.
  induction ds as [|d ds IH]; [reflexivity|].
  rewrite zlen_cons, Z.pow_add_r by (try apply zlen_nonneg; lia). cbn [dval]. lia.
Qed.
Lemma dval_leb k : forall n, 0 <= n < 128 ^ (Z.of_nat k + 1) -> dval (leb k n) = n.
Proof.
  intros n Hn. apply leb_leb128 in Hn.
  induction Hn as [n Hn|n ds Hn H IH]; cbn [dval].
  - rewrite Z.mod_small by lia. lia.
  - rewrite IH. lia.
Qed.

(** length of a minimal varint *)
Lemma leb_len k : forall n m, 0 <= n < 128 ^ (Z.of_nat k + 1) -> 0 < m -> n < 128 ^ m ->
  zlen (leb k n) <= m.
Proof.
  induction k as [|k IH]; intros n m Hn Hm Hb; cbn [leb].
  - rewrite zlen_cons, zlen_nil; lia.
  - destruct (Z.ltb_spec n 128); [rewrite zlen_cons, zlen_nil; lia|].
    rewrite zlen_cons.
    replace (Z.of_nat (S k) + 1) with (Z.succ (Z.of_nat k + 1)) in Hn by lia.
    rewrite Z.pow_succ_r in Hn by lia.
    destruct (Z.eq_dec m 1) as [->|Hm1]; [change (128 ^ 1) with 128 in Hb; lia|].
    replace m with (Z.succ (m - 1)) in Hb by lia. rewrite Z.pow_succ_r in Hb by lia.
    assert (zlen (leb k (n / 128)) <= m - 1); [|lia].
    apply IH; [split; [lia|apply Z.div_lt_upper_bound; lia]|lia|apply Z.div_lt_upper_bound; lia].
Qed.
Lemma varint_scan n r k : 0 <= n < 128 ^ Z.of_nat k -> (0 < k <= 10)%nat ->
  scan k (varint n ++ r) = SDone (varint n) r.
Proof.
  intros Hn Hk. assert (0 <= n < 128 ^ (Z.of_nat 9 + 1)).
  { split; [lia|]. eapply Z.lt_le_trans; [apply Hn|]. apply Z.pow_le_mono_r; lia. }
  apply scan_leb; [assumption|]. apply leb_len; lia.
Qed.
Lemma varint_dval n : 0 <= n < 2 ^ 64 -> dval (varint n) = n.
Proof.
  intros Hn. apply dval_leb. split; [lia|]. eapply Z.lt_le_trans; [apply Hn|].
  vm_compute; discriminate.
Qed.
Lemma varint_ok n : 0 <= n < 2 ^ 64 -> bytes_ok (varint n).
Proof.
  intros Hn. apply leb_bytes_ok. split; [lia|]. eapply Z.lt_le_trans; [apply Hn|].
  vm_compute; discriminate.
Qed.

(** ** zig-zag *)
Lemma zigzag_unzigzag n : unzigzag (zigzag n) = n.
Proof.
  unfold zigzag, unzigzag. destruct (Z.ltb_spec n 0).
  - destruct (Z.eqb_spec ((-2 * n - 1) mod 2) 0); lia.
  - destruct (Z.eqb_spec ((2 * n) mod 2) 0); lia.
Qed.
Lemma unzigzag_zigzag u : 0 <= u -> zigzag (unzigzag u) = u.
Proof.
  intros Hu. unfold zigzag, unzigzag. destruct (Z.eqb_spec (u mod 2) 0).
  - destruct (Z.ltb_spec (u / 2) 0); lia.
  - destruct (Z.ltb_spec (- (u / 2) - 1) 0); lia.
Qed.
Lemma zigzag_range w n : 0 < w -> - 2 ^ (w - 1) <= n < 2 ^ (w - 1) -> 0 <= zigzag n < 2 ^ w.
Proof.
  intros Hw Hn. assert (2 ^ w = 2 * 2 ^ (w - 1)) as E
    by (rewrite <- Z.pow_succ_r by lia; f_equal; lia).
  unfold zigzag. destruct (Z.ltb_spec n 0); lia.
Qed.
Lemma unzigzag_range w u : 0 < w -> 0 <= u < 2 ^ w -> - 2 ^ (w - 1) <= unzigzag u < 2 ^ (w - 1).
Proof.
  intros Hw Hu. assert (2 ^ w = 2 * 2 ^ (w - 1)) as E
    by (rewrite <- Z.pow_succ_r by lia; f_equal; lia).
  assert (0 < 2 ^ (w - 1)) by (apply Z.pow_pos_nonneg; lia).
  unfold unzigzag. destruct (Z.eqb_spec (u mod 2) 0); lia.
Qed.
Lemma zigzag32 n : - 2 ^ 31 <= n < 2 ^ 31 -> 0 <= zigzag n < 2 ^ 32.
Proof. apply (zigzag_range 32); lia. Qed.
Lemma zigzag64 n : - 2 ^ 63 <= n < 2 ^ 63 -> 0 <= zigzag n < 2 ^ 64.
Proof. apply (zigzag_range 64); lia. Qed.

(** ** validity of encodings *)
Lemma be4_ok n : bytes_ok (be4 n).
Proof. unfold be4. repeat (apply bytes_ok_cons; split; [unfold isbyte; lia|]). apply bytes_ok_nil. Qed.
Lemma be8_ok n : bytes_ok (be8 n).
Proof.
  unfold be8. apply bytes_ok_app; split; [|apply be4_ok].
  repeat (apply bytes_ok_cons; split; [unfold isbyte; lia|]). apply bytes_ok_nil.
Qed.
Lemma payload_len p : payload_ok p -> 0 <= zlen p < 2 ^ 32.
Proof. intros [_ H]. split; [apply zlen_nonneg|exact H]. Qed.

Lemma lt32_64 n : 0 <= n < 2 ^ 32 -> 0 <= n < 2 ^ 64. Proof. lia. Qed.
Lemma lt16_64 n : 0 <= n < 2 ^ 16 -> 0 <= n < 2 ^ 64. Proof. lia. Qed.

Lemma wire_ok v : valid v -> bytes_ok (wire v).
Proof.
  intros Hv.
  destruct v; cbn [wire valid] in *;
    repeat (apply bytes_ok_cons; split; [unfold isbyte in *; try lia; try (destruct b; lia)|]);
    try apply bytes_ok_nil; try apply be4_ok; try apply be8_ok; try (apply varint_ok);
    try (apply bytes_ok_app; split; [apply varint_ok; apply payload_len in Hv; lia|apply Hv]);
    try (apply zigzag32 in Hv; lia); try (apply zigzag64 in Hv; lia);
    try (destruct Hv as [Hv _]; lia); lia.
Qed.
Lemma wires_ok vs : Forall valid vs -> bytes_ok (wires vs).
Proof.
  induction 1 as [|v vs Hv Hvs IH]; [apply bytes_ok_nil|].
  unfold wires; cbn [map concat]. apply bytes_ok_app; split; [apply wire_ok; exact Hv|exact IH].
Qed.
Lemma wires_cons v vs : wires (v :: vs) = wire v ++ wires vs.
Proof. reflexivity. Qed.
Lemma wires_app a b : wires (a ++ b) = wires a ++ wires b.
Proof. unfold wires. rewrite map_app, concat_app. reflexivity. Qed.
Lemma wire_nonempty v : wire v <> [].
Proof. destruct v; discriminate. Qed.
Lemma wire_header v : exists t, wire v = header (want v) ++ t.
Proof. destruct v; cbn [wire want header]; eexists; reflexivity. Qed.
