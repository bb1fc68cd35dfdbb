(** Exact semantics of the TypeScript decoder. *)
From Verif Require Import Base Spec SpecProofs Utf8 TsModel TsSpec.

Lemma skip_moved n d : skip n d = moved n d. Proof. reflexivity. Qed.
Lemma moved_moved a b d : moved a (moved b d) = moved (b + a) d.
Proof. unfold moved; cbn. f_equal. lia. Qed.
Lemma moved_0 d : moved 0 d = d.
Proof. destruct d; unfold moved; cbn. f_equal. lia. Qed.
Lemma moved_ok n d : dec_ok d -> 0 <= n -> dec_ok (moved n d).
Proof. intros (A & B & C & D & E) Hn. unfold dec_ok, moved; cbn. repeat split; try lia; assumption. Qed.
Lemma behind_moved n d : behind (moved n d) = behind d. Proof. reflexivity. Qed.

Lemma zdrop_ztake {A} n m (l : list A) : 0 <= n -> zdrop n (ztake m l) = ztake (m - n) (zdrop n l).
Proof.
  intros H. unfold zdrop, ztake. rewrite skipn_firstn_comm. f_equal. lia.
Qed.
Lemma ahead_moved n d : dec_ok d -> 0 <= n -> ahead (moved n d) = zdrop n (ahead d).
Proof.
  intros (A & B & C & D & E) Hn. unfold ahead, moved; cbn. rewrite zdrop_ztake by lia.
  rewrite zdrop_zdrop by lia. f_equal; [lia|f_equal; lia].
Qed.
Lemma ahead_load d : dec_ok d -> load d (dpos d) = nth_error (ahead d) 0.
Proof.
  intros (A & B & C & D & E). unfold load, ahead.
  destruct (Z.leb_spec 0 (dpos d)); [|lia]. destruct (Z.ltb_spec (dpos d) (dblen d)); cbn [andb].
  - unfold ztake, zdrop. replace (Z.to_nat (dblen d - dpos d)) with (S (Z.to_nat (dblen d - dpos d - 1))) by lia.
    rewrite <- (firstn_skipn (Z.to_nat (dboff d + dpos d)) (dmem d)) at 1.
    rewrite nth_error_app2; rewrite firstn_length; [|unfold zlen in D; lia].
    replace (Z.to_nat (dboff d + dpos d) - Nat.min (Z.to_nat (dboff d + dpos d)) (length (dmem d)))%nat with 0%nat
      by (unfold zlen in D; lia).
    destruct (skipn _ _); reflexivity.
  - unfold ztake. replace (Z.to_nat (dblen d - dpos d)) with 0%nat by lia. reflexivity.
Qed.
Lemma ahead_bytes d : dec_ok d -> bytes_ok (ahead d).
Proof. intros (_ & _ & _ & _ & H). apply bytes_ok_ztake, bytes_ok_zdrop, H. Qed.

(** peeking and popping, by what is ahead *)
Lemma peek_cons d c t : dec_ok d -> ahead d = c :: t -> peek d = Some c.
Proof. intros H E. unfold peek. rewrite ahead_load, E by exact H. reflexivity. Qed.
Lemma peek_nil d : dec_ok d -> ahead d = [] -> peek d = None.
Proof. intros H E. unfold peek. rewrite ahead_load, E by exact H. reflexivity. Qed.
Lemma pop_eq d : pop d = (peek d, moved 1 d). Proof. reflexivity. Qed.
Lemma ahead_1 d c t : dec_ok d -> ahead d = c :: t -> ahead (moved 1 d) = t.
Proof. intros H E. rewrite ahead_moved, E by (exact H || lia). reflexivity. Qed.
Lemma ahead_1_nil d : dec_ok d -> ahead d = [] -> ahead (moved 1 d) = [].
Proof. intros H E. rewrite ahead_moved, E by (exact H || lia). reflexivity. Qed.
Lemma moved1_ok d : dec_ok d -> dec_ok (moved 1 d).
Proof. intros H. apply moved_ok; [exact H|lia]. Qed.
Lemma validate_ok d k er t : dec_ok d -> ahead d = k :: t -> validateKind k er d = DOk tt (moved 1 d).
Proof. intros H E. unfold validateKind. rewrite (peek_cons d k t H E). cbn [is]. rewrite Z.eqb_refl. reflexivity. Qed.
Lemma is_no u k d : dec_ok d -> ahead d = u -> (forall r, u <> k :: r) -> is (peek d) k = false.
Proof.
  intros H E Hu. destruct u as [|c u].
  - rewrite (peek_nil d H E). reflexivity.
  - rewrite (peek_cons d c u H E). cbn [is]. apply Z.eqb_neq. intros ->. apply (Hu u). reflexivity.
Qed.
Lemma validate_no d k er u : dec_ok d -> ahead d = u -> (forall r, u <> k :: r) ->
  validateKind k er d = DThrow (Invalid er) d.
Proof. intros H E Hu. unfold validateKind. rewrite (is_no u k d H E Hu). reflexivity. Qed.

(** varints *)
Definition finish (signed : bool) (n : Z) (f : bool) : Z := if f && signed then unzigzag n else n.
Lemma unzig_js n : 0 <= n -> (if Z.rem n 2 =? 0 then Z.quot n 2 else Z.quot (- (n + 1)) 2) = unzigzag n.
Proof.
  intros H. unfold unzigzag. rewrite Z.rem_mod_nonneg by lia.
  destruct (Z.eqb_spec (n mod 2) 0); [apply Z.quot_div_nonneg; lia|].
  rewrite Z.quot_opp_l by lia. rewrite Z.quot_div_nonneg by lia. lia.
Qed.
Lemma loop_nil signed n : forall num shift d, dec_ok d -> ahead d = [] ->
  dvarint_loop n num shift signed d = (num, moved (Z.of_nat n) d).
Proof.
  induction n as [|n IH]; intros num shift d H E; cbn [dvarint_loop].
  - rewrite moved_0. reflexivity.
  - rewrite pop_eq, (peek_nil d H E). rewrite IH by (apply moved1_ok || apply ahead_1_nil; assumption).
    rewrite moved_moved, Z.shiftl_0_l, Z.add_0_r. f_equal. f_equal. lia.
Qed.
Lemma loop_done signed n : forall num shift d t ds r, dec_ok d -> ahead d = t -> 0 <= shift -> 0 <= num ->
  scan n t = SDone ds r ->
  dvarint_loop n num shift signed d = (finish signed (num + dval ds * 2 ^ shift) true, moved (zlen ds) d).
Proof.
  induction n as [|n IH]; intros num shift d t ds r H E Hs Hn Hsc; cbn [scan] in Hsc; [discriminate|].
  destruct t as [|c t]; [discriminate|]. cbn [dvarint_loop]. rewrite pop_eq, (peek_cons d c t H E).
  pose proof (ahead_bytes d H) as Hb. rewrite E in Hb. apply bytes_ok_cons in Hb as [Hc _]. unfold isbyte in Hc.
  assert (0 < 2 ^ shift) by (apply Z.pow_pos_nonneg; lia).
  destruct (Z.ltb_spec c 128).
  - inversion Hsc; subst. unfold finish. cbn [andb dval]. change (zlen [c]) with 1.
    rewrite Z.shiftl_mul_pow2, Z.mod_small by lia. replace (c + 128 * 0) with c by lia.
    destruct signed; [|f_equal]. rewrite unzig_js by nia. reflexivity.
  - destruct (scan n t) as [ds' r'| |] eqn:Es; try discriminate. inversion Hsc; subst.
    rewrite (IH _ _ _ t ds' r) ; [|apply moved1_ok; exact H|apply (ahead_1 d c t H E)|lia| |exact Es].
    + rewrite moved_moved, zlen_cons. rewrite Z.shiftl_mul_pow2, land_127 by lia. f_equal.
      cbn [dval]. f_equal. rewrite Z.pow_add_r by lia. change (2 ^ 7) with 128. ring.
    + rewrite Z.shiftl_mul_pow2, land_127 by lia. pose proof (Z.mod_pos_bound c 128). nia.
Qed.
Lemma loop_open signed n : forall num shift d cs, dec_ok d -> 0 <= shift ->
  Forall (fun c => 128 <= c) cs ->
  (ahead d = cs /\ zlen cs <= Z.of_nat n \/ (exists r, ahead d = cs ++ r) /\ zlen cs = Z.of_nat n) ->
  dvarint_loop n num shift signed d = (num + dval cs * 2 ^ shift, moved (Z.of_nat n) d).
Proof.
  induction n as [|n IH]; intros num shift d cs H Hs Hcs Ha.
  - assert (cs = []) by (apply zlen_0_nil; pose proof (zlen_nonneg cs); lia). subst.
    cbn. rewrite moved_0, Z.add_0_r. reflexivity.
  - destruct cs as [|c cs].
    { destruct Ha as [[Ha _]|[_ Ha]]; [|rewrite zlen_nil in Ha; lia].
      rewrite loop_nil by assumption. cbn [dval]. f_equal. lia. }
    inversion Hcs; subst.
    assert (exists t, ahead d = c :: t) as [t E] by (destruct Ha as [[Ha _]|[[r Ha] _]]; rewrite Ha; eexists; reflexivity).
    cbn [dvarint_loop]. rewrite pop_eq, (peek_cons d c t H E).
    destruct (Z.ltb_spec c 128); [lia|].
    rewrite (IH _ _ (moved 1 d) cs); [|apply moved1_ok; exact H|lia|assumption|].
    + rewrite moved_moved. rewrite Z.shiftl_mul_pow2, land_127 by lia. f_equal.
      * cbn [dval]. rewrite Z.pow_add_r by lia. change (2 ^ 7) with 128. ring.
      * f_equal. lia.
    + rewrite zlen_cons in Ha. rewrite (ahead_1 d c t H E).
      destruct Ha as [[Ha Hl]|[[r Ha] Hl]]; rewrite Ha in E; inversion E; subst.
      * left; split; [reflexivity|lia].
      * right; split; [eexists; reflexivity|lia].
Qed.
Lemma dvarint_ok n d m k f signed : dec_ok d -> digits_at n (ahead d) m k f ->
  dvarint n signed d = (finish signed m f, moved k d) /\ 0 <= k.
Proof.
  intros H Hd. unfold dvarint. remember (ahead d) as t eqn:Et. symmetry in Et.
  destruct Hd as [t ds r Hv|t Hl Hc|cs r Hl Hc].
  - split; [|apply zlen_nonneg]. destruct Hv as (E & Hl & Hv).
    assert (0 <= n) by (pose proof (zlen_nonneg ds); lia).
    rewrite (loop_done signed (Z.to_nat n) 0 0 d t ds r); try lia; try assumption.
    + f_equal. f_equal. change (2 ^ 0) with 1. lia.
    + apply scan_done. split; [exact E|]. split; [lia|exact Hv].
  - pose proof (zlen_nonneg t). split; [|lia].
    rewrite (loop_open signed (Z.to_nat n) 0 0 d t); try lia; try assumption.
    + unfold finish; cbn [andb]. f_equal; [change (2 ^ 0) with 1; lia|f_equal; lia].
    + left. split; [exact Et|lia].
  - pose proof (zlen_nonneg cs). split; [|lia].
    rewrite (loop_open signed (Z.to_nat n) 0 0 d cs); try lia; try assumption.
    + unfold finish; cbn [andb]. f_equal; [change (2 ^ 0) with 1; lia|f_equal; lia].
    + right. split; [eexists; eauto|lia].
Qed.
Lemma digits_total n t : 0 <= n -> exists m k f, digits_at n t m k f.
Proof.
  intros Hn. destruct (scan (Z.to_nat n) t) as [ds r| |] eqn:E.
  - apply scan_done in E. rewrite Z2Nat.id in E by lia. do 3 eexists. eapply D_done; eassumption.
  - apply scan_long in E. rewrite Z2Nat.id in E by lia. destruct E as (cs & r & -> & El & Hc).
    do 3 eexists. apply D_long; assumption.
  - apply scan_trunc in E. rewrite Z2Nat.id in E by lia. do 3 eexists. apply D_cut; tauto.
Qed.
Lemma digits_nonneg n t m k f : digits_at n t m k f -> 0 <= m /\ 0 <= k.
Proof.
  intros H. destruct H as [t ds r Hv|t Hl Hc|cs r Hl Hc]; split; try apply dval_nonneg; try apply zlen_nonneg.
  - pose proof (zlen_nonneg t). lia.
  - pose proof (zlen_nonneg cs). lia.
Qed.

(** uint16 *)
Lemma land_mid c : 128 <= c < 256 -> Z.land c (Z.shiftl 127 7) = 128.
Proof.
  intros H. replace c with (Z.of_nat (Z.to_nat c)) by lia.
  assert (K : In (Z.to_nat c) (seq 128 128)) by (apply in_seq; lia). revert K.
  generalize (Z.to_nat c). apply Forall_forall. repeat (constructor; [reflexivity|]). constructor.
Qed.
Lemma land_high c : 0 <= c < 256 -> Z.land c (Z.shiftl 127 14) = 0.
Proof. intros H. change (Z.shiftl 127 14) with (127 * 2 ^ 14). apply land_disjoint; lia. Qed.
Lemma join16 x c s : 0 <= x < 2 ^ s -> 0 <= c < 128 -> 0 <= s <= 14 ->
  u32 (Z.lor x (s32 (Z.shiftl c s))) = x + c * 2 ^ s.
Proof.
  intros Hx Hc Hs. assert (2 ^ s <= 2 ^ 14) by (apply Z.pow_le_mono_r; lia).
  rewrite Z.shiftl_mul_pow2 by lia. rewrite s32_small by nia. rewrite lor_disjoint by lia. apply u32_small. nia.
Qed.
Definition d16 (t : bytes) : bytes * Z :=
  match scan 3 t with SDone ds _ => (ds, zlen ds) | SLong => (ztake 3 t, 3) | STrunc => (t, 3) end.
Lemma d16_fun t ds k : digits16 t ds k -> (ds, k) = d16 t.
Proof.
  intros H. unfold d16. destruct H as [t ds r Hv|t Hl Hc|cs r Hl Hc].
  - apply (scan_done 3) in Hv. rewrite Hv. reflexivity.
  - assert (E : scan 3 t = STrunc) by (apply scan_trunc; auto). rewrite E. reflexivity.
  - assert (E : scan 3 (cs ++ r) = SLong) by (apply scan_long; eauto). rewrite E.
    rewrite <- Hl at 2. rewrite ztake_app_exact. reflexivity.
Qed.
Lemma d16_ok d ds k : dec_ok d -> digits16 (ahead d) ds k ->
  d16_loop 3 0 0 d = (val16 ds, moved k d).
Proof.
  intros H Hd. apply d16_fun in Hd. unfold d16 in Hd. pose proof (ahead_bytes d H) as Hb.
  assert (LOW : forall c, Z.lor 0 (Z.land c (Z.shiftl 127 0)) = c mod 128).
  { intros c. rewrite Z.lor_0_l. change (Z.shiftl 127 0) with 127. apply land_127. }
  assert (MID : forall a c, 128 <= c < 256 -> Z.lor (a mod 128) (Z.land c (Z.shiftl 127 7)) = a mod 128 + 128).
  { intros a c Hc. rewrite land_mid by exact Hc. change 128 with (1 * 2 ^ 7) at 2. rewrite lor_disjoint; [reflexivity|lia|].
    change (2 ^ 7) with 128. lia. }
  remember (ahead d) as t eqn:Et. symmetry in Et.
  assert (STEP : forall d c u num s n, dec_ok d -> ahead d = c :: u ->
     d16_loop (S n) num s d = if c <? 128 then (u32 (Z.lor num (s32 (Z.shiftl c s))), moved 1 d)
       else d16_loop n (Z.lor num (Z.land c (Z.shiftl 127 s))) (s + 7) (moved 1 d)).
  { intros d' c u num s n H' E'. cbn [d16_loop]. rewrite pop_eq, (peek_cons d' c u H' E'). reflexivity. }
  assert (END : forall n d num s, dec_ok d -> ahead d = [] -> d16_loop n num s d = (num, moved (Z.of_nat n) d)).
  { intros n. induction n as [|n IH]; intros d' num s H' E'; cbn [d16_loop].
    - rewrite moved_0; reflexivity.
    - rewrite pop_eq, (peek_nil d' H' E'). rewrite IH by (apply moved1_ok || apply ahead_1_nil; assumption).
      rewrite Z.lor_0_r, moved_moved. do 2 f_equal. lia. }
  pose proof (moved1_ok d H) as H1. pose proof (moved1_ok _ H1) as H2. pose proof (moved1_ok _ H2) as H3.
  destruct t as [|a t].
  { rewrite END by assumption. cbn in Hd. inversion Hd; subst. reflexivity. }
  rewrite (STEP d a t) by assumption. apply bytes_ok_cons in Hb as [Ha Hb]. unfold isbyte in Ha.
  pose proof (ahead_1 d a t H Et) as E1.
  destruct (Z.ltb_spec a 128) as [Ha'|Ha'].
  { cbn [scan] in Hd. destruct (Z.ltb_spec a 128) in Hd; [|lia]. change (zlen [a]) with 1 in Hd. inversion Hd; subst.
    rewrite join16 by (change (2 ^ 0) with 1; lia). cbn [val16]. rewrite Z.mod_small by lia. f_equal. change (2 ^ 0) with 1. lia. }
  rewrite LOW.
  destruct t as [|b t].
  { rewrite END by assumption. rewrite moved_moved.
    cbn [scan] in Hd. destruct (Z.ltb_spec a 128) in Hd; [lia|]. inversion Hd; subst. reflexivity. }
  rewrite (STEP _ b t) by assumption. apply bytes_ok_cons in Hb as [Hb' Hb]. unfold isbyte in Hb'.
  pose proof (ahead_1 _ b t H1 E1) as E2.
  destruct (Z.ltb_spec b 128) as [Hlb|Hlb].
  { cbn [scan] in Hd. destruct (Z.ltb_spec a 128) in Hd; [lia|]. destruct (Z.ltb_spec b 128) in Hd; [|lia].
    change (zlen [a; b]) with 2 in Hd. inversion Hd; subst.
    rewrite join16 by (change (2 ^ (0 + 7)) with 128; lia). rewrite moved_moved. cbn [val16].
    destruct (Z.ltb_spec b 128); [|lia]. f_equal. change (2 ^ (0 + 7)) with 128. lia. }
  change (0 + 7) with 7. rewrite MID by lia.
  destruct t as [|c t].
  { rewrite END by assumption. rewrite !moved_moved.
    cbn [scan] in Hd. destruct (Z.ltb_spec a 128) in Hd; [lia|]. destruct (Z.ltb_spec b 128) in Hd; [lia|].
    inversion Hd; subst.
    cbn [val16]. destruct (Z.ltb_spec b 128); [lia|]. f_equal. }
  rewrite (STEP _ c t) by assumption. apply bytes_ok_cons in Hb as [Hc _]. unfold isbyte in Hc.
  assert (ds = [a; b; c] /\ k = 3) as [-> ->].
  { cbn [scan] in Hd. destruct (Z.ltb_spec a 128) in Hd; [lia|]. destruct (Z.ltb_spec b 128) in Hd; [lia|].
    destruct (Z.ltb_spec c 128) in Hd; inversion Hd; auto. }
  change (7 + 7) with 14. cbn [val16].
  destruct (Z.ltb_spec c 128).
  - rewrite join16 by (change (2 ^ 14) with 16384; lia). rewrite !moved_moved. f_equal. change (2 ^ 14) with 16384. lia.
  - cbn [d16_loop]. rewrite land_high by lia. rewrite Z.lor_0_r, !moved_moved, Z.add_0_r. reflexivity.
Qed.
Lemma digits16_total t : exists ds k, digits16 t ds k.
Proof.
  destruct (scan 3 t) as [ds r| |] eqn:E.
  - apply scan_done in E. do 2 eexists. eapply D16_done; eassumption.
  - apply scan_long in E. destruct E as (cs & r & -> & El & Hc). do 2 eexists. apply D16_long; assumption.
  - apply scan_trunc in E. do 2 eexists. apply D16_cut; tauto.
Qed.

(** slices and DataViews *)
Lemma slice_ahead n d : dec_ok d -> 0 <= n -> slice_at n d = ztake n (ahead d).
Proof.
  intros (A & B & C & D & E) Hn. unfold slice_at, ahead.
  destruct (Z_le_gt_dec (dpos d) (dblen d)).
  - rewrite (Z.min_l (dpos d)) by lia. unfold ztake at 2 3. rewrite firstn_firstn. unfold ztake. f_equal. lia.
  - rewrite (Z.min_r (dpos d)) by lia. rewrite Z.min_r by lia. unfold ztake.
    replace (Z.to_nat (dblen d - dblen d)) with 0%nat by lia. replace (Z.to_nat (dblen d - dpos d)) with 0%nat by lia.
    cbn [firstn]. destruct (Z.to_nat n); reflexivity.
Qed.
Lemma view_ahead d : dec_ok d -> dpos d <= dblen d -> zdrop (dboff d + dpos d) (dmem d) = ahead d ++ behind d.
Proof.
  intros (A & B & C & D & E) Hp. unfold ahead, behind.
  rewrite <- (ztake_zdrop (dblen d - dpos d) (zdrop (dboff d + dpos d) (dmem d))) at 1.
  f_equal. rewrite zdrop_zdrop by lia. f_equal. lia.
Qed.
Lemma ahead_pos d c t : ahead d = c :: t -> dpos d < dblen d.
Proof.
  intros E. destruct (Z_lt_le_dec (dpos d) (dblen d)); [assumption|]. unfold ahead, ztake in E.
  replace (Z.to_nat (dblen d - dpos d)) with 0%nat in E by lia. discriminate.
Qed.
Lemma dataview_ok n d p r : dec_ok d -> dpos d <= dblen d -> ahead d ++ behind d = p ++ r -> zlen p = n ->
  dataview n d = DOk p (moved n d).
Proof.
  intros H Hp E Hn. unfold dataview. rewrite view_ahead by assumption.
  assert (L : zlen (ahead d ++ behind d) = zlen (dmem d) - (dboff d + dpos d)).
  { rewrite <- view_ahead by assumption. apply zlen_zdrop. destruct H as (A & B & C & D & _). lia. }
  rewrite E in L. rewrite zlen_app in L. pose proof (zlen_nonneg r).
  destruct (Z.leb_spec (dboff d + dpos d + n) (zlen (dmem d))); [|lia].
  rewrite E, <- Hn, ztake_app_exact. reflexivity.
Qed.
Lemma dataview_short n d : dec_ok d -> dpos d <= dblen d -> zlen (ahead d ++ behind d) < n ->
  dataview n d = DThrow RangeError d.
Proof.
  intros H Hp Hn. unfold dataview.
  assert (L : zlen (ahead d ++ behind d) = zlen (dmem d) - (dboff d + dpos d)).
  { rewrite <- view_ahead by assumption. apply zlen_zdrop. destruct H as (A & B & C & D & _). lia. }
  destruct (Z.leb_spec (dboff d + dpos d + n) (zlen (dmem d))); [lia|reflexivity].
Qed.
