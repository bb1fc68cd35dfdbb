(** The decoder is exactly [treads]/[tfails] (C40, C41). *)
From Verif Require Import Base Spec SpecProofs Utf8 TsModel TsSpec TsDec.

Ltac vstep H := (* the kind in front is the one compared *)
  erewrite validate_ok; [cbn [dbind]|first [exact H|repeat apply moved1_ok; exact H]|eassumption].

Lemma raw_ok d t m n f : dec_ok d -> ahead d = 10 :: t -> digits_at 5 t m n f ->
  uint32_raw d = DOk m (moved (1 + n) d) /\ 0 <= n.
Proof.
  intros H E Hd. unfold uint32_raw. change kUint32 with 10. rewrite (validate_ok d 10 EU32 t H E). cbn [dbind].
  pose proof (moved1_ok d H) as H1. pose proof (ahead_1 d 10 t H E) as E1. rewrite <- E1 in Hd.
  destruct (dvarint_ok 5 (moved 1 d) m n f false H1 Hd) as [-> Hn].
  unfold finish. rewrite andb_false_r, moved_moved. auto.
Qed.
Lemma payload_eq d t m n f k : dec_ok d -> ahead d = t -> digits_at 5 t m n f -> 0 <= k ->
  slice_at m (moved n d) = ztake m (zdrop n t).
Proof.
  intros H E Hd _. destruct (digits_nonneg _ _ _ _ _ Hd) as [Hm Hn].
  rewrite slice_ahead by (try apply moved_ok; assumption). rewrite ahead_moved, E by assumption. reflexivity.
Qed.

Theorem treads_run e q d v n : dec_ok d -> treads e q (ahead d) (behind d) v n ->
  ts_decode e q d = DOk v (moved n d).
Proof.
  intros H Hr. remember (ahead d) as t eqn:Et. symmetry in Et. remember (behind d) as x eqn:Ex.
  pose proof (moved1_ok d H) as H1. pose proof (moved1_ok _ H1) as H2. pose proof (moved1_ok _ H2) as H3.
  destruct Hr; cbn [ts_decode]; pose proof (ahead_1 d _ _ H Et) as E1.
  - unfold td_null. rewrite (peek_cons d 0 t H Et). reflexivity.
  - unfold td_boolean. change kBoolean with 7. rewrite (validate_ok d 7 _ _ H Et). cbn [dbind].
    rewrite pop_eq, (peek_cons _ c t H1 E1), moved_moved. reflexivity.
  - unfold td_boolean. change kBoolean with 7. rewrite (validate_ok d 7 _ _ H Et). cbn [dbind].
    rewrite pop_eq, (peek_nil _ H1 E1), moved_moved. reflexivity.
  - unfold td_uint8. change kUint8 with 8. rewrite (validate_ok d 8 _ _ H Et). cbn [dbind].
    rewrite (dataview_ok 1 (moved 1 d) [c] r); [cbn [dbind]|exact H1| | |reflexivity].
    + rewrite moved_moved. reflexivity.
    + apply ahead_pos in Et. unfold moved; cbn. lia.
    + rewrite E1, behind_moved, <- Ex. assumption.
  - unfold td_float32. change kFloat32 with 14. rewrite (validate_ok d 14 _ _ H Et). cbn [dbind].
    rewrite (dataview_ok 4 (moved 1 d) p r); [cbn [dbind]|exact H1| | |assumption].
    + rewrite moved_moved. reflexivity.
    + apply ahead_pos in Et. unfold moved; cbn. lia.
    + rewrite E1, behind_moved, <- Ex. assumption.
  - unfold td_float64. change kFloat64 with 15. rewrite (validate_ok d 15 _ _ H Et). cbn [dbind].
    rewrite (dataview_ok 8 (moved 1 d) p r); [cbn [dbind]|exact H1| | |assumption].
    + rewrite moved_moved. reflexivity.
    + apply ahead_pos in Et. unfold moved; cbn. lia.
    + rewrite E1, behind_moved, <- Ex. assumption.
  - unfold td_uint16. change kUint16 with 9. rewrite (validate_ok d 9 _ _ H Et). cbn [dbind].
    rewrite <- E1 in H0. rewrite (d16_ok _ ds n H1 H0), moved_moved. reflexivity.
  - unfold td_uint32. destruct (raw_ok d t m n f H Et H0) as [-> _]. reflexivity.
  - unfold td_uint64. change kUint64 with 11. rewrite (validate_ok d 11 _ _ H Et). cbn [dbind].
    rewrite <- E1 in H0. destruct (dvarint_ok 10 _ m n f false H1 H0) as [-> _].
    unfold finish. rewrite andb_false_r, moved_moved. reflexivity.
  - unfold td_int32. change kInt32 with 12. rewrite (validate_ok d 12 _ _ H Et). cbn [dbind].
    rewrite <- E1 in H0. destruct (dvarint_ok 5 _ m n f true H1 H0) as [-> _].
    unfold finish. rewrite andb_true_r, moved_moved. reflexivity.
  - unfold td_int64. change kInt64 with 13. rewrite (validate_ok d 13 _ _ H Et). cbn [dbind].
    rewrite <- E1 in H0. destruct (dvarint_ok 10 _ m n f true H1 H0) as [-> _].
    unfold finish. rewrite andb_true_r, moved_moved. reflexivity.
  - unfold td_array. change kArray with 1. rewrite (validate_ok d 1 _ _ H Et). cbn [dbind].
    rewrite (validate_ok _ k _ _ H1 E1). cbn [dbind]. pose proof (ahead_1 _ _ _ H1 E1) as E2.
    destruct (raw_ok _ t m n f H2 E2 H0) as [-> _]. cbn [dbind]. rewrite !moved_moved. do 2 f_equal. lia.
  - unfold td_map. change kMap with 2. rewrite (validate_ok d 2 _ _ H Et). cbn [dbind].
    rewrite (validate_ok _ k1 _ _ H1 E1). cbn [dbind]. pose proof (ahead_1 _ _ _ H1 E1) as E2.
    rewrite (validate_ok _ k2 _ _ H2 E2). cbn [dbind]. pose proof (ahead_1 _ _ _ H2 E2) as E3.
    destruct (raw_ok _ t m n f H3 E3 H0) as [-> _]. cbn [dbind]. rewrite !moved_moved. do 2 f_equal. lia.
  - unfold td_uint8Array. change kUint8Array with 4. rewrite (validate_ok d 4 _ _ H Et). cbn [dbind].
    destruct (raw_ok _ t m n f H1 E1 H0) as [-> Hn]. cbn [dbind]. cbn zeta.
    replace (moved (1 + n) (moved 1 d)) with (moved n (moved 1 (moved 1 d))) by (rewrite !moved_moved; f_equal; lia).
    rewrite (payload_eq (moved 1 (moved 1 d)) t m n f 0 H2 (ahead_1 _ _ _ H1 E1) H0) by lia.
    rewrite skip_moved, !moved_moved. do 2 f_equal; lia.
  - unfold td_string. change kString with 5. rewrite (validate_ok d 5 _ _ H Et). cbn [dbind].
    destruct (raw_ok _ t m n f H1 E1 H0) as [-> Hn]. cbn [dbind]. cbn zeta.
    replace (moved (1 + n) (moved 1 d)) with (moved n (moved 1 (moved 1 d))) by (rewrite !moved_moved; f_equal; lia).
    rewrite (payload_eq (moved 1 (moved 1 d)) t m n f 0 H2 (ahead_1 _ _ _ H1 E1) H0) by lia.
    rewrite skip_moved, !moved_moved. do 2 f_equal; lia.
  - unfold td_error. change kError with 6. rewrite (validate_ok d 6 _ _ H Et). cbn [dbind].
    rewrite pop_eq, (peek_cons _ 5 _ H1 E1). change (negb (is (Some 5) kString)) with false. cbv iota.
    pose proof (ahead_1 _ _ _ H1 E1) as E2.
    destruct (raw_ok _ t m n f H2 E2 H0) as [-> Hn]. cbn [dbind]. cbn zeta.
    replace (moved (1 + n) (moved 1 (moved 1 d))) with (moved n (moved 1 (moved 1 (moved 1 d)))) by (rewrite !moved_moved; f_equal; lia).
    rewrite (payload_eq (moved 1 (moved 1 (moved 1 d))) t m n f 0 H3 (ahead_1 _ _ _ H2 E2) H0) by lia.
    rewrite skip_moved, !moved_moved. do 2 f_equal; lia.
Qed.

Lemma raw_no d u : dec_ok d -> ahead d = u -> (forall r, u <> 10 :: r) -> uint32_raw d = DThrow (Invalid EU32) d.
Proof. intros H E Hu. unfold uint32_raw. change kUint32 with 10. rewrite (validate_no d 10 EU32 u H E Hu). reflexivity. Qed.

Lemma checks_head q : exists k er post, checks q = (k, er) :: post.
Proof. destruct q; cbn; repeat eexists. Qed.
Theorem tfails_run e q d er n : dec_ok d -> tfails q (ahead d) (behind d) er n ->
  ts_decode e q d = DThrow er (moved n d).
Proof.
  intros H Hr. remember (ahead d) as t eqn:Et. symmetry in Et. remember (behind d) as x eqn:Ex.
  pose proof (moved1_ok d H) as H1. pose proof (moved1_ok _ H1) as H2. pose proof (moved1_ok _ H2) as H3.
  destruct Hr as [pre k er post u x Hc Hu|t x Hs].
  - assert (N : zlen pre + match q, pre with RError, [_] => 1 | _, _ => 0 end = 0 -> moved (zlen pre + match q, pre with RError, [_] => 1 | _, _ => 0 end) d = d)
      by (intros ->; apply moved_0).
    destruct pre as [|[k0 e0] pre].
    { (* the first kind byte *)
      cbn [map app] in Et.
      replace (zlen [] + match q with RError => 0 | _ => 0 end) with 0 by (destruct q; reflexivity).
      rewrite moved_0.
      destruct q; cbn [checks error_of header map app] in Hc; injection Hc as <- <- _; cbn [ts_decode];
        unfold td_null, td_array, td_map, td_uint8Array, td_string, td_error, td_boolean, td_uint8, td_uint16,
          td_uint32, uint32_raw, td_uint64, td_int32, td_int64, td_float32, td_float64;
        change kArray with 1; change kMap with 2; change kUint8Array with 4; change kString with 5; change kError with 6;
        change kBoolean with 7; change kUint8 with 8; change kUint16 with 9; change kUint32 with 10; change kUint64 with 11;
        change kInt32 with 12; change kInt64 with 13; change kFloat32 with 14; change kFloat64 with 15; change kNull with 0;
        first [rewrite (is_no u _ d H Et Hu); reflexivity|rewrite (validate_no d _ _ u H Et Hu); reflexivity]. }
    cbn [map fst app] in Et. pose proof (ahead_1 d _ _ H Et) as E1.
    destruct pre as [|[k1 e1] pre].
    { (* the second *)
      cbn [map app] in *. replace (zlen [(k0, e0)]) with 1 by reflexivity.
      destruct q; cbn [checks error_of header map app] in Hc; inversion Hc; subst; cbn [ts_decode].
      - unfold td_map. change kMap with 2. rewrite (validate_ok d 2 _ _ H Et). cbn [dbind].
        rewrite (validate_no _ k _ _ H1 eq_refl Hu). reflexivity.
      - unfold td_array. change kArray with 1. rewrite (validate_ok d 1 _ _ H Et). cbn [dbind].
        rewrite (validate_no _ k _ _ H1 eq_refl Hu). reflexivity.
      - unfold td_uint8Array. change kUint8Array with 4. rewrite (validate_ok d 4 _ _ H Et). cbn [dbind].
        rewrite (raw_no _ _ H1 eq_refl Hu). reflexivity.
      - unfold td_string. change kString with 5. rewrite (validate_ok d 5 _ _ H Et). cbn [dbind].
        rewrite (raw_no _ _ H1 eq_refl Hu). reflexivity.
      - unfold td_error. change kError with 6. rewrite (validate_ok d 6 _ _ H Et). cbn [dbind].
        rewrite pop_eq. change kString with 5. rewrite (is_no _ 5 _ H1 eq_refl Hu). cbn [negb].
        rewrite moved_moved. reflexivity. }
    cbn [map fst app] in E1. pose proof (ahead_1 _ _ _ H1 E1) as E2.
    destruct pre as [|[k2 e2] pre].
    { (* the third *)
      cbn [map app] in *. replace (zlen [(k0, e0); (k1, e1)]) with 2 by reflexivity.
      destruct q; cbn [checks error_of header map app] in Hc; inversion Hc; subst; cbn [ts_decode].
      - unfold td_map. change kMap with 2. rewrite (validate_ok d 2 _ _ H Et). cbn [dbind].
        rewrite (validate_ok _ _ _ _ H1 E1). cbn [dbind].
        rewrite (validate_no _ k _ _ H2 eq_refl Hu), moved_moved. reflexivity.
      - unfold td_array. change kArray with 1. rewrite (validate_ok d 1 _ _ H Et). cbn [dbind].
        rewrite (validate_ok _ _ _ _ H1 E1). cbn [dbind].
        rewrite (raw_no _ _ H2 eq_refl Hu). cbn [dbind]. rewrite moved_moved. reflexivity.
      - unfold td_error. change kError with 6. rewrite (validate_ok d 6 _ _ H Et). cbn [dbind].
        rewrite pop_eq. rewrite (peek_cons _ 5 _ H1 E1). change (negb (is (Some 5) kString)) with false. cbv iota.
        rewrite (raw_no _ _ H2 eq_refl Hu). cbn [dbind]. rewrite moved_moved. reflexivity. }
    cbn [map fst app] in E2. pose proof (ahead_1 _ _ _ H2 E2) as E3.
    destruct pre as [|[k3 e3] pre].
    { cbn [map app] in *. replace (zlen [(k0, e0); (k1, e1); (k2, e2)]) with 3 by reflexivity.
      destruct q; cbn [checks error_of header map app] in Hc; inversion Hc; subst; cbn [ts_decode].
      unfold td_map. change kMap with 2. rewrite (validate_ok d 2 _ _ H Et). cbn [dbind].
      rewrite (validate_ok _ _ _ _ H1 E1). cbn [dbind]. rewrite (validate_ok _ _ _ _ H2 E2). cbn [dbind].
      rewrite (raw_no _ _ H3 eq_refl Hu). cbn [dbind]. rewrite !moved_moved. reflexivity. }
    exfalso. apply (f_equal (@length _)) in Hc. destruct q; cbn in Hc; rewrite app_length in Hc; cbn in Hc; lia.
  - pose proof (zlen_nonneg (t ++ x)) as Hz.
    destruct q; cbn [view_size] in Hs; try lia; cbn [header app] in Et; cbn [ts_decode];
      pose proof (ahead_1 d _ _ H Et) as E1; pose proof (ahead_pos _ _ _ Et) as Hp.
    + unfold td_uint8. change kUint8 with 8. rewrite (validate_ok d 8 _ _ H Et). cbn [dbind].
      rewrite dataview_short; [reflexivity|exact H1|unfold moved; cbn; lia|]. rewrite E1, behind_moved, <- Ex. exact Hs.
    + unfold td_float32. change kFloat32 with 14. rewrite (validate_ok d 14 _ _ H Et). cbn [dbind].
      rewrite dataview_short; [reflexivity|exact H1|unfold moved; cbn; lia|]. rewrite E1, behind_moved, <- Ex. exact Hs.
    + unfold td_float64. change kFloat64 with 15. rewrite (validate_ok d 15 _ _ H Et). cbn [dbind].
      rewrite dataview_short; [reflexivity|exact H1|unfold moved; cbn; lia|]. rewrite E1, behind_moved, <- Ex. exact Hs.
Qed.

(** Nothing else can happen. *)
Lemma starts (k : Z) u : (exists r, u = k :: r) \/ (forall r, u <> k :: r).
Proof.
  destruct u as [|c u]; [right; discriminate|]. destruct (Z.eq_dec c k) as [->|]; [left; eauto|].
  right. intros r E. inversion E. contradiction.
Qed.
Theorem treads_total e q t x : (exists v n, treads e q t x v n) \/ (exists er n, tfails q t x er n).
Proof.
  assert (D5 : forall t, exists m k f, digits_at 5 t m k f) by (intros; apply digits_total; lia).
  assert (D10 : forall t, exists m k f, digits_at 10 t m k f) by (intros; apply digits_total; lia).
  destruct (checks_head q) as (k & er & post & E).
  destruct (starts k t) as [[r ->]|Hn].
  2:{ right. do 2 eexists. apply (X_kind q [] k er post t x E Hn). }
  assert (SHORT : forall p, zlen (p ++ x) < view_size q \/ view_size q <= zlen (p ++ x)) by (intros; lia).
  destruct q; cbn [checks error_of header map app] in E; injection E as <- <- Ep.
  - left. do 2 eexists. constructor.
  - destruct (starts keyKind r) as [[r1 ->]|Hn].
    2:{ right. do 2 eexists. apply (X_kind (RMap keyKind valueKind) [(2, EMap)] keyKind EMap [(valueKind, EMap); (10, EU32)] r x eq_refl Hn). }
    destruct (starts valueKind r1) as [[r2 ->]|Hn].
    2:{ right. do 2 eexists. apply (X_kind (RMap keyKind valueKind) [(2, EMap); (keyKind, EMap)] valueKind EMap [(10, EU32)] r1 x eq_refl Hn). }
    destruct (starts 10 r2) as [[r3 ->]|Hn].
    2:{ right. do 2 eexists. apply (X_kind (RMap keyKind valueKind) [(2, EMap); (keyKind, EMap); (valueKind, EMap)] 10 EU32 [] r2 x eq_refl Hn). }
    destruct (D5 r3) as (m & n & f & Hd). left. do 2 eexists. eapply T_map; exact Hd.
  - destruct (starts kind r) as [[r1 ->]|Hn].
    2:{ right. do 2 eexists. apply (X_kind (RSlice kind) [(1, ESlice)] kind ESlice [(10, EU32)] r x eq_refl Hn). }
    destruct (starts 10 r1) as [[r2 ->]|Hn].
    2:{ right. do 2 eexists. apply (X_kind (RSlice kind) [(1, ESlice); (kind, ESlice)] 10 EU32 [] r1 x eq_refl Hn). }
    destruct (D5 r2) as (m & n & f & Hd). left. do 2 eexists. eapply T_array; exact Hd.
  - destruct (starts 10 r) as [[r1 ->]|Hn].
    2:{ right. do 2 eexists. apply (X_kind RBytes [(4, EBytes)] 10 EU32 [] r x eq_refl Hn). }
    destruct (D5 r1) as (m & n & f & Hd). left. do 2 eexists. eapply T_bytes; exact Hd.
  - destruct (starts 10 r) as [[r1 ->]|Hn].
    2:{ right. do 2 eexists. apply (X_kind RString [(5, EString)] 10 EU32 [] r x eq_refl Hn). }
    destruct (D5 r1) as (m & n & f & Hd). left. do 2 eexists. eapply T_string; exact Hd.
  - destruct (starts 5 r) as [[r1 ->]|Hn].
    2:{ right. do 2 eexists. apply (X_kind RError [(6, EError)] 5 EError [(10, EU32)] r x eq_refl Hn). }
    destruct (starts 10 r1) as [[r2 ->]|Hn].
    2:{ right. do 2 eexists. apply (X_kind RError [(6, EError); (5, EError)] 10 EU32 [] r1 x eq_refl Hn). }
    destruct (D5 r2) as (m & n & f & Hd). left. do 2 eexists. eapply T_error; exact Hd.
  - left. destruct r as [|c r]; [do 2 eexists; apply T_bool_end|do 2 eexists; apply T_bool].
  - destruct (SHORT r) as [Hs|Hs]; [right; do 2 eexists; apply (X_short RU8 r x Hs)|].
    left. destruct (r ++ x) as [|c y] eqn:E; [cbn in Hs; lia|]. do 2 eexists. eapply T_u8; exact E.
  - destruct (digits16_total r) as (ds & n & Hd). left. do 2 eexists. apply T_u16; exact Hd.
  - destruct (D5 r) as (m & n & f & Hd). left. do 2 eexists. eapply T_u32; exact Hd.
  - destruct (D10 r) as (m & n & f & Hd). left. do 2 eexists. eapply T_u64; exact Hd.
  - destruct (D5 r) as (m & n & f & Hd). left. do 2 eexists. eapply T_i32; exact Hd.
  - destruct (D10 r) as (m & n & f & Hd). left. do 2 eexists. eapply T_i64; exact Hd.
  - destruct (SHORT r) as [Hs|Hs]; [right; do 2 eexists; apply (X_short RF32 r x Hs)|].
    left. do 2 eexists. eapply (T_f32 e (ztake 4 (r ++ x)) r x (zdrop 4 (r ++ x))); [symmetry; apply ztake_zdrop|].
    apply zlen_ztake. cbn [view_size] in Hs. lia.
  - destruct (SHORT r) as [Hs|Hs]; [right; do 2 eexists; apply (X_short RF64 r x Hs)|].
    left. do 2 eexists. eapply (T_f64 e (ztake 8 (r ++ x)) r x (zdrop 8 (r ++ x))); [symmetry; apply ztake_zdrop|].
    apply zlen_ztake. cbn [view_size] in Hs. lia.
Qed.
Theorem ts_exact e q d : dec_ok d ->
  (forall v d', ts_decode e q d = DOk v d' <-> exists n, d' = moved n d /\ treads e q (ahead d) (behind d) v n) /\
  (forall er d', ts_decode e q d = DThrow er d' <-> exists n, d' = moved n d /\ tfails q (ahead d) (behind d) er n).
Proof.
  intros H. split; intros a d'; split.
  - intros E. destruct (treads_total e q (ahead d) (behind d)) as [(v & n & Hr)|(er & n & Hr)].
    + rewrite (treads_run e q d v n H Hr) in E. inversion E; subst. eauto.
    + rewrite (tfails_run e q d er n H Hr) in E. discriminate.
  - intros (n & -> & Hr). apply treads_run; assumption.
  - intros E. destruct (treads_total e q (ahead d) (behind d)) as [(v & n & Hr)|(er & n & Hr)].
    + rewrite (treads_run e q d v n H Hr) in E. discriminate.
    + rewrite (tfails_run e q d er n H Hr) in E. inversion E; subst. eauto.
  - intros (n & -> & Hr). apply tfails_run; assumption.
Qed.
