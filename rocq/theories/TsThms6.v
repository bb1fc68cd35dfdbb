(** The decoder on truncated encodings (C41). *)
From Verif Require Import Base Spec SpecProofs GoProps2 GoThms2 Utf8 TsModel TsSpec TsThms TsThms2 TsText TsDec TsThms4 TsThms5.

Lemma leb_prefix k : forall n t s, 0 <= n < 128 ^ (Z.of_nat k + 1) -> leb k n = t ++ s -> s <> [] ->
  Forall (fun c => 128 <= c) t /\ dval t = n mod 128 ^ zlen t.
Proof.
  induction k as [|k IH]; intros n t s Hn E Hs.
  - cbn [leb] in E. destruct t as [|a t]; [split; [constructor|]; change (n mod 1 = 0) || cbn [dval zlen length]; rewrite ?Z.pow_0_r, Z.mod_1_r; reflexivity|].
    destruct t; [|discriminate]. destruct s; [contradiction|discriminate].
  - destruct t as [|a t].
    { split; [constructor|]. change (zlen []) with 0. rewrite Z.pow_0_r, Z.mod_1_r. reflexivity. }
    cbn [leb] in E. destruct (Z.ltb_spec n 128).
    { destruct t; [|discriminate]. destruct s; [contradiction|discriminate]. }
    cbn [app] in E. apply cons_eq in E as [<- E].
    destruct (IH (n / 128) t s) as [F D]; [|exact E|exact Hs|].
    { split; [apply Z.div_pos; lia|]. apply Z.div_lt_upper_bound; [lia|].
      replace (128 * 128 ^ (Z.of_nat k + 1)) with (128 ^ (Z.of_nat (S k) + 1)); [apply Hn|].
      rewrite <- Z.pow_succ_r by lia. f_equal. lia. }
    split; [constructor; [pose proof (Z.mod_pos_bound n 128); lia|exact F]|].
    cbn [dval]. rewrite D, zlen_cons. pose proof (zlen_nonneg t).
    rewrite Z.pow_add_r, Z.pow_1_r by lia. rewrite Z.rem_mul_r by (try apply Z.pow_pos_nonneg; lia).
    replace (128 + n mod 128) with (n mod 128 + 1 * 128) by lia. rewrite Z.mod_add, Z.mod_mod by lia. reflexivity.
Qed.
Lemma varint_prefix n t s : 0 <= n < 2 ^ 64 -> varint n = t ++ s -> s <> [] ->
  Forall (fun c => 128 <= c) t /\ dval t = n mod 128 ^ zlen t.
Proof.
  intros Hn. apply (leb_prefix 9 n t s). split; [lia|]. eapply Z.lt_le_trans; [apply Hn|]. vm_compute. discriminate.
Qed.
Lemma cut_digits n k t s : 0 <= n < 2 ^ 64 -> n < 128 ^ k -> 0 < k -> varint n = t ++ s -> s <> [] ->
  digits_at k t (n mod 128 ^ zlen t) k false /\ zlen t < k.
Proof.
  intros Hn Hk Hp E Hs. destruct (varint_prefix n t s Hn E Hs) as [F D]. rewrite <- D.
  pose proof (TsThms2.varint_le n k Hn Hp Hk) as L. rewrite E, zlen_app in L.
  assert (0 < zlen s) by (destruct s; [contradiction|rewrite zlen_cons; pose proof (zlen_nonneg s); lia]).
  split; [apply D_cut; [lia|exact F]|lia].
Qed.
Lemma b5 n : 0 <= n < 2 ^ 32 -> n < 128 ^ 5.
Proof. intros H. eapply Z.lt_le_trans; [apply H|]. vm_compute. discriminate. Qed.
Lemma b10 n : 0 <= n < 2 ^ 64 -> n < 128 ^ 10.
Proof. intros H. eapply Z.lt_le_trans; [apply H|]. vm_compute. discriminate. Qed.

(** A prefix of [u ++ p]: inside [u], or all of it and some of [p]. *)
Lemma prefix_app {A} (u p t s : list A) : u ++ p = t ++ s -> s <> [] ->
  (exists s', u = t ++ s' /\ s' <> []) \/ (exists t', t = u ++ t' /\ p = t' ++ s).
Proof.
  revert t. induction u as [|a u IH]; intros t E Hs.
  - right. exists t. auto.
  - destruct t as [|b t].
    + left. exists (a :: u). split; [reflexivity|discriminate].
    + cbn [app] in E. inversion E; subst. destruct (IH t H1 Hs) as [(s' & -> & H)|(t' & -> & H)]; [left; exists s'; auto|right; exists t'; auto].
Qed.
Lemma cut_payload p t s : payload_ok p -> varint (zlen p) ++ p = t ++ s -> s <> [] ->
  exists m n f, digits_at 5 t m n f /\ ztake m (zdrop n t) = ztake (zlen t - zlen (varint (zlen p))) p /\
    zlen t < n + m.
Proof.
  intros Hp E Hs. pose proof (payload_len p Hp) as Hl. destruct (prefix_app _ _ _ _ E Hs) as [(s' & Ev & Hs')|(t' & -> & Ep)].
  - destruct (cut_digits (zlen p) 5 t s') as [D L]; try assumption; [lia|apply b5; exact Hl|lia|].
    exists (zlen p mod 128 ^ zlen t), 5, false. split; [exact D|].
    assert (0 <= zlen p mod 128 ^ zlen t) by (apply Z.mod_pos_bound, Z.pow_pos_nonneg; [lia|apply zlen_nonneg]).
    split; [|lia]. rewrite zdrop_all by lia. rewrite (ztake_neg (zlen t - _)).
    + unfold ztake. rewrite firstn_nil. reflexivity.
    + rewrite Ev, zlen_app. pose proof (zlen_nonneg s'). lia.
  - exists (zlen p), (zlen (varint (zlen p))), true. split; [apply digits5; exact Hl|].
    rewrite zdrop_app_exact. assert (L : zlen p = zlen t' + zlen s) by (rewrite <- zlen_app, <- Ep; reflexivity).
    assert (0 < zlen s) by (destruct s; [contradiction|rewrite zlen_cons; pose proof (zlen_nonneg s); lia]).
    split; [|rewrite zlen_app; lia].
    rewrite ztake_all by lia. rewrite zlen_app. replace (zlen (varint (zlen p)) + zlen t' - zlen (varint (zlen p))) with (zlen t') by lia.
    rewrite Ep. symmetry. apply ztake_app_exact.
Qed.
Lemma cut16 n t s : 0 <= n < 2 ^ 16 -> varint n = t ++ s -> s <> [] ->
  digits16 t t 3 /\ val16 t = n mod 128 ^ zlen t - (if zlen t =? 2 then 128 * (n / 128 mod 128) - 128 else 0) /\ zlen t < 3.
Proof.
  intros Hn E Hs. assert (L3 : n < 128 ^ 3) by (eapply Z.lt_le_trans; [apply Hn|vm_compute; discriminate]).
  destruct (cut_digits n 3 t s) as [_ L]; try assumption; try lia.
  destruct (varint_prefix n t s) as [F D]; try assumption; [lia|].
  split; [apply D16_cut; assumption|]. split; [|exact L]. rewrite <- D.
  destruct t as [|a [|b [|c t]]]; [reflexivity| | |exfalso; rewrite !zlen_cons in L; pose proof (zlen_nonneg t); lia].
  - cbn [val16 dval]. change (zlen [a] =? 2) with false. cbv iota. lia.
  - change (zlen [a; b] =? 2) with true. cbv iota. cbn [val16 dval].
    inversion F as [|? ? Fa Fb]; subst. inversion Fb as [|? ? Fb' ?]; subst.
    destruct (Z.ltb_spec b 128); [lia|]. 
    assert (n / 128 mod 128 = b mod 128); [|lia].
    change (zlen [a; b]) with 2 in D. change (128 ^ 2) with 16384 in D. cbn [dval] in D.
    assert (Hq : n = 16384 * (n / 16384) + (a mod 128 + 128 * (b mod 128))) by lia.
    rewrite Hq at 1. replace (16384 * (n / 16384) + (a mod 128 + 128 * (b mod 128))) with (a mod 128 + (b mod 128 + n / 16384 * 128) * 128) by lia.
    rewrite Z.div_add, (Z.div_small (a mod 128)), Z.add_0_l, Z.mod_add, Z.mod_mod by lia. reflexivity.
Qed.

Theorem truncated_reads e v t s x : valid v -> wire v = kind_bytes (want v) ++ t ++ s -> s <> [] ->
  view_size (want v) = 0 ->
  exists n, treads e (want v) (kind_bytes (want v) ++ t) x (cut_value v (zlen t)) n /\
    zlen (kind_bytes (want v) ++ t) < n.
Proof.
  intros Hv E Hs Hz. unfold kind_bytes in *.
  destruct v; cbn [wire want checks header map fst error_of app valid view_size] in *;
    try discriminate; repeat (apply cons_eq in E as [_ E]); rewrite ?zlen_cons; cbn [cut_value].
  - exfalso. symmetry in E. apply app_eq_nil in E as [_ ->]. contradiction.
  - destruct (cut_digits size 5 t s) as [D L]; try assumption; try lia.
    eexists. split; [eapply T_map; exact D|]. lia.
  - destruct (cut_digits size 5 t s) as [D L]; try assumption; try lia.
    eexists. split; [eapply T_array; exact D|]. lia.
  - destruct (cut_payload p t s Hv E Hs) as (m & n & f & D & <- & L). eexists. split; [eapply T_bytes; exact D|]. lia.
  - destruct (cut_payload p t s Hv E Hs) as (m & n & f & D & <- & L). eexists. split; [eapply T_string; exact D|]. lia.
  - destruct (cut_payload p t s Hv E Hs) as (m & n & f & D & <- & L). eexists. split; [eapply T_error; exact D|]. lia.
  - destruct t as [|c t]; [|exfalso; apply cons_eq in E as [_ E]; symmetry in E; apply app_eq_nil in E as [_ ->]; contradiction].
    eexists. split; [apply T_bool_end|]. change (zlen []) with 0. lia.
  - destruct (cut16 n t s) as (D & <- & L); try assumption. eexists. split; [apply T_u16; exact D|]. lia.
  - destruct (cut_digits n 5 t s) as [D L]; try assumption; try lia.
    eexists. split; [eapply T_u32; exact D|]. lia.
  - destruct (cut_digits n 10 t s) as [D L]; try assumption; try lia.
    eexists. split; [eapply T_u64; exact D|]. lia.
  - pose proof (zigzag32 n Hv). destruct (cut_digits (zigzag n) 5 t s) as [D L]; try assumption; try lia.
    eexists. split; [exact (T_i32 e _ x _ _ false D)|]. lia.
  - pose proof (zigzag64 n Hv). destruct (cut_digits (zigzag n) 10 t s) as [D L]; try assumption; try lia.
    eexists. split; [exact (T_i64 e _ x _ _ false D)|]. lia.
Qed.
Lemma ahead_len d : dec_ok d -> dpos d <= dblen d -> zlen (ahead d) = ts_length d.
Proof.
  intros (H1 & H2 & H3 & H4 & _) Hp. unfold ahead, ts_length. rewrite zlen_ztake; [reflexivity|].
  rewrite zlen_zdrop by lia. lia.
Qed.
(** A cut-off encoding is read as a value, without any error; the remaining length turns negative. *)
Theorem truncated_succeeds e v t s d : valid v -> wire v = kind_bytes (want v) ++ t ++ s -> s <> [] ->
  view_size (want v) = 0 -> dec_ok d -> dpos d <= dblen d -> ahead d = kind_bytes (want v) ++ t ->
  exists d', ts_decode e (want v) d = DOk (cut_value v (zlen t)) d' /\ ts_length d' < 0 /\ ahead d' = [].
Proof.
  intros Hv E Hs Hz Hd Hp Ea. destruct (truncated_reads e v t s (behind d) Hv E Hs Hz) as (n & R & L).
  rewrite <- Ea in *. exists (moved n d). split; [apply treads_run; assumption|].
  rewrite (ahead_len d Hd Hp) in L. unfold ts_length in *. cbn [moved dblen dpos]. split; [lia|].
  unfold ahead. cbn [moved dblen dpos]. apply ztake_neg. lia.
Qed.
(** Cut off within the kind bytes: an exception. *)
Theorem truncated_kinds e v p s d : valid v -> wire v = p ++ s -> zlen p < zlen (kind_bytes (want v)) ->
  dec_ok d -> ahead d = p -> exists er d', ts_decode e (want v) d = DThrow (Invalid er) d'.
Proof.
  intros Hv E L Hd Ea.
  assert (P : exists post, kind_bytes (want v) = p ++ post /\ post <> []).
  { assert (K : exists u, wire v = kind_bytes (want v) ++ u).
    { unfold kind_bytes. destruct v; cbn; eexists; reflexivity. }
    destruct K as [u K]. rewrite E in K.
    assert (X : kind_bytes (want v) = p ++ zdrop (zlen p) (kind_bytes (want v))).
    { rewrite <- (ztake_zdrop (zlen p) (kind_bytes (want v))) at 1. f_equal.
      rewrite <- (ztake_app1 (zlen p) (kind_bytes (want v)) u) by lia. rewrite <- K. apply ztake_app_exact. }
    exists (zdrop (zlen p) (kind_bytes (want v))). split; [exact X|].
    intros Z. rewrite Z, app_nil_r in X. rewrite X in L. lia. }
  destruct P as (post & P & Hpost). unfold kind_bytes in P.
  assert (Q : exists pre k er po, checks (want v) = pre ++ (k, er) :: po /\ map fst pre = p).
  { clear -P Hpost. revert P. generalize (checks (want v)). intros l. revert p. induction l as [|[k er] l IH]; intros p P.
    - cbn in P. symmetry in P. apply app_eq_nil in P as [_ ->]. contradiction.
    - destruct p as [|c p]; [exists [], k, er, l; auto|]. cbn [map fst app] in P. apply cons_eq in P as [-> P].
      destruct (IH p P) as (pre & k' & er' & po & -> & <-). exists ((c, er) :: pre), k', er', po. auto. }
  destruct Q as (pre & k & er & po & Q & <-). do 2 eexists. apply tfails_run; [exact Hd|].
  rewrite Ea. rewrite <- (app_nil_r (map fst pre)). eapply X_kind; [exact Q|discriminate].
Qed.
(** uint8 and floats: a RangeError if the ArrayBuffer ends there, otherwise bytes beyond the view
    are read as if they belonged to the input. *)
Theorem truncated_views e v t s d : valid v -> wire v = kind_bytes (want v) ++ t ++ s ->
  0 < view_size (want v) -> dec_ok d -> ahead d = kind_bytes (want v) ++ t ->
  (zlen (t ++ behind d) < view_size (want v) -> ts_decode e (want v) d = DThrow RangeError (moved 1 d)) /\
  (forall p r, t ++ behind d = p ++ r -> zlen p = view_size (want v) ->
     ts_decode e (want v) d = DOk (match want v with
       | RU8 => JU8 (be_value p) | RF32 => JF32 (js32 e (be_value p)) | _ => JF64 (js64 e (be_value p)) end)
       (moved (1 + view_size (want v)) d)).
Proof.
  intros Hv E Hz Hd Ea. assert (K : kind_bytes (want v) = header (want v)) by (destruct v; cbn in Hz |- *; (reflexivity || lia)).
  rewrite K in Ea. split.
  - intros L. apply tfails_run; [exact Hd|]. rewrite Ea. apply X_short. exact L.
  - intros p r Ep Lp. apply treads_run; [exact Hd|]. rewrite Ea.
    destruct v; cbn [want view_size header app] in *; try lia.
    + destruct p as [|c [|? p]]; unfold zlen in Lp; cbn [length] in Lp; try lia.
      change (be_value [c]) with c. change (1 + 1) with 2. eapply T_u8. exact Ep.
    + change (1 + 4) with 5. eapply T_f32; [exact Ep|exact Lp].
    + change (1 + 8) with 9. eapply T_f64; [exact Ep|exact Lp].
Qed.
(** Beyond the end every call throws. *)
Theorem nothing_left e q d : dec_ok d -> ahead d = [] -> ts_decode e q d = DThrow (Invalid (error_of q)) d.
Proof.
  intros Hd Ea. assert (C : exists k post, checks q = [] ++ (k, error_of q) :: post) by (destruct q; cbn; repeat eexists).
  destruct C as (k & post & C).
  pose proof (X_kind q [] k (error_of q) post [] (behind d) C ltac:(discriminate)) as X. cbn [map app] in X.
  rewrite <- Ea in X. rewrite (tfails_run e q d _ _ Hd X). f_equal.
  replace (zlen [] + _) with 0 by (destruct q; reflexivity). apply moved_0.
Qed.
