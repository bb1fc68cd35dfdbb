(** When everything fits, when it does not, and views (C38, C39, C52). *)
From Verif Require Import Base Spec SpecProofs Utf8 TsModel TsSpec TsEnc TsThms.

Lemma varint_le n m : 0 <= n < 2 ^ 64 -> 0 < m -> n < 128 ^ m -> 1 <= zlen (varint n) <= m.
Proof.
  intros Hn Hm Hb. split.
  - unfold varint. pose proof (leb_nonempty 9 n). destruct (leb 9 n); [contradiction|].
    rewrite zlen_cons. pose proof (zlen_nonneg b). lia.
  - apply leb_len; [|exact Hm|exact Hb]. split; [lia|]. eapply Z.lt_le_trans; [apply Hn|]. vm_compute; discriminate.
Qed.

Lemma varint_pos n : 1 <= zlen (varint n).
Proof.
  unfold varint. pose proof (leb_nonempty 9 n). destruct (leb 9 n); [contradiction|].
  rewrite zlen_cons. pose proof (zlen_nonneg b). lia.
Qed.
Lemma regrow_bounds c a m : 0 <= a <= fst c -> fst c <= snd c ->
  a <= fst (regrow c a m) /\ fst (regrow c a m) <= snd (regrow c a m) /\ snd c <= snd (regrow c a m) /\
  (m <= snd c -> a + m <= fst (regrow c a m)).
Proof. intros H1 H2. unfold regrow. destruct (Z.ltb_spec (fst c - a) m); cbn [fst snd]; lia. Qed.

Lemma fits_after ps : forall c a, 0 <= a <= fst c -> fst c <= snd c -> fits c a ps = true ->
  a + zlen (concat (map snd ps)) <= fst (room_after c a ps) /\
  fst (room_after c a ps) <= snd (room_after c a ps) /\ snd c <= snd (room_after c a ps).
Proof.
  induction ps as [|[m p] ps IH]; intros c a H1 H2 Hf; cbn [room_after map concat snd].
  { rewrite zlen_nil. lia. }
  cbn [fits] in Hf. apply andb_prop in Hf as [Hf1 Hf2]. pose proof (zlen_nonneg p).
  destruct (regrow_bounds c a m H1 H2) as (A & B & C & _).
  destruct (IH (regrow c a m) (a + zlen p)) as (D & E & F); try lia; try assumption.
  rewrite zlen_app. lia.
Qed.

Lemma fits_covered c a m p : 0 <= a <= fst c -> fst c <= snd c -> m <= snd c -> zlen p <= m ->
  fits c a [(m, p)] = true.
Proof.
  intros H1 H2 H3 H4. cbn [fits]. destruct (regrow_bounds c a m H1 H2) as (_ & _ & _ & D).
  specialize (D H3). rewrite andb_true_r. lia.
Qed.
Lemma fits_two c a m h m' q : 0 <= a <= fst c -> fst c <= snd c -> m <= snd c -> zlen h <= m -> m' <= snd c ->
  (zlen q <= m' \/ zlen h + zlen q <= m) -> fits c a [(m, h); (m', q)] = true.
Proof.
  intros H1 H2 H3 H4 H5 H6. cbn [fits]. destruct (regrow_bounds c a m H1 H2) as (A & B & C & D).
  specialize (D H3). pose proof (zlen_nonneg h). pose proof (zlen_nonneg q).
  destruct (regrow_bounds (regrow c a m) (a + zlen h) m') as (A' & B' & C' & D'); try lia.
  specialize (D' ltac:(lia)). rewrite andb_true_r.
  destruct H6 as [H6|H6]; [lia|].
  assert (fst (regrow c a m) <= fst (regrow (regrow c a m) (a + zlen h) m')).
  { unfold regrow at 2. destruct (_ <? m'); cbn [fst snd]; lia. }
  lia.
Qed.

Lemma modest_fits e n v c a : js_ok v -> modest e n v -> 9 <= n <= snd c -> 0 <= a <= fst c -> fst c <= snd c ->
  fits c a (parts e v) = true.
Proof.
  intros Hv Hm Hn Ha Hc.
  assert (PL : forall p k h, 0 <= zlen p < 2 ^ 21 -> zlen p <= n - 6 -> zlen h + 4 = k -> k <= 6 ->
     fits c a [(k + zlen p, h); (5, wire (VU32 (zlen p)) ++ p)] = true).
  { intros p k h Hp Hp2 Hh Hk. pose proof (varint_le (zlen p) 3 ltac:(lia) ltac:(lia) ltac:(change (128 ^ 3) with (2 ^ 21); lia)).
    apply fits_two; try lia. right. cbn [wire app]. rewrite zlen_cons, zlen_app. lia. }
  destruct v; cbn [js_ok modest parts] in *; unfold twire; cbn [value_of wire].
  - apply fits_covered; try lia. unfold zlen; cbn; lia.
  - apply fits_covered; try lia. unfold zlen; cbn; lia.
  - apply fits_covered; try lia. unfold zlen; cbn; lia.
  - apply fits_covered; try lia. unfold zlen; cbn; lia.
  - apply fits_covered; try lia. rewrite zlen_cons.
    pose proof (varint_le n0 2 ltac:(lia) ltac:(lia) ltac:(change (128 ^ 2) with (2 ^ 14); lia)). lia.
  - apply fits_covered; try lia. rewrite zlen_cons.
    pose proof (varint_le n0 4 ltac:(lia) ltac:(lia) ltac:(change (128 ^ 4) with (2 ^ 28); lia)). lia.
  - apply fits_covered; try lia. rewrite zlen_cons.
    pose proof (varint_le n0 8 ltac:(lia) ltac:(lia) ltac:(change (128 ^ 8) with (2 ^ 56); lia)). lia.
  - apply fits_covered; try lia. rewrite zlen_cons.
    assert (0 <= zigzag n0 < 2 ^ 28) by (apply (zigzag_range 28); change (28 - 1) with 27; lia).
    pose proof (varint_le (zigzag n0) 4 ltac:(lia) ltac:(lia) ltac:(change (128 ^ 4) with (2 ^ 28); lia)). lia.
  - apply fits_covered; try lia. rewrite zlen_cons.
    assert (0 <= zigzag n0 < 2 ^ 56) by (apply (zigzag_range 56); change (56 - 1) with 55; lia).
    pose proof (varint_le (zigzag n0) 8 ltac:(lia) ltac:(lia) ltac:(change (128 ^ 8) with (2 ^ 56); lia)). lia.
  - apply fits_covered; try lia. unfold zlen; cbn; lia.
  - apply fits_covered; try lia. unfold zlen; cbn; lia.
  - pose proof (varint_le size 4 ltac:(lia) ltac:(lia) ltac:(change (128 ^ 4) with (2 ^ 28); lia)).
    apply fits_two; try lia; try (unfold zlen; cbn; lia). left. rewrite zlen_cons. lia.
  - pose proof (varint_le size 4 ltac:(lia) ltac:(lia) ltac:(change (128 ^ 4) with (2 ^ 28); lia)).
    apply fits_two; try lia; try (unfold zlen; cbn; lia). left. rewrite zlen_cons. lia.
  - pose proof (zlen_nonneg p). apply (PL p 5 [4]); try lia. reflexivity.
  - pose proof (zlen_text u). apply (PL (text_encode u) 5 [5]); try lia. reflexivity.
  - pose proof (zlen_text u). apply (PL (text_encode u) 6 [6; 5]); try lia. reflexivity.
Qed.
Theorem modest_all e n vs : forall c a, Forall js_ok vs -> Forall (modest e n) vs ->
  9 <= n <= snd c -> 0 <= a <= fst c -> fst c <= snd c -> fits c a (flat_map (parts e) vs) = true.
Proof.
  induction vs as [|v vs IH]; intros c a Hv Hm Hn Ha Hc; [reflexivity|].
  inversion Hv; inversion Hm; subst. cbn [flat_map]. rewrite fits_app.
  assert (F : fits c a (parts e v) = true) by (apply (modest_fits e n); assumption).
  rewrite F. cbn [andb]. destruct (fits_after (parts e v) c a Ha Hc F) as (A & B & C).
  pose proof (zlen_nonneg (concat (map snd (parts e v)))). apply IH; try assumption; lia.
Qed.

(** A buffer with [|output| + 7] bytes never needs to grow. *)
Lemma roomy_part e v c a : js_ok v -> 0 <= a -> a + zlen (twire e v) + 7 <= fst c ->
  fits c a (parts e v) = true /\ room_after c a (parts e v) = c.
Proof.
  intros Hv Ha Hl.
  assert (RG : forall a m, a + m <= fst c -> regrow c a m = c).
  { intros a' m H. unfold regrow. destruct (Z.ltb_spec (fst c - a') m); [lia|reflexivity]. }
  assert (ONE : forall m p, twire e v = p -> m <= zlen p + 7 -> fits c a [(m, p)] = true /\ room_after c a [(m, p)] = c).
  { intros m p E H. rewrite E in Hl. cbn [fits room_after]. rewrite RG by lia. split; [|reflexivity].
    rewrite andb_true_r. lia. }
  assert (TWO : forall m h q, twire e v = h ++ q -> 0 <= zlen h -> 0 <= zlen q -> m <= zlen h + zlen q + 7 -> 5 <= zlen q + 7 ->
      fits c a [(m, h); (5, q)] = true /\ room_after c a [(m, h); (5, q)] = c).
  { intros m h q E Hh Hq H1 H2. rewrite E, zlen_app in Hl. cbn [fits room_after]. rewrite RG by lia. rewrite RG by lia.
    split; [|reflexivity]. rewrite andb_true_r. lia. }
  destruct v; cbn [parts]; try (apply ONE; [reflexivity|]; unfold twire; cbn [value_of wire];
      rewrite ?zlen_cons; try (pose proof (varint_pos n)); try (pose proof (varint_pos (zigzag n)));
      try (change (zlen (be4 (js32 e bits))) with 4); try (change (zlen (be8 (js64 e bits))) with 8);
      try (change (zlen [n]) with 1); try rewrite zlen_nil; try lia);
    (apply TWO; [reflexivity|apply zlen_nonneg|apply zlen_nonneg| |]).
  all: cbn [wire app]; rewrite ?zlen_cons, ?zlen_app, ?zlen_nil;
    repeat match goal with |- context [zlen (varint ?x)] => pose proof (varint_pos x); generalize dependent (zlen (varint x)); intros end;
    try (pose proof (zlen_nonneg p)); try (pose proof (zlen_text u)); lia.
Qed.
Theorem roomy_all e vs : forall c a, Forall js_ok vs -> 0 <= a ->
  a + zlen (twires e vs) + 7 <= fst c -> fits c a (flat_map (parts e) vs) = true.
Proof.
  induction vs as [|v vs IH]; intros c a Hv Ha Hl; [reflexivity|].
  inversion Hv; subst. cbn [flat_map]. rewrite fits_app.
  unfold twires in Hl; cbn [map concat] in Hl. rewrite zlen_app in Hl.
  pose proof (zlen_nonneg (concat (map (twire e) vs))).
  destruct (roomy_part e v c a) as [F R]; try assumption; [lia|].
  rewrite F, R, parts_wire. cbn [andb]. pose proof (zlen_nonneg (twire e v)).
  apply IH; try assumption; [lia|]. unfold twires. lia.
Qed.

(** ** views *)
Definition eres_state (r : eres) : option enc :=
  match r with EOk s | EThrow s => Some s | EStuck => None end.
(** [s'] keeps what was visible through any view of [s] taken so far. *)
Definition keeps (s s' : enc) : Prop :=
  wf s' /\ pos s <= pos s' /\
  exists l, old s' = old s ++ l /\
   (forall n, n <= pos s -> match l with [] => ztake n (mem s') = ztake n (mem s)
                          | m :: _ => ztake n m = ztake n (mem s) end).
Lemma ztake_neg {A} n (l : list A) : n <= 0 -> ztake n l = [].
Proof. intros H. unfold ztake. replace (Z.to_nat n) with 0%nat by lia. reflexivity. Qed.
Lemma keeps_refl s : wf s -> keeps s s.
Proof.
  intros H. split; [exact H|]. split; [lia|]. exists []. rewrite app_nil_r. auto.
Qed.
Lemma keeps_trans a b c : keeps a b -> keeps b c -> keeps a c.
Proof.
  intros (Hw & Hp & l & Ho & Hm) (Hw' & Hp' & l' & Ho' & Hm'). split; [exact Hw'|]. split; [lia|].
  exists (l ++ l'). rewrite Ho', Ho, app_assoc. split; [reflexivity|]. intros n Hn.
  destruct l as [|x l]; cbn [app].
  - specialize (Hm n Hn). specialize (Hm' n ltac:(lia)). destruct l'; congruence.
  - apply Hm. exact Hn.
Qed.
Lemma keeps_puts p s : wf s -> keeps s (puts p s).
Proof.
  intros H. pose proof (puts_geo p s H) as (A & B & C & D & E). pose proof (zlen_nonneg p).
  split; [exact A|]. split; [lia|]. exists []. rewrite app_nil_r. split; [exact E|].
  intros n Hn. destruct (Z_le_gt_dec n 0); [rewrite !ztake_neg by lia; reflexivity|].
  apply puts_prefix; [exact H|lia].
Qed.
Lemma keeps_resize m s : wf s -> keeps s (resize m s).
Proof.
  intros H. pose proof (resize_geo m s H) as (A & B & C). split; [exact A|]. split; [lia|].
  destruct (resize_old m s) as (l & Ho & Hl). exists l. split; [exact Ho|]. intros n Hn.
  destruct Hl as [[-> Hl]| ->]; [rewrite Hl|]; reflexivity.
Qed.
Lemma keeps_store i v s : wf s -> pos s <= i -> keeps s (store i v s).
Proof.
  intros H Hi. pose proof (store_len i v s H) as Hl. split.
  - destruct H as (A & B & C & D). unfold wf. rewrite boff_store, pos_store, blen_store, Hl. lia.
  - rewrite pos_store. split; [lia|]. exists []. rewrite old_store, app_nil_r. split; [reflexivity|].
    intros n Hn. destruct (Z_le_gt_dec n 0); [rewrite !ztake_neg by lia; reflexivity|].
    apply store_prefix; [exact H|lia|]. destruct H; lia.
Qed.
Lemma keeps_advance n s : wf s -> 0 <= n -> keeps s (advance n s).
Proof.
  intros (A & B & C & D) H. split; [unfold wf; cbn; lia|]. split; [cbn; lia|].
  exists []. cbn [old mem advance]. rewrite app_nil_r. auto.
Qed.
Lemma keeps_wf a b : keeps a b -> wf b. Proof. intros [H _]. exact H. Qed.
Definition kept (s : enc) (r : eres) : Prop := forall s', eres_state r = Some s' -> keeps s s'.
Lemma kept_bind s r f : wf s -> kept s r -> (forall s', keeps s s' -> kept s' (f s')) -> kept s (r >>> f).
Proof.
  intros Hw Hr Hf s' E. destruct r as [s1|s1|]; cbn [ebind] in E; [|apply Hr; exact E|discriminate].
  assert (K : keeps s s1) by (apply Hr; reflexivity). eapply keeps_trans; [exact K|]. apply (Hf s1 K). exact E.
Qed.
Lemma kept_after s s1 r : keeps s s1 -> kept s1 r -> kept s r.
Proof. intros H Hr s' E. eapply keeps_trans; [exact H|apply Hr; exact E]. Qed.
Lemma kept_ok s s' : keeps s s' -> kept s (EOk s').
Proof. intros H x E. inversion E; subst. exact H. Qed.
Lemma set_kept p i s : wf s -> pos s <= i -> kept s (set p i s).
Proof.
  intros H Hi s' E. unfold set in E.
  destruct (Z.leb_spec (i + zlen p) (blen s)); inversion E; subst; [|apply keeps_refl; exact H].
  pose proof (zlen_nonneg p). destruct H as (A & B & C & D).
  split; [|split; [cbn; lia|]].
  - unfold wf; cbn [boff pos blen mem]. rewrite zlen_splice by lia. lia.
  - exists []. cbn [old mem]. rewrite app_nil_r. split; [reflexivity|]. intros n Hn.
    destruct (Z_le_gt_dec n 0); [rewrite !ztake_neg by lia; reflexivity|].
    apply ztake_splice_le; lia.
Qed.
Lemma put1_keeps v s : wf s -> keeps s (put1 v s).
Proof. intros H. apply (keeps_puts [v] s H). Qed.
Lemma varint_loop_kept fuel : forall v s, wf s -> kept s (varint_loop fuel v s).
Proof.
  induction fuel as [|fuel IH]; intros v s H; cbn [varint_loop]; destruct (128 <=? v).
  - intros s' E. discriminate E.
  - apply kept_ok, (put1_keeps v s H).
  - eapply kept_after; [apply (put1_keeps (or128 v) s H)|]. apply IH. apply (keeps_wf s). apply (put1_keeps _ s H).
  - apply kept_ok, (put1_keeps v s H).
Qed.
Lemma varintBig_loop_kept fuel : forall v s, wf s -> kept s (varintBig_loop fuel v s).
Proof.
  induction fuel as [|fuel IH]; intros v s H; cbn [varintBig_loop]; destruct (128 <=? v).
  - intros s' E. discriminate E.
  - apply kept_ok, (put1_keeps v s H).
  - eapply kept_after; [apply (put1_keeps (Z.lor (Z.land v 127) 128) s H)|]. apply IH. apply (keeps_wf s). apply (put1_keeps _ s H).
  - apply kept_ok, (put1_keeps v s H).
Qed.
Lemma resize_wf m s : wf s -> wf (resize m s). Proof. intros H. apply (resize_geo m s H). Qed.
Lemma varint_kept n k m b s : wf s -> kept s (ts_varint n k m b s).
Proof.
  intros H. unfold ts_varint. cbn zeta. eapply kept_after; [apply keeps_resize; exact H|].
  eapply kept_after; [apply (put1_keeps k), resize_wf; exact H|]. apply varint_loop_kept.
  apply put1_wf, resize_wf; exact H.
Qed.
Lemma varintBig_kept n k m b s : wf s -> kept s (ts_varintBig n k m b s).
Proof.
  intros H. unfold ts_varintBig. cbn zeta. eapply kept_after; [apply keeps_resize; exact H|].
  eapply kept_after; [apply (put1_keeps k), resize_wf; exact H|]. apply varintBig_loop_kept.
  apply put1_wf, resize_wf; exact H.
Qed.
Lemma fixed_kept m k p s : wf s -> kept s (fixed m k p s).
Proof.
  intros H. unfold fixed. cbn zeta. eapply kept_after; [apply keeps_resize; exact H|].
  set (r := resize m s). assert (Hr : wf r) by (apply resize_wf; exact H).
  assert (K : keeps r (store (pos r) k r)) by (apply keeps_store; [exact Hr|lia]).
  eapply kept_after; [exact K|]. apply kept_bind; [apply (keeps_wf _ _ K)| |].
  - apply set_kept; [apply (keeps_wf _ _ K)|lia].
  - intros s' K'. apply kept_ok, keeps_advance; [apply (keeps_wf _ _ K')|]. pose proof (zlen_nonneg p). lia.
Qed.
Lemma payload_kept p s : wf s -> 
  kept s (ts_uint32 (zlen p) s >>> fun s => set p (pos s) s >>> fun s => EOk (advance (zlen p) s)).
Proof.
  intros H. apply kept_bind; [exact H|apply varint_kept; exact H|]. intros s1 K. 
  apply kept_bind; [apply (keeps_wf _ _ K)|apply set_kept; [apply (keeps_wf _ _ K)|lia]|].
  intros s2 K2. apply kept_ok, keeps_advance; [apply (keeps_wf _ _ K2)|apply zlen_nonneg].
Qed.
Lemma encode_kept e v s : wf s -> kept s (ts_encode e v s).
Proof.
  intros H.
  assert (W : forall m p, keeps s (puts p (resize m s))).
  { intros m p. eapply keeps_trans; [apply keeps_resize; exact H|]. apply keeps_puts, resize_wf, H. }
  destruct v; cbn [ts_encode].
  - apply kept_ok, (W 1 [0]).
  - apply kept_ok, (W 1 [3]).
  - unfold ts_boolean. cbn zeta. rewrite puts_two. apply kept_ok, W.
  - apply fixed_kept; exact H.
  - apply varint_kept; exact H.
  - apply varint_kept; exact H.
  - apply varintBig_kept; exact H.
  - apply varint_kept; exact H.
  - apply varintBig_kept; exact H.
  - apply fixed_kept; exact H.
  - apply fixed_kept; exact H.
  - unfold ts_array. cbn zeta. rewrite puts_two. eapply kept_after; [apply W|]. apply varint_kept, (keeps_wf s), W.
  - unfold ts_map. cbn zeta. rewrite puts_three. eapply kept_after; [apply W|]. apply varint_kept, (keeps_wf s), W.
  - unfold ts_uint8Array. cbn zeta. eapply kept_after; [apply (W (5 + zlen p) [4])|]. apply payload_kept, (keeps_wf s), (W (5 + zlen p) [4]).
  - unfold ts_string. cbn zeta. eapply kept_after; [apply (W (5 + zlen (text_encode u)) [5])|]. apply payload_kept, (keeps_wf s), (W (5 + zlen (text_encode u)) [5]).
  - unfold ts_error. cbn zeta. rewrite puts_two. eapply kept_after; [apply W|]. apply payload_kept, (keeps_wf s), W.
Qed.
Lemma encode_all_kept e vs : forall s, wf s -> kept s (ts_encode_all e vs s).
Proof.
  induction vs as [|v vs IH]; intros s H; cbn [ts_encode_all].
  - apply kept_ok, keeps_refl, H.
  - apply kept_bind; [exact H|apply encode_kept; exact H|]. intros s' K. apply IH, (keeps_wf _ _ K).
Qed.
(** What [bytes] returned keeps its contents, whatever is encoded afterwards. *)
Theorem view_stable e vs s w s' : wf s -> bytes_view s = Ok w ->
  (ts_encode_all e vs s = EOk s' \/ ts_encode_all e vs s = EThrow s') ->
  view_content s' w = view_content s w.
Proof.
  intros H Hw E. assert (K : keeps s s').
  { apply (encode_all_kept e vs s H). destruct E as [-> | ->]; reflexivity. }
  unfold bytes_view in Hw. destruct (pos s <=? zlen (mem s)); inversion Hw; subst; clear Hw.
  destruct K as (_ & Hp & l & Ho & Hm). specialize (Hm (pos s) (Z.le_refl _)).
  unfold view_content; cbn [fst snd]. rewrite Ho.
  rewrite (app_nth2 (old s) [mem s]) by (unfold zlen; lia). rewrite <- app_assoc.
  rewrite app_nth2 by (unfold zlen; lia).
  replace (Z.to_nat (zlen (old s)) - length (old s))%nat with 0%nat by (unfold zlen; lia).
  destruct l; cbn [app nth] in *; exact Hm.
Qed.
