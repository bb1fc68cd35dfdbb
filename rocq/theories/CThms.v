(** The C bindings: proofs. *)
From Verif Require Import Base Spec SpecProofs Utf8 GoSpec GoThms RustModel RustSpec RustDec RustThms RustEnc RustThms2
  CModel CSpec.

Lemma into_number k : kind_from (ckind_number k) = into k.
Proof. destruct k; reflexivity. Qed.
Lemma number_kind k : rust_kind (ckind_number k).
Proof. destruct k; unfold rust_kind; cbn; lia. Qed.
Lemma number_byte k : isbyte (ckind_number k).
Proof. destruct k; unfold isbyte; cbn; lia. Qed.
Lemma asked_ok q : rust_req (asked q).
Proof. destruct q; cbn; auto using number_kind. Qed.

(** ** strings *)
Lemma until_nul_some m p : until_nul m = Some p <-> In 0 m /\ p = text m.
Proof.
  revert p. induction m as [|c m IH]; intros p; cbn [until_nul text In].
  - split; [discriminate|]. intros [[] _].
  - destruct (c =? 0) eqn:E.
    + apply Z.eqb_eq in E. split; [intros H; injection H as <-; auto|intros [_ ->]; reflexivity].
    + apply Z.eqb_neq in E. destruct (until_nul m) as [p'|].
      * destruct (proj1 (IH p') eq_refl) as [Hi ->].
        split; [intros H; injection H as <-; auto|intros [_ ->]; reflexivity].
      * split; [discriminate|]. intros [[H|H] ->]; [congruence|].
        assert (X : None = Some (text m)) by (apply IH; auto). discriminate X.
Qed.
Lemma until_nul_none m : until_nul m = None <-> ~ In 0 m.
Proof.
  destruct (until_nul m) as [p|] eqn:E.
  - apply until_nul_some in E. split; [discriminate|]. intros H; destruct E; contradiction.
  - split; [|reflexivity]. intros _ H. assert (X : until_nul m = Some (text m)) by (apply until_nul_some; auto).
    congruence.
Qed.
Lemma text_no_nul m : ~ In 0 (text m).
Proof.
  induction m as [|c m IH]; cbn [text]; [intros []|]. destruct (c =? 0) eqn:E; [intros []|].
  apply Z.eqb_neq in E. intros [H|H]; [congruence|exact (IH H)].
Qed.
Lemma text_ok_bytes m : bytes_ok m -> bytes_ok (text m).
Proof.
  induction 1 as [|c m Hc Hm IH]; cbn [text]; [constructor|]. destruct (c =? 0); constructor; assumption.
Qed.
Lemma text_len m : zlen (text m) <= zlen m.
Proof.
  induction m as [|c m IH]; cbn [text]; [lia|].
  destruct (c =? 0); rewrite ?zlen_cons; [change (zlen (@nil Z)) with 0; pose proof (zlen_nonneg m); lia|lia].
Qed.
Lemma has_nul_iff p : has_nul p = true <-> In 0 p.
Proof.
  unfold has_nul. rewrite existsb_exists. split.
  - intros (c & Hi & E). apply Z.eqb_eq in E. subst. exact Hi.
  - intros H. exists 0. auto.
Qed.
Lemma raw_some m n : n <= zlen m -> raw_parts m n = Some (ztake n m).
Proof. intros H. unfold raw_parts. destruct (zlen m <? n) eqn:E; [apply Z.ltb_lt in E; lia|reflexivity]. Qed.
Lemma raw_none m n : ~ n <= zlen m -> raw_parts m n = None.
Proof. intros H. unfold raw_parts. destruct (zlen m <? n) eqn:E; [reflexivity|apply Z.ltb_ge in E; lia]. Qed.

(** ** what a fine argument means *)
Lemma fine_valid a : fine a -> rust_valid (meaning a) /\ want (meaning a) = asked (ask a) /\ c_text (meaning a).
Proof.
  intros (Ho & Hn & Hd & Hg). unfold rust_valid, c_text.
  destruct a; cbn [carg_ok null_data defined good_text meaning ask asked want rust_req text_ok] in *.
  all: try (split; [split; [exact Ho|split; [auto using number_kind|exact I]]|split; [reflexivity|exact I]]).
  - destruct data as [m|]; [|tauto]. destruct Ho as [Ho Hb].
    split; [|split; [reflexivity|exact I]]. split; [|split; exact I].
    split; [apply bytes_ok_ztake, Hb; reflexivity|]. rewrite zlen_ztake by lia. lia.
  - destruct Hd as (p & -> & Hi). destruct (Ho p eq_refl) as [Hb Hl].
    pose proof (text_len p). split; [|split; [reflexivity|apply text_no_nul]].
    split; [split; [apply text_ok_bytes; exact Hb|lia]|split; [exact I|exact Hg]].
  - destruct Hd as (p & -> & Hi). destruct (Ho p eq_refl) as [Hb Hl].
    pose proof (text_len p). split; [|split; [reflexivity|apply text_no_nul]].
    split; [split; [apply text_ok_bytes; exact Hb|lia]|split; [exact I|exact Hg]].
Qed.

(** ** encode calls *)
Lemma rust_encode_end l v : rust_valid v -> encode (mkcur l (zlen l)) v = Ok (mkcur (l ++ wire v) (zlen (l ++ wire v))).
Proof.
  intros H. pose proof (enc_rust_end l [v] (Forall_cons _ H (Forall_nil _))) as E.
  cbn [encode_all] in E. unfold wires in E. cbn [map concat] in E. rewrite app_nil_r in E.
  destruct (encode (mkcur l (zlen l)) v); [exact E|discriminate E].
Qed.
Definition end_of (l : bytes) : cursor := mkcur l (zlen l).
Lemma enc_pass s h l a w : encs w h = Some (end_of l) -> fine a ->
  c_encode (Some s) (Some h) a w = CDone SPass CVoid (set_enc w h (Some (end_of (l ++ wire (meaning a))))).
Proof.
  intros Hh Hf. destruct (fine_valid a Hf) as (Hv & _). pose proof (rust_encode_end l (meaning a) Hv) as E.
  destruct Hf as (Ho & Hn & Hd & Hg). fold (end_of l) in E. fold (end_of (l ++ wire (meaning a))) in E.
  destruct a; cbn [meaning encode c_encode carg_ok null_data defined good_text] in *;
    rewrite ?into_number in E.
  all: try (unfold polyglot_encode_none, polyglot_encode_array, polyglot_encode_map, polyglot_encode_bool,
      polyglot_encode_u8, polyglot_encode_u16, polyglot_encode_u32, polyglot_encode_u64, polyglot_encode_i32,
      polyglot_encode_i64, polyglot_encode_f32, polyglot_encode_f64, with_encoder, with_status;
      rewrite Hh, E; reflexivity).
  - destruct data as [m|]; [|tauto]. unfold polyglot_encode_bytes, with_encoder, with_status.
    rewrite Hh, raw_some by exact Hd. rewrite E. reflexivity.
  - destruct Hd as (p & -> & Hi). unfold polyglot_encode_string, with_encoder, with_status. cbn [from_ptr].
    rewrite Hh, (proj2 (until_nul_some p (text p))) by auto.
    rewrite (proj2 (text_from (text p))) by exact Hg. rewrite E. reflexivity.
  - destruct Hd as (p & -> & Hi). unfold polyglot_encode_error, with_encoder, with_status. cbn [from_ptr].
    rewrite Hh, (proj2 (until_nul_some p (text p))) by auto.
    rewrite (proj2 (text_from (text p))) by exact Hg. rewrite E. reflexivity.
Qed.
Lemma enc_null_data s h a w : encs w h <> None -> null_data a -> c_encode (Some s) (Some h) a w = CDone SNullPointer CVoid w.
Proof. intros _ H. destruct a; try contradiction. destruct data; [contradiction|reflexivity]. Qed.
Lemma enc_undef s h a w : encs w h <> None -> ~ defined a -> c_encode (Some s) (Some h) a w = CUndef.
Proof.
  intros Hh H. destruct (encs w h) as [c|] eqn:E; [|congruence].
  destruct a; cbn [defined] in H; try tauto; cbn [c_encode].
  - destruct data as [m|]; [|tauto]. unfold polyglot_encode_bytes, with_encoder, with_status.
    rewrite E, raw_none by exact H. reflexivity.
  - unfold polyglot_encode_string, with_encoder, with_status. rewrite E. destruct s0 as [m|]; [|reflexivity].
    cbn [from_ptr]. rewrite (proj2 (until_nul_none m)); [reflexivity|]. intros Hi. apply H. eauto.
  - unfold polyglot_encode_error, with_encoder, with_status. rewrite E. destruct s0 as [m|]; [|reflexivity].
    cbn [from_ptr]. rewrite (proj2 (until_nul_none m)); [reflexivity|]. intros Hi. apply H. eauto.
Qed.
Lemma from_bad p : ~ utf8 p -> from_utf8 p = false.
Proof. intros H. destruct (from_utf8 p) eqn:E; [|reflexivity]. apply text_from in E. contradiction. Qed.
Lemma enc_fail s h a w : encs w h <> None -> ~ null_data a -> defined a -> ~ good_text a ->
  c_encode (Some s) (Some h) a w = CDone SFail CVoid w.
Proof.
  intros Hh _ Hd H. destruct (encs w h) as [c|] eqn:E; [|congruence].
  destruct a; cbn [good_text defined] in H, Hd; try tauto; cbn [c_encode].
  - destruct Hd as (p & -> & Hi). unfold polyglot_encode_string, with_encoder, with_status. rewrite E. cbn [from_ptr].
    rewrite (proj2 (until_nul_some p (text p))) by auto. rewrite from_bad by exact H. reflexivity.
  - destruct Hd as (p & -> & Hi). unfold polyglot_encode_error, with_encoder, with_status. rewrite E. cbn [from_ptr].
    rewrite (proj2 (until_nul_some p (text p))) by auto. rewrite from_bad by exact H. reflexivity.
Qed.
Lemma enc_dangling s h a w : encs w h = None -> ~ null_data a -> c_encode (Some s) (Some h) a w = CUndef.
Proof.
  intros E Hn. destruct a; cbn [c_encode null_data] in *;
  unfold polyglot_encode_none, polyglot_encode_array, polyglot_encode_map, polyglot_encode_bool,
      polyglot_encode_u8, polyglot_encode_u16, polyglot_encode_u32, polyglot_encode_u64, polyglot_encode_i32,
      polyglot_encode_i64, polyglot_encode_f32, polyglot_encode_f64, polyglot_encode_bytes, polyglot_encode_string,
      polyglot_encode_error, with_encoder, with_status; try (rewrite E; reflexivity).
  destruct data; [rewrite E; reflexivity|tauto].
Qed.
Lemma enc_null s a w : c_encode (Some s) None a w = CDone SNullPointer CVoid w.
Proof. destruct a; try reflexivity. destruct data; reflexivity. Qed.
Lemma enc_null_status e a w : c_encode None e a w = CAbort.
Proof. destruct a; try reflexivity. destruct data; reflexivity. Qed.

(** every outcome of an encode call *)
Lemma in_dec_0 (m : bytes) : {In 0 m} + {~ In 0 m}. Proof. apply in_dec, Z.eq_dec. Qed.
Lemma null_data_dec a : {null_data a} + {~ null_data a}.
Proof. destruct a; cbn; auto. destruct data; auto. Qed.
Lemma defined_dec a : {defined a} + {~ defined a}.
Proof.
  destruct a; cbn; auto.
  - destruct data as [m|]; auto. destruct (Z_le_dec n (zlen m)); auto.
  - destruct s as [m|]; [|right; intros (p & H & _); discriminate H].
    destruct (in_dec_0 m); [left; eauto|right; intros (p & H & Hi); injection H as ->; contradiction].
  - destruct s as [m|]; [|right; intros (p & H & _); discriminate H].
    destruct (in_dec_0 m); [left; eauto|right; intros (p & H & Hi); injection H as ->; contradiction].
Qed.
Lemma good_text_dec a : {good_text a} + {~ good_text a}.
Proof.
  assert (U : forall p, {utf8 p} + {~ utf8 p}).
  { intros p. destruct (from_utf8 p) eqn:E; [left; apply text_from; exact E|].
    right. intros H. apply text_from in H. congruence. }
  destruct a; cbn; auto; destruct s; auto.
Qed.

(** ** decode calls *)
Definition deliver (a : nat) (v : value) (w : world) : world :=
  match v with
  | VBytes p => set_blob w a (Some p)
  | VString p | VError p => set_str w a (Some p)
  | _ => w
  end.
Definition textb (v : value) : bool := match v with VString p | VError p => negb (has_nul p) | _ => true end.
Lemma textb_iff v : textb v = true <-> c_text v.
Proof.
  destruct v; cbn; try tauto; rewrite <- has_nul_iff; destruct (has_nul _); cbn; split; congruence.
Qed.
Lemma accepts_size q b r v : accepts false q b r v ->
  match v with VMap n _ _ | VSlice n _ => 0 <= n < 2 ^ 32 | _ => True end.
Proof.
  intros H. inversion H; subst; try exact I; try (apply Z.mod_pos_bound; reflexivity).
  destruct q; cbn [int_value] in *; try discriminate; match goal with E : Some _ = Some _ |- _ => injection E as <- end; exact I.
Qed.
Lemma dec_any rt a s d c q w : decs w d = Some c -> cursor_ok rt c -> q <> QNone ->
  c_decode rt a (Some s) (Some d) q w =
  match decode rt (asked q) c with
  | ROk v c' => let w' := set_dec w d (Some c') in
      if textb v then CDone SPass (returned a v) (deliver a v w') else CDone SFail (CPtr None) w'
  | RErr _ c' => CDone SFail (nothing_returned q) (set_dec w d (Some c'))
  | RPanic => CAbort
  end.
Proof.
  intros Hd Hc Hq.
  assert (S : forall v c', decode rt (asked q) c = ROk v c' -> match v with VMap n _ _ | VSlice n _ => u32 n = n | _ => True end).
  { intros v c' E. apply dec_rust_ok in E; [|apply asked_ok|exact Hc]. destruct E as (r & HA & _).
    apply accepts_size in HA. destruct v; auto; apply Z.mod_small; exact HA. }
  destruct q; try congruence; cbn [c_decode asked decode] in *; rewrite ?into_number in *;
  unfold polyglot_decode_array, polyglot_decode_map, polyglot_decode_bytes, polyglot_decode_string, polyglot_decode_error,
    polyglot_decode_bool, polyglot_decode_u8, polyglot_decode_u16, polyglot_decode_u32, polyglot_decode_u64,
    polyglot_decode_i32, polyglot_decode_i64, polyglot_decode_f32, polyglot_decode_f64, with_decoder, with_status, pass_num;
  rewrite Hd; unfold rmap in *.
  all: match goal with |- context [match ?x with ROk _ _ => _ | RErr _ _ => _ | RPanic => _ end] => destruct x as [v c'|e c'|] eqn:E end;
    try reflexivity; cbn [rmap returned textb deliver nothing_returned]; cbn zeta.
  - specialize (S _ _ eq_refl). cbn in S. rewrite S. reflexivity.
  - specialize (S _ _ eq_refl). cbn in S. rewrite S. reflexivity.
  - unfold give_string. destruct (has_nul v); reflexivity.
  - unfold give_string. destruct (has_nul v); reflexivity.
Qed.
Lemma dec_none rt a s d c w : decs w d = Some c -> cursor_ok rt c ->
  c_decode rt a (Some s) (Some d) QNone w =
  match decode rt RNil c with
  | ROk _ c' => CDone s (CTruth true) (set_dec w d (Some c'))
  | RErr _ c' => CDone s (CTruth false) (set_dec w d (Some c'))
  | RPanic => CAbort
  end.
Proof.
  intros Hd Hc. cbn [c_decode]. unfold polyglot_decode_none, with_status. rewrite Hd. cbn [decode].
  unfold decode_none. destruct (read_u8 rt InvalidNone c) as [k c'|e c'|]; [|reflexivity|reflexivity].
  destruct (k =? as_u8 KNone); [reflexivity|]. destruct (pos c' <? 1); reflexivity.
Qed.
Lemma dec_null rt a s q w : q <> QNone -> c_decode rt a (Some s) None q w = CDone SNullPointer (nothing_returned q) w.
Proof. intros H. destruct q; try congruence; reflexivity. Qed.
Lemma dec_null_none rt a s w : c_decode rt a (Some s) None QNone w = CUndef.
Proof. reflexivity. Qed.
Lemma dec_null_status rt a d q w : c_decode rt a None d q w = CAbort.
Proof. destruct q; reflexivity. Qed.
Lemma dec_dangling rt a s d q w : decs w d = None -> c_decode rt a (Some s) (Some d) q w = CUndef.
Proof.
  intros E. destruct q; cbn [c_decode];
  unfold polyglot_decode_none, polyglot_decode_array, polyglot_decode_map, polyglot_decode_bytes, polyglot_decode_string, polyglot_decode_error,
    polyglot_decode_bool, polyglot_decode_u8, polyglot_decode_u16, polyglot_decode_u32, polyglot_decode_u64,
    polyglot_decode_i32, polyglot_decode_i64, polyglot_decode_f32, polyglot_decode_f64, with_decoder, with_status;
  rewrite E; reflexivity.
Qed.

(** frames *)
Lemma upd_here {A} (m : nat -> option A) h v : upd m h v h = v.
Proof. unfold upd. destruct (Nat.eq_dec h h); congruence. Qed.
Lemma upd_other {A} (m : nat -> option A) h v x : x <> h -> upd m h v x = m x.
Proof. unfold upd. destruct (Nat.eq_dec x h); congruence. Qed.
Lemma frame_enc w h v : only_enc h w (set_enc w h v).
Proof. split; [intros x Hx; apply upd_other; exact Hx|repeat split]. Qed.
Lemma frame_dec w h v : only_dec h w (set_dec w h v).
Proof. split; [intros x Hx; apply upd_other; exact Hx|repeat split]. Qed.
Lemma frame_deliver a d v x w : only_dec_at d a w (deliver a v (set_dec w d x)).
Proof.
  destruct v; cbn; (split; [intros y Hy; cbn; apply upd_other; exact Hy|]); (split; [reflexivity|]);
  split; intros y Hy; cbn; try reflexivity; apply upd_other; exact Hy.
Qed.
Lemma delivered_deliver a v w : delivered a v (deliver a v w).
Proof. destruct v; cbn; try exact I; apply upd_here. Qed.
Lemma decs_deliver a v w : decs (deliver a v w) = decs w.
Proof. destruct v; reflexivity. Qed.
Lemma encs_deliver a v w : encs (deliver a v w) = encs w.
Proof. destruct v; reflexivity. Qed.

(** ** histories *)
Definition knows (rt : runtime) (w : world) (L : nat -> option bytes) (D : nat -> option cursor) : Prop :=
  (forall h, encs w h = option_map end_of (L h)) /\
  (forall h, decs w h = D h) /\ (forall h c, decs w h = Some c -> cursor_ok rt c).
Lemma enc_outcome s h a w s' r w1 l : encs w h = Some (end_of l) -> carg_ok a ->
  c_encode (Some s) (Some h) a w = CDone s' r w1 ->
  (s' = SPass /\ fine a /\ r = CVoid /\ w1 = set_enc w h (Some (end_of (l ++ wire (meaning a))))) \/
  (s' <> SPass /\ ~ fine a /\ r = CVoid /\ w1 = w).
Proof.
  intros Hh Ho H. assert (Hne : encs w h <> None) by congruence.
  destruct (null_data_dec a) as [N|N].
  { rewrite enc_null_data in H by assumption. injection H as <- <- <-. right.
    repeat split; try discriminate. intros F; apply F; exact N. }
  destruct (defined_dec a) as [Df|Df].
  2:{ rewrite enc_undef in H by assumption. discriminate H. }
  destruct (good_text_dec a) as [G|G].
  - assert (F : fine a) by (repeat split; assumption). rewrite (enc_pass s h l a w Hh F) in H.
    injection H as <- <- <-. left. repeat split; assumption.
  - rewrite enc_fail in H by assumption. injection H as <- <- <-. right.
    repeat split; try discriminate. intros F; apply G, F.
Qed.
Lemma dec_outcome rt a s d q w s' r w1 c : decs w d = Some c -> cursor_ok rt c ->
  c_decode rt a (Some s) (Some d) q w = CDone s' r w1 ->
  exists c', match decode rt (asked q) c with ROk _ c' | RErr _ c' => Some c' | RPanic => None end = Some c' /\
    encs w1 = encs w /\ decs w1 = upd (decs w) d (Some c') /\ cursor_ok rt c'.
Proof.
  intros Hd Hc H. pose proof (dec_keeps_ok rt (asked q) c (asked_ok q) Hc) as K.
  assert (Dq : q = QNone \/ q <> QNone) by (destruct q; auto; right; discriminate).
  destruct Dq as [->|Hq].
  - rewrite (dec_none rt a s d c w Hd Hc) in H. change (asked QNone) with RNil in *.
    destruct (decode rt RNil c) as [v c'|e c'|]; [| |discriminate H]; injection H as <- <- <-; exists c'; auto.
  - rewrite (dec_any rt a s d c q w Hd Hc Hq) in H.
    destruct (decode rt (asked q) c) as [v c'|e c'|]; [| |discriminate H]; cbn zeta in H.
    + destruct (textb v); injection H as <- <- <-; exists c'; rewrite ?encs_deliver, ?decs_deliver; auto.
    + injection H as <- <- <-. exists c'. auto.
Qed.
Lemma step rt a s k w s' r w1 L D : exec rt a s k w = CDone s' r w1 -> call_ok rt (k, s', r) ->
  knows rt w L D -> knows rt w1 (fun h => enc_event h (L h) (k, s', r)) (fun h => dec_event rt h (D h) (k, s', r)).
Proof.
  intros H Ho (HL & HD & HO). unfold call_ok in Ho. cbn [fst] in Ho.
  assert (same : knows rt w L D) by (split; [exact HL|split; [exact HD|exact HO]]).
  destruct k; cbn [exec] in H.
  - (* NewEncoder *) unfold polyglot_new_encoder, with_status in H. injection H as <- <- <-.
    split; [|split; [exact HD|exact HO]]. intros h. cbn. unfold upd.
    destruct (Nat.eq_dec h a) as [->|N]; destruct (Nat.eq_dec a _); try congruence; first [reflexivity|apply HL].
  - (* EncoderSize *) unfold polyglot_encoder_size, with_status in H.
    destruct e as [e|]; [destruct (encs w e); [|discriminate H]|]; injection H as <- <- <-; exact same.
  - (* EncoderBuffer *) unfold polyglot_encoder_buffer, with_status in H.
    destruct e as [e|]; [destruct dst as [m|]|]; try (injection H as <- <- <-; exact same).
    destruct (encs w e) as [c|]; [|discriminate H]. destruct (n <? u32 (zlen (buf c))); [injection H as <- <- <-; exact same|].
    destruct (raw_parts m n); [injection H as <- <- <-; exact same|discriminate H].
  - (* FreeEncoder *) unfold polyglot_free_encoder in H.
    destruct e as [e|]; [destruct (encs w e); [|discriminate H]|]; injection H as <- <- <-; [|exact same].
    split; [|split; [exact HD|exact HO]]. intros h. cbn. unfold upd.
    destruct (Nat.eq_dec h e) as [->|N]; destruct (Nat.eq_dec e _); try congruence; first [reflexivity|apply HL].
  - (* Encode *) destruct e as [e|].
    2:{ rewrite enc_null in H. injection H as <- <- <-. exact same. }
    destruct (L e) as [l|] eqn:El.
    + assert (Hh : encs w e = Some (end_of l)) by (rewrite HL, El; reflexivity).
      destruct (enc_outcome _ _ _ _ _ _ _ _ Hh Ho H) as [(-> & _ & -> & ->)|(N & _ & -> & ->)].
      * split; [|split; [exact HD|exact HO]]. intros h. cbn. unfold upd.
        destruct (Nat.eq_dec h e) as [->|Nh]; destruct (Nat.eq_dec e _) as [Ex|]; try congruence; first [rewrite El; reflexivity|apply HL].
      * destruct s'; [congruence| |]; exact same.
    + assert (Hh : encs w e = None) by (rewrite HL, El; reflexivity).
      destruct (null_data_dec a0) as [N|N].
      2:{ rewrite enc_dangling in H by assumption. discriminate H. }
      destruct a0; cbn in N; try contradiction. destruct data; [contradiction|].
      cbn in H. injection H as <- <- <-. exact same.
  - (* NewDecoder *) unfold polyglot_new_decoder, with_status in H.
    destruct data as [m|]; [|injection H as <- <- <-; exact same].
    destruct (raw_parts m n) as [p|] eqn:R; [|discriminate H]. injection H as <- <- <-.
    unfold raw_parts in R. destruct (zlen m <? n) eqn:E; [discriminate R|]. apply Z.ltb_ge in E. injection R as <-.
    split; [exact HL|]. split.
    + intros h. cbn. unfold upd. destruct (Nat.eq_dec h a) as [->|N]; destruct (Nat.eq_dec a _); try congruence; first [reflexivity|apply HD].
    + intros h c. cbn. unfold upd. destruct (Nat.eq_dec h a) as [->|N]; [|apply HO].
      intros X; injection X as <-. destruct Ho as (Hb & Hi & Hn). unfold cursor_ok. cbn [pos buf].
      split; [pose proof (zlen_nonneg (ztake n m)); lia|]. split; [apply bytes_ok_ztake; exact Hb|].
      apply (int_shorter _ _ m Hi). rewrite zlen_ztake by lia. lia.
  - (* FreeDecoder *) unfold polyglot_free_decoder in H.
    destruct d as [d|]; [destruct (decs w d); [|discriminate H]|]; injection H as <- <- <-; [|exact same].
    split; [exact HL|]. split.
    + intros h. cbn. unfold upd. destruct (Nat.eq_dec h d) as [->|N]; destruct (Nat.eq_dec d _); try congruence; first [reflexivity|apply HD].
    + intros h x. cbn. unfold upd. destruct (Nat.eq_dec h d) as [->|N]; [discriminate|apply HO].
  - (* Decode *) destruct d as [d|].
    2:{ destruct q; cbn in H; try discriminate H; injection H as <- <- <-; exact same. }
    destruct (decs w d) as [c|] eqn:Ed.
    2:{ rewrite dec_dangling in H by exact Ed. discriminate H. }
    destruct (dec_outcome _ _ _ _ _ _ _ _ _ _ Ed (HO _ _ Ed) H) as (c' & Em & E1 & E2 & E3).
    split; [intros h; rewrite E1; apply HL|]. rewrite E2. split.
    + intros h. cbn [dec_event]. unfold upd. destruct (Nat.eq_dec h d) as [->|N]; destruct (Nat.eq_dec d _); try congruence;
        first [rewrite <- HD, Ed; symmetry; exact Em|apply HD].
    + intros h x. unfold upd. destruct (Nat.eq_dec h d) as [->|N]; [intros X; injection X as <-; exact E3|apply HO].
  - (* FreeBytes *) unfold polyglot_free_decode_bytes in H.
    destruct b as [b|]; [destruct (blobs w b) as [p|]; [|discriminate H]; destruct (zlen p =? 1); [|discriminate H]|];
      injection H as <- <- <-; exact same.
  - (* FreeString *) unfold polyglot_free_decode_string in H.
    destruct s0 as [p|]; [destruct (strs w p); [|discriminate H]|]; injection H as <- <- <-; exact same.
Qed.
Lemma history rt w tr w' : runs rt w tr w' -> forall L D, Forall (call_ok rt) tr -> knows rt w L D ->
  knows rt w' (fun h => fold_left (enc_event h) tr (L h)) (fun h => fold_left (dec_event rt h) tr (D h)).
Proof.
  induction 1 as [w|w a k s s' r w1 tr w2 Hf He Hr IH]; intros L D Ho Hk; [exact Hk|].
  inversion Ho; subst. cbn [fold_left]. apply (IH _ _ H2).
  exact (step _ _ _ _ _ _ _ _ _ _ He H1 Hk).
Qed.
Lemma knows_nothing rt : knows rt nothing_yet (fun _ => None) (fun _ => None).
Proof. split; [reflexivity|split; [reflexivity|intros h c H; discriminate H]]. Qed.
Lemma history_from_start rt tr w : runs rt nothing_yet tr w -> Forall (call_ok rt) tr ->
  knows rt w (enc_log tr) (dec_log rt tr).
Proof. intros H Ho. exact (history rt _ tr w H _ _ Ho (knows_nothing rt)). Qed.
(** the call in the middle of a run *)
Lemma runs_middle rt tr1 k s' r tr2 w' : forall w, runs rt w (tr1 ++ (k, s', r) :: tr2) w' ->
  exists w1 a s w2, runs rt w tr1 w1 /\ fresh w1 a /\ exec rt a s k w1 = CDone s' r w2 /\ runs rt w2 tr2 w'.
Proof.
  induction tr1 as [|e tr1 IH]; intros w H; cbn [app] in H.
  - inversion H; subst. exists w. do 3 eexists. split; [constructor|]. split; [eassumption|split; eassumption].
  - inversion H; subst. destruct (IH _ H6) as (u & b & t & v & R1 & F & E & R2).
    exists u, b, t, v. split; [|auto]. econstructor; eassumption.
Qed.
Lemma middle rt tr1 k s' r tr2 w' : runs rt nothing_yet (tr1 ++ (k, s', r) :: tr2) w' ->
  Forall (call_ok rt) (tr1 ++ (k, s', r) :: tr2) ->
  exists w1 a s w2, knows rt w1 (enc_log tr1) (dec_log rt tr1) /\ fresh w1 a /\ exec rt a s k w1 = CDone s' r w2 /\
    call_ok rt (k, s', r).
Proof.
  intros H Ho. destruct (runs_middle _ _ _ _ _ _ _ _ H) as (w1 & a & s & w2 & R & F & E & _).
  exists w1, a, s, w2. apply Forall_app in Ho as [O1 O2]. inversion O2; subst.
  split; [apply history_from_start; assumption|auto].
Qed.

(** ** property lemmas *)
Lemma p_encode_pass s h l a w : encs w h = Some (mkcur l (zlen l)) -> fine a ->
  exists w', c_encode (Some s) (Some h) a w = CDone SPass CVoid w' /\
    encs w' h = Some (mkcur (l ++ wire (meaning a)) (zlen (l ++ wire (meaning a)))) /\ only_enc h w w'.
Proof.
  intros Hh Hf. eexists. split; [exact (enc_pass s h l a w Hh Hf)|]. split; [apply upd_here|apply frame_enc].
Qed.
Lemma p_encode_refused s h l a w : encs w h = Some (mkcur l (zlen l)) -> carg_ok a ->
  (null_data a -> c_encode (Some s) (Some h) a w = CDone SNullPointer CVoid w) /\
  (~ null_data a -> defined a -> ~ good_text a -> c_encode (Some s) (Some h) a w = CDone SFail CVoid w) /\
  (~ defined a -> c_encode (Some s) (Some h) a w = CUndef).
Proof.
  intros Hh Ho. assert (Hne : encs w h <> None) by congruence. split; [|split].
  - apply enc_null_data; exact Hne.
  - apply enc_fail; exact Hne.
  - apply enc_undef; exact Hne.
Qed.
Lemma p_null s a w rt x q : c_encode (Some s) None a w = CDone SNullPointer CVoid w /\
  (q <> QNone -> c_decode rt x (Some s) None q w = CDone SNullPointer (nothing_returned q) w).
Proof. split; [apply enc_null|apply dec_null]. Qed.
Lemma p_null_status e a w rt x d q : c_encode None e a w = CAbort /\ c_decode rt x None d q w = CAbort.
Proof. split; [apply enc_null_status|apply dec_null_status]. Qed.
Lemma p_decode rt a s d c q w : decs w d = Some c -> cursor_ok rt c -> q <> QNone ->
  (forall v c', decode rt (asked q) c = ROk v c' -> c_text v -> exists w',
     c_decode rt a (Some s) (Some d) q w = CDone SPass (returned a v) w' /\
     decs w' d = Some c' /\ delivered a v w' /\ only_dec_at d a w w') /\
  (forall v c', decode rt (asked q) c = ROk v c' -> ~ c_text v -> exists w',
     c_decode rt a (Some s) (Some d) q w = CDone SFail (CPtr None) w' /\ decs w' d = Some c' /\ only_dec d w w') /\
  (forall e c', decode rt (asked q) c = RErr e c' -> exists w',
     c_decode rt a (Some s) (Some d) q w = CDone SFail (nothing_returned q) w' /\ decs w' d = Some c' /\ only_dec d w w') /\
  (decode rt (asked q) c = RPanic -> c_decode rt a (Some s) (Some d) q w = CAbort).
Proof.
  intros Hd Hc Hq. pose proof (dec_any rt a s d c q w Hd Hc Hq) as E.
  split; [|split; [|split]].
  - intros v c' X T. rewrite X in E. cbn zeta in E. rewrite (proj2 (textb_iff v) T) in E.
    eexists. split; [exact E|]. split; [rewrite decs_deliver; apply upd_here|].
    split; [apply delivered_deliver|apply frame_deliver].
  - intros v c' X T. rewrite X in E. cbn zeta in E. destruct (textb v) eqn:B; [apply textb_iff in B; contradiction|].
    eexists. split; [exact E|]. split; [apply upd_here|apply frame_dec].
  - intros e c' X. rewrite X in E. eexists. split; [exact E|]. split; [apply upd_here|apply frame_dec].
  - intros X. rewrite X in E. exact E.
Qed.
Lemma p_decode_pass_iff rt a s d c q w : decs w d = Some c -> cursor_ok rt c -> q <> QNone ->
  (exists r w', c_decode rt a (Some s) (Some d) q w = CDone SPass r w') <->
  (exists t v, accepts false (asked q) (rest c) t v /\ text_ok v /\ c_text v).
Proof.
  intros Hd Hc Hq. rewrite (dec_any rt a s d c q w Hd Hc Hq). split.
  - intros (r & w' & H). destruct (decode rt (asked q) c) as [v c'|e c'|] eqn:E; try discriminate H.
    cbn zeta in H. destruct (textb v) eqn:B; [|discriminate H].
    apply dec_rust_ok in E; [|apply asked_ok|exact Hc]. destruct E as (t & HA & HT & _).
    exists t, v. split; [exact HA|split; [exact HT|apply textb_iff; exact B]].
  - intros (t & v & HA & HT & HC).
    assert (E : decode rt (asked q) c = ROk v (at_rest c t)).
    { apply dec_rust_ok; [apply asked_ok|exact Hc|]. exists t; auto. }
    rewrite E. cbn zeta. rewrite (proj2 (textb_iff v) HC). eauto.
Qed.
Lemma p_none rt a s d c w : decs w d = Some c -> cursor_ok rt c ->
  exists w', c_decode rt a (Some s) (Some d) QNone w =
      CDone s (CTruth (match rest c with x :: _ => x =? 0 | [] => false end)) w' /\ only_dec d w w' /\
    decs w' d = Some (mkcur (buf c) (pos c + match rest c with x :: _ => if x =? 0 then 1 else 0 | [] => 0 end)).
Proof.
  intros Hd Hc. rewrite (dec_none rt a s d c w Hd Hc).
  assert (P := Hc). destruct P as (Hp & _ & _). cbn [decode].
  assert (Er : zlen (rest c) = zlen (buf c) - pos c) by (unfold rest; rewrite zlen_zdrop by lia; lia).
  destruct (decode_none rt c) as [b c'|e c'|] eqn:E; unfold decode_none, read_u8, read_exact in E;
    rewrite (Z.min_l (pos c) (zlen (buf c))) in E by lia; change (zdrop (pos c) (buf c)) with (rest c) in E;
    destruct (rest c) as [|x t] eqn:R.
  - change (1 <=? zlen (@nil Z)) with false in E. cbn in E.
    rewrite zlen_nil in Er.
    assert (Ec : c' = mkcur (buf c) (pos c + 0)).
    { rewrite Z.add_0_r. destruct (eof rt); injection E as _ <-; [f_equal; lia|destruct c; reflexivity]. }
    assert (b = false) as -> by (destruct (eof rt); injection E as <- _; reflexivity).
    subst c'. eexists. split; [reflexivity|]. split; [apply frame_dec|apply upd_here].
  - assert (L : 1 <=? zlen (x :: t) = true) by (rewrite zlen_cons; pose proof (zlen_nonneg t); apply Z.leb_le; lia).
    rewrite L in E. change (ztake 1 (x :: t)) with [x] in E. cbn in E.
    destruct (x =? 0) eqn:X.
    + injection E as <- <-. eexists. split; [reflexivity|]. split; [apply frame_dec|apply upd_here].
    + destruct (pos c + 1 <? 1) eqn:Q; [discriminate E|]. injection E as <- <-.
      eexists. split; [reflexivity|]. split; [apply frame_dec|]. cbn. rewrite upd_here. do 2 f_equal. lia.
  - change (1 <=? zlen (@nil Z)) with false in E. discriminate E.
  - assert (L : 1 <=? zlen (x :: t) = true) by (rewrite zlen_cons; pose proof (zlen_nonneg t); apply Z.leb_le; lia).
    rewrite L in E. change (ztake 1 (x :: t)) with [x] in E. cbn in E.
    destruct (x =? 0); [discriminate E|]. destruct (pos c + 1 <? 1); discriminate E.
  - change (1 <=? zlen (@nil Z)) with false in E. discriminate E.
  - assert (L : 1 <=? zlen (x :: t) = true) by (rewrite zlen_cons; pose proof (zlen_nonneg t); apply Z.leb_le; lia).
    rewrite L in E. change (ztake 1 (x :: t)) with [x] in E. cbn in E.
    destruct (x =? 0); [discriminate E|]. destruct (pos c + 1 <? 1) eqn:Q; [apply Z.ltb_lt in Q; lia|discriminate E].
Qed.
Lemma p_round_trip rt x s h s' d l r w w1 a : encs w h = Some (mkcur l (zlen l)) -> fine a ->
  c_encode (Some s) (Some h) a w = CDone SPass CVoid w1 ->
  bytes_ok (l ++ wire (meaning a) ++ r) -> int_ok (W rt) (l ++ wire (meaning a) ++ r) ->
  (exists c, encs w1 h = Some c /\ buf c = l ++ wire (meaning a)) /\
  (forall u, decs u d = Some (mkcur (l ++ wire (meaning a) ++ r) (zlen l)) -> exists u',
    c_decode rt x (Some s') (Some d) (ask a) u =
      CDone (match a with ANone => s' | _ => SPass end) (returned x (meaning a)) u' /\
    delivered x (meaning a) u' /\
    decs u' d = Some (mkcur (l ++ wire (meaning a) ++ r) (zlen (l ++ wire (meaning a))))).
Proof.
  intros Hh Hf He Hb Hi. destruct (p_encode_pass s h l a w Hh Hf) as (w' & E & E2 & _).
  rewrite E in He. injection He as <-. split; [eexists; split; [exact E2|reflexivity]|].
  intros u Hu. destruct (fine_valid a Hf) as (Hv & Hw & Ht).
  assert (Hc : cursor_ok rt (mkcur (l ++ wire (meaning a) ++ r) (zlen l))).
  { split; [|split; assumption]. cbn [pos buf]. rewrite zlen_app. pose proof (zlen_nonneg l).
    pose proof (zlen_nonneg (wire (meaning a) ++ r)). lia. }
  pose proof (dec_wire rt l (meaning a) r Hv Hc) as D. rewrite Hw in D.
  rewrite (zlen_app l (wire (meaning a))).
  assert (Dq : a = ANone \/ ask a <> QNone) by (destruct a; auto; right; discriminate).
  destruct Dq as [->|Hq].
  - cbn [ask]. rewrite (dec_none rt x s' d _ u Hu Hc). cbn [ask asked] in D. rewrite D.
    eexists. split; [reflexivity|]. split; [exact I|apply upd_here].
  - destruct (p_decode rt x s' d _ _ u Hu Hc Hq) as (P & _).
    destruct (P _ _ D Ht) as (u' & R1 & R2 & R3 & _). exists u'.
    split; [|split; assumption]. rewrite R1. destruct a; try reflexivity. cbn in Hq. congruence.
Qed.

Lemma p_history rt tr w : runs rt nothing_yet tr w -> Forall (call_ok rt) tr ->
  (forall h, encs w h = match enc_log tr h with Some l => Some (mkcur l (zlen l)) | None => None end) /\
  (forall d, decs w d = dec_log rt tr d).
Proof. intros H Ho. destruct (history_from_start rt tr w H Ho) as (HL & HD & _). split; [exact HL|exact HD]. Qed.
Lemma p_history_encode rt tr1 h a s r tr2 w :
  runs rt nothing_yet (tr1 ++ (Encode (Some h) a, s, r) :: tr2) w ->
  Forall (call_ok rt) (tr1 ++ (Encode (Some h) a, s, r) :: tr2) ->
  s = SPass <-> (fine a /\ enc_log tr1 h <> None).
Proof.
  intros H Ho. destruct (middle _ _ _ _ _ _ _ H Ho) as (w1 & x & t & w2 & (HL & _) & _ & E & Oa).
  cbn [exec] in E. unfold call_ok in Oa. cbn in Oa. specialize (HL h).
  destruct (enc_log tr1 h) as [l|].
  - destruct (enc_outcome _ _ _ _ _ _ _ _ HL Oa E) as [(-> & F & _)|(N & F & _)].
    + split; [intros _; split; [exact F|discriminate]|auto].
    + split; [congruence|intros [F' _]; contradiction].
  - split; [|intros [_ N]; congruence]. intros ->. cbn in HL.
    destruct (null_data_dec a) as [N|N]; [|rewrite enc_dangling in E by assumption; discriminate E].
    destruct a; cbn in N; try contradiction. destruct data; [contradiction|]. cbn in E. discriminate E.
Qed.
Lemma p_history_size rt tr1 h s r tr2 w :
  runs rt nothing_yet (tr1 ++ (EncoderSize (Some h), s, r) :: tr2) w ->
  Forall (call_ok rt) (tr1 ++ (EncoderSize (Some h), s, r) :: tr2) ->
  exists l, enc_log tr1 h = Some l /\ r = CNum (zlen l mod 2 ^ 32).
Proof.
  intros H Ho. destruct (middle _ _ _ _ _ _ _ H Ho) as (w1 & x & t & w2 & (HL & _) & _ & E & _).
  cbn [exec] in E. unfold polyglot_encoder_size, with_status in E. rewrite HL in E.
  destruct (enc_log tr1 h) as [l|]; cbn in E; [|discriminate E]. exists l. split; [reflexivity|].
  injection E as _ <- _. reflexivity.
Qed.
Lemma p_history_buffer rt tr1 h m n s r tr2 w :
  runs rt nothing_yet (tr1 ++ (EncoderBuffer (Some h) (Some m) n, s, r) :: tr2) w ->
  Forall (call_ok rt) (tr1 ++ (EncoderBuffer (Some h) (Some m) n, s, r) :: tr2) ->
  exists l, enc_log tr1 h = Some l /\
    (zlen l < 2 ^ 32 ->
     (s = SPass <-> zlen l <= n) /\ s <> SNullPointer /\
     r = CMem (if zlen l <=? n then l ++ zdrop (zlen l) m else m)).
Proof.
  intros H Ho. destruct (middle _ _ _ _ _ _ _ H Ho) as (w1 & x & t & w2 & (HL & _) & _ & E & _).
  cbn [exec] in E. unfold polyglot_encoder_buffer, with_status in E. rewrite HL in E.
  destruct (enc_log tr1 h) as [l|]; cbn [option_map] in E; [|discriminate E]. exists l. split; [reflexivity|].
  intros Hl. unfold end_of in E. cbn [buf] in E. unfold u32 in E. pose proof (zlen_nonneg l).
  rewrite Z.mod_small in E by lia.
  destruct (n <? zlen l) eqn:C.
  - apply Z.ltb_lt in C. injection E as <- <- _. split; [split; [discriminate|lia]|]. split; [discriminate|].
    destruct (zlen l <=? n) eqn:C2; [apply Z.leb_le in C2; lia|reflexivity].
  - apply Z.ltb_ge in C. destruct (raw_parts m n); [|discriminate E]. rewrite Z.min_r in E by lia.
    rewrite ztake_all in E by lia. injection E as <- <- _. split; [tauto|]. split; [discriminate|].
    destruct (zlen l <=? n) eqn:C2; [reflexivity|apply Z.leb_gt in C2; lia].
Qed.
Lemma p_history_decode rt tr1 d q s r tr2 w :
  runs rt nothing_yet (tr1 ++ (Decode (Some d) q, s, r) :: tr2) w ->
  Forall (call_ok rt) (tr1 ++ (Decode (Some d) q, s, r) :: tr2) -> q <> QNone ->
  exists c, dec_log rt tr1 d = Some c /\ cursor_ok rt c /\ decode rt (asked q) c <> RPanic /\ s <> SNullPointer /\
    (s = SPass <-> exists v c', decode rt (asked q) c = ROk v c' /\ c_text v) /\
    (s <> SPass -> r = nothing_returned q) /\
    (forall v c', decode rt (asked q) c = ROk v c' -> c_text v -> exists a, r = returned a v).
Proof.
  intros H Ho Hq. destruct (middle _ _ _ _ _ _ _ H Ho) as (w1 & x & t & w2 & (_ & HD & HC) & _ & E & _).
  cbn [exec] in E. destruct (decs w1 d) as [c|] eqn:Ed; [|rewrite dec_dangling in E by exact Ed; discriminate E].
  pose proof (HC d c Ed) as Hc. exists c. split; [rewrite <- HD; exact Ed|]. split; [exact Hc|].
  rewrite (dec_any rt x t d c q w1 Ed Hc Hq) in E.
  destruct (decode rt (asked q) c) as [v c'|e c'|] eqn:X; [| |discriminate E]; cbn zeta in E; split; try discriminate.
  - destruct (textb v) eqn:B.
    + apply textb_iff in B. injection E as <- <- _. split; [discriminate|]. split; [split; eauto|].
      split; [congruence|]. intros v0 c0 Y _. injection Y as <- <-. eauto.
    + assert (Bn : ~ c_text v) by (rewrite <- textb_iff; congruence).
      injection E as <- <- _. split; [discriminate|]. split.
      * split; [discriminate|]. intros (v0 & c0 & Y & T). injection Y as <- <-. contradiction.
      * split; [|intros v0 c0 Y T; injection Y as <- <-; contradiction]. intros _.
        assert (F := X). apply dec_rust_ok in F; [|apply asked_ok|exact Hc]. destruct F as (y & HA & _).
        destruct q; try reflexivity; try congruence; inversion HA; subst; cbn [textb] in B; discriminate B || (cbn in *; congruence) ||
          (match goal with Y : int_value _ _ = Some _ |- _ => cbn in Y; injection Y as <- end; discriminate B).
  - injection E as <- <- _. split; [discriminate|]. split; [split; [discriminate|intros (v0 & c0 & Y & T); discriminate Y]|].
    split; [reflexivity|discriminate].
Qed.

(** ** exporting *)
Lemma p_buffer s e c m n w : encs w e = Some c -> zlen (buf c) < 2 ^ 32 ->
  (n < zlen (buf c) -> polyglot_encoder_buffer (Some s) (Some e) (Some m) n w = CDone SFail (CMem m) w) /\
  (zlen (buf c) <= n <= zlen m ->
     polyglot_encoder_buffer (Some s) (Some e) (Some m) n w =
     CDone SPass (CMem (buf c ++ zdrop (zlen (buf c)) m)) w) /\
  (zlen (buf c) <= n -> zlen m < n -> polyglot_encoder_buffer (Some s) (Some e) (Some m) n w = CUndef).
Proof.
  intros He Hl. unfold polyglot_encoder_buffer, with_status. rewrite He. unfold u32.
  pose proof (zlen_nonneg (buf c)). rewrite Z.mod_small by lia. split; [|split]; intros.
  - destruct (n <? zlen (buf c)) eqn:E; [reflexivity|apply Z.ltb_ge in E; lia].
  - destruct (n <? zlen (buf c)) eqn:E; [apply Z.ltb_lt in E; lia|].
    rewrite raw_some by lia. rewrite Z.min_r by lia. rewrite ztake_all by lia. reflexivity.
  - destruct (n <? zlen (buf c)) eqn:E; [apply Z.ltb_lt in E; lia|]. rewrite raw_none by lia. reflexivity.
Qed.
Lemma p_buffer_huge s e c w : encs w e = Some c -> zlen (buf c) = 2 ^ 32 ->
  polyglot_encoder_size (Some s) (Some e) w = CDone s (CNum 0) w /\
  polyglot_encoder_buffer (Some s) (Some e) (Some []) 0 w = CDone SPass (CMem []) w.
Proof.
  intros He Hl. unfold polyglot_encoder_size, polyglot_encoder_buffer, with_status. rewrite He. unfold u32. rewrite Hl.
  rewrite Z_mod_same_full. split; [reflexivity|]. change (0 <? 0) with false. cbn iota.
  rewrite raw_some by (change (zlen (@nil Z)) with 0; lia). rewrite Z.min_l by lia. reflexivity.
Qed.
Lemma huge_exists : exists c, zlen (buf c) = 2 ^ 32.
Proof.
  exists (mkcur (repeat 0 (Z.to_nat (2 ^ 32))) 0). cbn [buf]. unfold zlen. rewrite repeat_length.
  apply Z2Nat.id. lia.
Qed.
(** ** freeing *)
Lemma p_free_bytes b p s w : blobs w b = Some p ->
  (polyglot_free_decode_bytes (Some b) s w <> CUndef <-> zlen p = 1) /\
  (zlen p = 1 -> exists w', polyglot_free_decode_bytes (Some b) s w = CDone s CVoid w' /\ blobs w' b = None /\
     same_but b (blobs w) (blobs w') /\ encs w' = encs w /\ decs w' = decs w /\ strs w' = strs w).
Proof.
  intros H. unfold polyglot_free_decode_bytes. rewrite H. destruct (zlen p =? 1) eqn:E.
  - apply Z.eqb_eq in E. split; [split; [auto|discriminate]|]. intros _. eexists. split; [reflexivity|].
    split; [apply upd_here|]. split; [intros x Hx; apply upd_other; exact Hx|repeat split].
  - apply Z.eqb_neq in E. split; [split; [congruence|contradiction]|contradiction].
Qed.
Lemma p_free_string a p s w : strs w a = Some p ->
  exists w', polyglot_free_decode_string (Some a) s w = CDone s CVoid w' /\ strs w' a = None /\
     same_but a (strs w) (strs w') /\ encs w' = encs w /\ decs w' = decs w /\ blobs w' = blobs w /\
     polyglot_free_decode_string (Some a) s w' = CUndef.
Proof.
  intros H. unfold polyglot_free_decode_string. rewrite H. eexists. split; [reflexivity|].
  split; [apply upd_here|]. split; [intros x Hx; apply upd_other; exact Hx|].
  cbn. rewrite upd_here. repeat split.
Qed.
(** live results: contents do not change until freed *)
Lemma exec_keeps rt a s k w s' r w1 : fresh w a -> exec rt a s k w = CDone s' r w1 ->
  (forall b p, blobs w b = Some p -> k <> FreeBytes (Some b) -> blobs w1 b = Some p) /\
  (forall b p, strs w b = Some p -> k <> FreeString (Some b) -> strs w1 b = Some p).
Proof.
  intros (F1 & F2 & F3 & F4) H. destruct k; cbn [exec] in H.
  - injection H as <- <- <-. split; auto.
  - unfold polyglot_encoder_size, with_status in H.
    destruct e as [e|]; [destruct (encs w e); [|discriminate H]|]; injection H as <- <- <-; auto.
  - unfold polyglot_encoder_buffer, with_status in H.
    destruct e as [e|]; [destruct dst as [m|]|]; try (injection H as <- <- <-; auto).
    destruct (encs w e) as [c|]; [|discriminate H]. destruct (n <? u32 (zlen (buf c))); [injection H as <- <- <-; auto|].
    destruct (raw_parts m n); [injection H as <- <- <-; auto|discriminate H].
  - unfold polyglot_free_encoder in H.
    destruct e as [e|]; [destruct (encs w e); [|discriminate H]|]; injection H as <- <- <-; auto.
  - assert (X : blobs w1 = blobs w /\ strs w1 = strs w).
    { destruct e as [e|]; [|rewrite enc_null in H; injection H as <- <- <-; auto].
      destruct a0; cbn [c_encode] in H;
      unfold polyglot_encode_none, polyglot_encode_array, polyglot_encode_map, polyglot_encode_bool,
      polyglot_encode_u8, polyglot_encode_u16, polyglot_encode_u32, polyglot_encode_u64, polyglot_encode_i32,
      polyglot_encode_i64, polyglot_encode_f32, polyglot_encode_f64, polyglot_encode_bytes, polyglot_encode_string,
      polyglot_encode_error, with_encoder, with_status, ran in H;
      repeat match type of H with context [match ?x with _ => _ end] => destruct x; try discriminate H end;
      injection H as <- <- <-; auto. }
    destruct X as [-> ->]. auto.
  - unfold polyglot_new_decoder, with_status in H. destruct data as [m|]; [|injection H as <- <- <-; auto].
    destruct (raw_parts m n); [|discriminate H]. injection H as <- <- <-. auto.
  - unfold polyglot_free_decoder in H.
    destruct d as [d|]; [destruct (decs w d); [|discriminate H]|]; injection H as <- <- <-; auto.
  - assert (X : forall y, y <> a -> blobs w1 y = blobs w y /\ strs w1 y = strs w y).
    { destruct d as [d|].
      2:{ destruct q; cbn in H; try discriminate H; injection H as <- <- <-; auto. }
      destruct q; cbn [c_decode] in H;
      unfold polyglot_decode_none, polyglot_decode_array, polyglot_decode_map, polyglot_decode_bytes, polyglot_decode_string, polyglot_decode_error,
       polyglot_decode_bool, polyglot_decode_u8, polyglot_decode_u16, polyglot_decode_u32, polyglot_decode_u64,
       polyglot_decode_i32, polyglot_decode_i64, polyglot_decode_f32, polyglot_decode_f64, with_decoder, with_status, pass_num, give_string in H;
      (destruct (decs w d) as [c|]; [|discriminate H]);
      repeat match type of H with context [match ?x with _ => _ end] => destruct x; try discriminate H end;
      injection H as <- <- <-; intros y Hy; split; cbn; rewrite ?upd_other by exact Hy; reflexivity. }
    split; intros b p Hb _; (destruct (Nat.eq_dec b a) as [->|N]; [congruence|]); destruct (X b N) as [X1 X2]; congruence.
  - unfold polyglot_free_decode_bytes in H.
    destruct b as [b|]; [destruct (blobs w b) as [p|]; [|discriminate H]; destruct (zlen p =? 1); [|discriminate H]|];
      injection H as <- <- <-; auto.
    split; [|auto]. intros x q Hx N. cbn. rewrite upd_other; [exact Hx|]. intros ->. congruence.
  - unfold polyglot_free_decode_string in H.
    destruct s0 as [p|]; [destruct (strs w p); [|discriminate H]|]; injection H as <- <- <-; auto.
    split; [auto|]. intros x q Hx N. cbn. rewrite upd_other; [exact Hx|]. intros ->. congruence.
Qed.
Lemma p_results_stable rt w tr w' : runs rt w tr w' -> forall b p,
  (blobs w b = Some p -> (forall s r, ~ In (FreeBytes (Some b), s, r) tr) -> blobs w' b = Some p) /\
  (strs w b = Some p -> (forall s r, ~ In (FreeString (Some b), s, r) tr) -> strs w' b = Some p).
Proof.
  induction 1 as [w|w a k s s' r w1 tr w2 Hf He Hr IH]; intros b p; [auto|].
  destruct (exec_keeps _ _ _ _ _ _ _ _ Hf He) as [K1 K2]. destruct (IH b p) as [I1 I2]. split; intros Hb Hn.
  - apply I1; [apply K1; [exact Hb|]|]; [intros ->; apply (Hn s' r); left; reflexivity|].
    intros s0 r0 Hi. apply (Hn s0 r0). right. exact Hi.
  - apply I2; [apply K2; [exact Hb|]|]; [intros ->; apply (Hn s' r); left; reflexivity|].
    intros s0 r0 Hi. apply (Hn s0 r0). right. exact Hi.
Qed.
