(** Encoder theorems (C38, C39, C52). *)
From Verif Require Import Base Spec SpecProofs Utf8 TsModel TsSpec TsEnc.

(** ** text *)
Lemma scalars_ok n : forall u, (length u <= n)%nat -> js_string u -> Forall scalar_value (scalars u).
Proof.
  induction n as [|n IH]; intros u Hn Hu; destruct u as [|a u1]; cbn [length] in Hn; try lia;
    try constructor.
  inversion Hu as [|? ? Ha Hu1]; subst. cbn [scalars].
  destruct (Z.ltb_spec a 0xD800), (Z.ltb_spec 0xDFFF a); cbn [orb];
    try (constructor; [unfold scalar_value; lia|apply IH; [lia|assumption]]).
  destruct (Z.ltb_spec 0xDBFF a).
  { constructor; [unfold scalar_value; lia|apply IH; [lia|assumption]]. }
  destruct u1 as [|b u2].
  { constructor; [unfold scalar_value; lia|constructor]. }
  destruct (Z.leb_spec 0xDC00 b), (Z.leb_spec b 0xDFFF); cbn [andb];
    try (constructor; [unfold scalar_value; lia|apply IH; [lia|assumption]]).
  inversion Hu1; subst. constructor; [unfold scalar_value; lia|]. apply IH; [cbn [length] in Hn; lia|assumption].
Qed.
Lemma text_encode_utf8 u : js_string u -> utf8 (text_encode u).
Proof. intros H. exists (scalars u). split; [eapply scalars_ok; eauto|reflexivity]. Qed.

Lemma js32_ok e b : engine_ok e -> 0 <= b < 2 ^ 32 -> 0 <= js32 e b < 2 ^ 32.
Proof. intros [H _] Hb. unfold js32. destruct (isnan32 b) eqn:E; [apply H; exact E|exact Hb]. Qed.
Lemma js64_ok e b : engine_ok e -> 0 <= b < 2 ^ 64 -> 0 <= js64 e b < 2 ^ 64.
Proof. intros [_ H] Hb. unfold js64. destruct (isnan64 b) eqn:E; [apply H; exact E|exact Hb]. Qed.
Lemma value_of_valid e v w : engine_ok e -> js_ok v -> value_of e v = Some w -> valid w.
Proof.
  intros He Hv E. destruct v; cbn [value_of js_ok] in *; inversion E; subst; cbn [valid]; auto;
    try (apply js32_ok; assumption); try (apply js64_ok; assumption);
    (destruct Hv as [Hu Hl]; split; [apply utf8_bytes_ok, text_encode_utf8; exact Hu|exact Hl]).
Qed.
Lemma twire_ok e v : engine_ok e -> js_ok v -> bytes_ok (twire e v).
Proof.
  intros He Hv. unfold twire. destruct (value_of e v) eqn:E.
  - apply wire_ok. eapply value_of_valid; eauto.
  - repeat constructor; unfold isbyte; lia.
Qed.
Lemma parts_wire e v : concat (map snd (parts e v)) = twire e v.
Proof.
  destruct v; cbn [parts map concat snd]; unfold twire; cbn [value_of wire app];
    rewrite ?app_nil_r; reflexivity.
Qed.
Lemma parts_ok e v : engine_ok e -> js_ok v -> Forall (fun mp => bytes_ok (snd mp)) (parts e v).
Proof.
  intros He Hv. pose proof (twire_ok e v He Hv) as H. rewrite <- parts_wire in H.
  induction (parts e v) as [|[m p] ps IH]; constructor; cbn [map concat snd] in *;
    apply bytes_ok_app in H; [tauto|apply IH; tauto].
Qed.

(** ** one part *)
Lemma write_holds m p s b : holds s b -> bytes_ok p ->
  pos s + zlen p <= fst (regrow (room_of s) (pos s) m) ->
  holds (puts p (resize m s)) (b ++ p) /\
  room_of (puts p (resize m s)) = regrow (room_of s) (pos s) m /\
  pos (puts p (resize m s)) = pos s + zlen p.
Proof.
  intros H Hp Hl. pose proof (resize_geo m s (holds_wf s b H)) as (Hw & Hpos & Hr).
  pose proof (puts_geo p (resize m s) Hw) as (_ & Hpos' & Hr' & _).
  rewrite Hr' , Hpos', Hpos, Hr. split; [|auto].
  apply puts_holds; [apply resize_holds; exact H| |exact Hp].
  rewrite Hpos. rewrite <- Hr in Hl. exact Hl.
Qed.
Lemma write_geo m p s : wf s ->
  wf (puts p (resize m s)) /\ pos (puts p (resize m s)) = pos s + zlen p /\
  room_of (puts p (resize m s)) = regrow (room_of s) (pos s) m.
Proof.
  intros H. pose proof (resize_geo m s H) as (Hw & Hpos & Hr).
  pose proof (puts_geo p (resize m s) Hw) as (Hw' & Hpos' & Hr' & _).
  rewrite Hpos', Hr', Hpos, Hr. auto.
Qed.
Definition writes (ps : list (Z * bytes)) (s : enc) : enc :=
  fold_left (fun s mp => puts (snd mp) (resize (fst mp) s)) ps s.
Fixpoint room_after (c : room) (at_ : Z) (ps : list (Z * bytes)) : room :=
  match ps with [] => c | (m, p) :: ps => room_after (regrow c at_ m) (at_ + zlen p) ps end.
Lemma writes_holds ps : forall s b, holds s b -> Forall (fun mp => bytes_ok (snd mp)) ps ->
  fits (room_of s) (pos s) ps = true ->
  holds (writes ps s) (b ++ concat (map snd ps)) /\
  room_of (writes ps s) = room_after (room_of s) (pos s) ps /\
  pos (writes ps s) = pos s + zlen (concat (map snd ps)).
Proof.
  induction ps as [|[m p] ps IH]; intros s b H Hps Hf.
  { cbn. rewrite app_nil_r. change (zlen (@nil Z)) with 0. rewrite Z.add_0_r. auto. }
  inversion Hps; subst. cbn [fits] in Hf. apply andb_prop in Hf as [Hf1 Hf2].
  destruct (write_holds m p s b H ltac:(assumption) ltac:(lia)) as (A & B & C).
  cbn [writes fold_left fst snd]. destruct (IH _ _ A ltac:(assumption)) as (A' & B' & C').
  { rewrite B, C. exact Hf2. }
  unfold writes in *. cbn [map concat snd]. rewrite B', C', B, C, zlen_app.
  cbn [room_after]. rewrite app_assoc. split; [exact A'|]. split; [reflexivity|lia].
Qed.

(** ** every call is its parts *)
Lemma two_writes m p m' q s : puts q (resize m' (puts p (resize m s))) = writes [(m, p); (m', q)] s.
Proof. reflexivity. Qed.
Lemma zlen_text u : 0 <= zlen (text_encode u). Proof. apply zlen_nonneg. Qed.
Lemma encode_atomic e v s : silent v -> js_ok v -> ts_encode e v s = EOk (writes (parts e v) s).
Proof.
  intros Ha Hv. destruct v; cbn [silent js_ok] in *; try contradiction;
    cbn [ts_encode parts]; unfold twire; cbn [value_of wire].
  - reflexivity.
  - reflexivity.
  - unfold ts_boolean. rewrite puts_two. reflexivity.
  - apply ts_varint_ok. lia.
  - apply ts_varint_ok. exact Hv.
  - apply ts_varintBig_ok. exact Hv.
  - apply ts_varint_signed. exact Hv.
  - apply ts_varintBig_signed. exact Hv.
  - unfold ts_array. rewrite puts_two. unfold ts_uint32. rewrite ts_varint_ok by tauto. reflexivity.
  - unfold ts_map. rewrite puts_three. unfold ts_uint32. rewrite ts_varint_ok by tauto. reflexivity.
Qed.
(** the payload step of bytes, string and error *)
Lemma encode_payload p s1 : wf s1 -> payload_ok p ->
  (ts_uint32 (zlen p) s1 >>> fun s => set p (pos s) s >>> fun s => EOk (advance (zlen p) s))
  = let s2 := puts (wire (VU32 (zlen p))) (resize 5 s1) in
    if pos s2 + zlen p <=? blen s2 then EOk (writes [(5, wire (VU32 (zlen p)) ++ p)] s1) else EThrow s2.
Proof.
  intros H Hp. unfold ts_uint32. rewrite ts_varint_ok by (apply payload_len; exact Hp).
  cbn [ebind wire]. cbn zeta. rewrite set_puts.
  - cbn [writes fold_left fst snd]. rewrite puts_app. reflexivity.
  - apply write_geo. exact H.
  - apply Hp.
Qed.

(** The outcome of a call. *)
Lemma room_blen s s' c : room_of s = c -> room_of s' = c -> blen s = blen s'.
Proof. unfold room_of. intros <- E. inversion E. reflexivity. Qed.

Lemma encode_fits e v s b : engine_ok e -> js_ok v -> holds s b ->
  fits (room_of s) (pos s) (parts e v) = true ->
  ts_encode e v s = EOk (writes (parts e v) s).
Proof.
  intros He Hv H Hf. pose proof (holds_wf s b H) as Hw.
  assert (FX : forall m k p, bytes_ok p -> pos s + (1 + zlen p) <= fst (regrow (room_of s) (pos s) m) ->
     fixed m k p s = EOk (writes [(m, k :: p)] s)).
  { intros m k p Hp Hl. rewrite fixed_ok by assumption. cbn zeta.
    pose proof (write_geo m [k] s Hw) as (A & B & C). change (zlen [k]) with 1 in B.
    replace (blen (puts [k] (resize m s))) with (fst (regrow (room_of s) (pos s) m)) by (rewrite <- C; reflexivity).
    rewrite B. destruct (Z.leb_spec (pos s + 1 + zlen p) (fst (regrow (room_of s) (pos s) m))); [|lia].
    rewrite <- puts_app. reflexivity. }
  assert (PL : forall p m h, payload_ok p -> bytes_ok h ->
     fits (room_of s) (pos s) [(m, h); (5, wire (VU32 (zlen p)) ++ p)] = true ->
     (ts_uint32 (zlen p) (puts h (resize m s)) >>> fun s => set p (pos s) s >>> fun s => EOk (advance (zlen p) s))
     = EOk (writes [(m, h); (5, wire (VU32 (zlen p)) ++ p)] s)).
  { intros p m h Hp Hh Hl. pose proof (write_geo m h s Hw) as (A & B & C).
    rewrite encode_payload by assumption. cbn zeta.
    pose proof (write_geo 5 (wire (VU32 (zlen p))) (puts h (resize m s)) A) as (A' & B' & C').
    cbn [fits] in Hl. apply andb_prop in Hl as [_ Hl]. apply andb_prop in Hl as [Hl _].
    rewrite <- C, <- B in Hl. rewrite <- C' in Hl. rewrite zlen_app in Hl.
    match goal with |- (if ?x <=? ?y then _ else _) = _ => destruct (Z.leb_spec x y) as [|Hx] end;
      [reflexivity|]. exfalso. rewrite B' in Hx. unfold room_of in Hl. cbn [fst] in Hl. lia. }
  assert (K : forall k, isbyte k -> bytes_ok [k]) by (intros; repeat constructor; apply H0).
  destruct v; try (apply encode_atomic; [exact I|exact Hv]); cbn [ts_encode parts] in *;
    unfold twire in *; cbn [value_of wire] in *.
  - cbn [js_ok] in Hv. unfold ts_uint8. rewrite Z.mod_small by exact Hv. apply FX.
    + repeat constructor; unfold isbyte; lia.
    + cbn [fits] in Hf. rewrite andb_true_r in Hf. change (zlen [8; n]) with 2 in Hf. change (zlen [n]) with 1. lia.
  - apply FX; [apply be4_ok|]. cbn [fits] in Hf. rewrite andb_true_r in Hf.
    rewrite zlen_cons in Hf. lia.
  - apply FX; [apply be8_ok|]. cbn [fits] in Hf. rewrite andb_true_r in Hf.
    rewrite zlen_cons in Hf. lia.
  - unfold ts_uint8Array. cbn zeta. apply (PL p (5 + zlen p) [4]); [exact Hv|apply K; unfold isbyte; lia|exact Hf].
  - assert (payload_ok (text_encode u)) by (split; [apply utf8_bytes_ok, text_encode_utf8; apply Hv|apply Hv]).
    unfold ts_string. cbn zeta. apply (PL (text_encode u) (5 + zlen (text_encode u)) [5]); [assumption|apply K; unfold isbyte; lia|exact Hf].
  - assert (payload_ok (text_encode u)) by (split; [apply utf8_bytes_ok, text_encode_utf8; apply Hv|apply Hv]).
    unfold ts_error. cbn zeta. rewrite puts_two.
    apply (PL (text_encode u) (6 + zlen (text_encode u)) [6; 5]); [assumption| |exact Hf].
    repeat constructor; unfold isbyte; lia.
Qed.

Lemma fits_app ps : forall qs c a, fits c a (ps ++ qs) =
  fits c a ps && fits (room_after c a ps) (a + zlen (concat (map snd ps))) qs.
Proof.
  induction ps as [|[m p] ps IH]; intros qs c a; cbn [app fits room_after map concat snd].
  - rewrite zlen_nil, Z.add_0_r. reflexivity.
  - rewrite IH, zlen_app, andb_assoc, Z.add_assoc. reflexivity.
Qed.

Lemma room_after_app ps : forall qs c a, room_after c a (ps ++ qs) =
  room_after (room_after c a ps) (a + zlen (concat (map snd ps))) qs.
Proof.
  induction ps as [|[m p] ps IH]; intros qs c a; cbn [app room_after map concat snd].
  - rewrite zlen_nil, Z.add_0_r. reflexivity.
  - rewrite IH, zlen_app, Z.add_assoc. reflexivity.
Qed.

Theorem encode_all_fits e vs : forall s b, engine_ok e -> Forall js_ok vs -> holds s b ->
  fits (room_of s) (pos s) (flat_map (parts e) vs) = true ->
  exists s', ts_encode_all e vs s = EOk s' /\ holds s' (b ++ twires e vs) /\
    room_of s' = room_after (room_of s) (pos s) (flat_map (parts e) vs).
Proof.
  induction vs as [|v vs IH]; intros s b He Hvs H Hf.
  { exists s. unfold twires; cbn. rewrite app_nil_r. auto. }
  inversion Hvs; subst. cbn [flat_map] in Hf. rewrite fits_app in Hf. apply andb_prop in Hf as [Hf1 Hf2].
  cbn [ts_encode_all]. rewrite (encode_fits e v s b) by assumption. cbn [ebind].
  destruct (writes_holds (parts e v) s b H (parts_ok e v He ltac:(assumption)) Hf1) as (A & B & C).
  destruct (IH (writes (parts e v) s) (b ++ concat (map snd (parts e v)))) as (s' & E & Hs' & Hr'); try assumption.
  { rewrite B, C. exact Hf2. }
  exists s'. split; [exact E|]. unfold twires in *; cbn [map concat]. rewrite app_assoc, <- parts_wire.
  split; [exact Hs'|]. cbn [flat_map]. rewrite room_after_app, Hr', B, C. reflexivity.
Qed.

(** [bytes] of an encoder that holds [b] is [b]. *)
Lemma bytes_holds s b : holds s b -> exists w, bytes_view s = Ok w /\ view_content s w = b.
Proof.
  intros (H1 & H2 & H3 & H4). unfold bytes_view. destruct (Z.leb_spec (pos s) (zlen (mem s))); [|lia].
  eexists; split; [reflexivity|]. unfold view_content; cbn [fst snd].
  rewrite app_nth2 by (unfold zlen; lia). replace (Z.to_nat (zlen (old s)) - length (old s))%nat with 0%nat by (unfold zlen; lia).
  exact H4.
Qed.

(** ** not fitting *)
Lemma encode_misfit e v s b : engine_ok e -> js_ok v -> holds s b -> 3 <= zlen (mem s) ->
  fits (room_of s) (pos s) (parts e v) = false ->
  (~ silent v /\ exists s', ts_encode e v s = EThrow s') \/
  (silent v /\ exists s', ts_encode e v s = EOk s' /\ blen s' < pos s').
Proof.
  intros He Hv H Hm Hf. pose proof (holds_wf s b H) as Hw.
  assert (SG : forall m p, fits (room_of s) (pos s) [(m, p)] = false ->
     blen (writes [(m, p)] s) < pos (writes [(m, p)] s)).
  { intros m p Hl. cbn [fits] in Hl. rewrite andb_true_r in Hl.
    pose proof (write_geo m p s Hw) as (A & B & C). cbn [writes fold_left fst snd].
    rewrite B. rewrite <- C in Hl. unfold room_of in Hl; cbn [fst] in Hl. lia. }
  assert (TW : forall m h q, zlen h <= m -> zlen h <= 3 -> fits (room_of s) (pos s) [(m, h); (5, q)] = false ->
     blen (writes [(m, h); (5, q)] s) < pos (writes [(m, h); (5, q)] s)).
  { intros m h q Hh H3 Hl. cbn [fits] in Hl. rewrite andb_true_r in Hl.
    pose proof (write_geo m h s Hw) as (A & B & C).
    pose proof (write_geo 5 q (puts h (resize m s)) A) as (A' & B' & C').
    rewrite <- two_writes. rewrite B'. rewrite <- C, <- B in Hl. rewrite <- C' in Hl.
    apply andb_false_iff in Hl as [Hl|Hl].
    - exfalso. rewrite B, C in Hl. unfold regrow, room_of in Hl; cbn [fst snd] in Hl.
      destruct H as (K1 & K2 & K3 & K4). destruct (Z.ltb_spec (blen s - pos s) m); cbn [fst] in Hl; lia.
    - unfold room_of in Hl; cbn [fst] in Hl. lia. }
  assert (FX : forall m k p, bytes_ok p -> fits (room_of s) (pos s) [(m, k :: p)] = false ->
     exists s', fixed m k p s = EThrow s').
  { intros m k p Hp Hl. cbn [fits] in Hl. rewrite andb_true_r, zlen_cons in Hl.
    rewrite fixed_ok by assumption. cbn zeta.
    pose proof (write_geo m [k] s Hw) as (A & B & C). change (zlen [k]) with 1 in B.
    replace (blen (puts [k] (resize m s))) with (fst (regrow (room_of s) (pos s) m)) by (rewrite <- C; reflexivity).
    rewrite B. destruct (Z.leb_spec (pos s + 1 + zlen p) (fst (regrow (room_of s) (pos s) m))); [lia|].
    eauto. }
  assert (PL : forall p m h, payload_ok p -> zlen h <= m -> zlen h <= 3 ->
     fits (room_of s) (pos s) [(m, h); (5, wire (VU32 (zlen p)) ++ p)] = false ->
     exists s', (ts_uint32 (zlen p) (puts h (resize m s)) >>> fun s => set p (pos s) s >>> fun s => EOk (advance (zlen p) s))
     = EThrow s').
  { intros p m h Hp Hh H3 Hl. pose proof (write_geo m h s Hw) as (A & B & C).
    rewrite encode_payload by assumption. cbn zeta.
    pose proof (write_geo 5 (wire (VU32 (zlen p))) (puts h (resize m s)) A) as (A' & B' & C').
    specialize (TW m h _ Hh H3 Hl). rewrite <- two_writes in TW.
    pose proof (write_geo 5 (wire (VU32 (zlen p)) ++ p) (puts h (resize m s)) A) as (A'' & B'' & C'').
    rewrite B'', zlen_app in TW. rewrite (room_blen _ _ _ C'' C') in TW.
    match goal with |- context [if ?x <=? ?y then _ else _] => destruct (Z.leb_spec x y) as [Hx|Hx] end;
      [exfalso; rewrite B' in Hx; lia|]. eauto. }
  destruct v; try (right; split; [exact I|]; eexists; split; [apply encode_atomic; [exact I|exact Hv]|]; cbn [parts] in *;
    first [apply SG; exact Hf|apply TW; [unfold zlen; cbn; lia|unfold zlen; cbn; lia|exact Hf]]);
    (left; split; [intros [] |]); cbn [ts_encode parts] in *; unfold twire in *; cbn [value_of wire] in *.
  - cbn [js_ok] in Hv. unfold ts_uint8. rewrite Z.mod_small by exact Hv. apply FX.
    + repeat constructor; unfold isbyte; lia.
    + exact Hf.
  - apply FX; [apply be4_ok|exact Hf].
  - apply FX; [apply be8_ok|exact Hf].
  - unfold ts_uint8Array. cbn zeta. pose proof (zlen_nonneg p).
    apply (PL p (5 + zlen p) [4]); [exact Hv|change (zlen [4]) with 1; lia|change (zlen [4]) with 1; lia|exact Hf].
  - assert (payload_ok (text_encode u)) by (split; [apply utf8_bytes_ok, text_encode_utf8; apply Hv|apply Hv]).
    pose proof (zlen_text u).
    unfold ts_string. cbn zeta. apply (PL (text_encode u) (5 + zlen (text_encode u)) [5]); [assumption|change (zlen [5]) with 1; lia|change (zlen [5]) with 1; lia|exact Hf].
  - assert (payload_ok (text_encode u)) by (split; [apply utf8_bytes_ok, text_encode_utf8; apply Hv|apply Hv]).
    pose proof (zlen_text u).
    unfold ts_error. cbn zeta. rewrite puts_two.
    apply (PL (text_encode u) (6 + zlen (text_encode u)) [6; 5]); [assumption|change (zlen [6; 5]) with 2; lia|change (zlen [6; 5]) with 2; lia|exact Hf].
Qed.
Theorem encode_iff e v s b : engine_ok e -> js_ok v -> holds s b -> 3 <= zlen (mem s) ->
  ((exists s', ts_encode e v s = EOk s' /\ holds s' (b ++ twire e v)) <->
   fits (room_of s) (pos s) (parts e v) = true).
Proof.
  intros He Hv H Hm. split.
  - intros (s' & E & Hs'). destruct (fits _ _ _) eqn:Hf; [reflexivity|].
    destruct (encode_misfit e v s b He Hv H Hm Hf) as [(_ & x & Ex)|(_ & x & Ex & Hx)].
    + congruence.
    + rewrite E in Ex; inversion Ex; subst. destruct Hs' as (_ & Hs' & _). lia.
  - intros Hf. exists (writes (parts e v) s). split; [eapply encode_fits; eassumption|].
    rewrite <- parts_wire. apply writes_holds; [assumption|apply parts_ok; assumption|assumption].
Qed.
