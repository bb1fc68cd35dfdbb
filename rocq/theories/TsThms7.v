(** Combined statements (C38, C40, C42, C52). *)
From Verif Require Import Base Spec SpecProofs GoProps2 GoThms GoThms2 Utf8 GoSpec RustSpec RustThms RustThms2 TsModel TsSpec TsEnc TsThms TsThms2 TsThms3 TsText TsDec TsThms4 TsThms5.
From Verif Require V1Model V2Model RustModel.

Lemma ts_encodes e vs s b : engine_ok e -> Forall js_ok vs -> holds s b ->
  fits (room_of s) (pos s) (flat_map (parts e) vs) = true ->
  exists s' w, ts_encode_all e vs s = EOk s' /\ holds s' (b ++ twires e vs) /\
    bytes_view s' = Ok w /\ view_content s' w = b ++ twires e vs.
Proof.
  intros He Hv Hs Hf. destruct (encode_all_fits e vs s b He Hv Hs Hf) as (s' & E & H & _).
  destruct (bytes_holds s' _ H) as (w & Hw & Hc). eauto 8.
Qed.
Lemma ts_modest e n vs s b : engine_ok e -> Forall js_ok vs -> Forall (modest e n) vs -> holds s b ->
  9 <= n <= zlen (mem s) ->
  exists s' w, ts_encode_all e vs s = EOk s' /\ holds s' (b ++ twires e vs) /\
    bytes_view s' = Ok w /\ view_content s' w = b ++ twires e vs.
Proof.
  intros He Hv Hm Hs Hn. apply ts_encodes; try assumption. apply (modest_all e n); try assumption.
  - apply Hs.
  - apply Hs.
Qed.
Lemma ts_roomy e vs m : engine_ok e -> Forall js_ok vs -> zlen (twires e vs) + 7 <= zlen m ->
  exists s' w, ts_encode_all e vs (newEncoder (Some (m, 0, zlen m))) = EOk s' /\ holds s' (twires e vs) /\
    bytes_view s' = Ok w /\ view_content s' w = twires e vs.
Proof.
  intros He Hv Hl. apply (ts_encodes e vs _ [] He Hv (new_holds m)). apply roomy_all; [exact Hv|cbn; lia|cbn; lia].
Qed.
Lemma twires_values e vs ws : map (value_of e) vs = map Some ws -> twires e vs = wires ws.
Proof.
  revert ws. induction vs as [|v vs IH]; intros [|w ws] E; try discriminate; [reflexivity|].
  cbn [map] in E. apply cons_eq in E as [E1 E]. unfold twires, wires in *. cbn [map concat].
  rewrite (IH ws E). unfold twire. rewrite E1. reflexivity.
Qed.
Lemma values_valid e vs : forall ws, engine_ok e -> Forall js_ok vs -> map (value_of e) vs = map Some ws -> Forall valid ws.
Proof.
  induction vs as [|v vs IH]; intros [|w ws] He Hv E; try discriminate; constructor.
  - cbn [map] in E. apply cons_eq in E as [E1 E]. inversion Hv; subst. eapply value_of_valid; eauto.
  - cbn [map] in E. apply cons_eq in E as [E1 E]. inversion Hv; subst. eapply IH; eauto.
Qed.
(** Go reads what TypeScript wrote. *)
Lemma ts_to_go W ret e vs ws s r : engine_ok e -> Forall js_ok vs -> map (value_of e) vs = map Some ws -> holds s [] ->
  fits (room_of s) (pos s) (flat_map (parts e) vs) = true -> bytes_ok r -> int_ok W (wires ws ++ r) ->
  exists s' w, ts_encode_all e vs s = EOk s' /\ bytes_view s' = Ok w /\
    read_all (V1Model.decode W None) (map want ws) (view_content s' w ++ r) = Some (ws, r) /\
    read_all (V2Model.decode W ret) (map want ws) (view_content s' w ++ r) = Some (ws, r).
Proof.
  intros He Hv Ew Hs Hf Hr Hi. destruct (ts_encodes e vs s [] He Hv Hs Hf) as (s' & w & E & _ & Hw & Hc).
  exists s', w. cbn [app] in Hc. rewrite Hc, (twires_values e vs ws Ew).
  pose proof (values_valid e vs ws He Hv Ew). repeat split; try assumption; [apply read1_wires|apply read2_wires]; assumption.
Qed.
(** TypeScript reads what TypeScript wrote. *)
Lemma back_map e vs : forall ws, Forall js_ok vs -> map (value_of e) vs = map Some ws ->
  map (from_wire e) ws = map (read_back e) vs.
Proof.
  induction vs as [|v vs IH]; intros [|w ws] Hv E; try discriminate; [reflexivity|].
  cbn [map] in *. apply cons_eq in E as [E1 E]. inversion Hv; subst.
  rewrite (from_value_of e v w) by assumption. f_equal. apply IH; assumption.
Qed.
Lemma jwant_map e vs : forall qs, map jwant vs = map Some qs ->
  exists ws, map (value_of e) vs = map Some ws /\ map want ws = qs.
Proof.
  induction vs as [|v vs IH]; intros [|q qs] E; try discriminate; [exists []; auto|].
  cbn [map] in *. apply cons_eq in E as [E1 E]. destruct (IH qs E) as (ws & A & <-).
  destruct (jwant_value_of e v q E1) as (w & Ew & <-). exists (w :: ws). cbn [map]. rewrite A, Ew. auto.
Qed.
Lemma ts_reads_all e vs qs r d : engine_ok e -> Forall js_ok vs -> map jwant vs = map Some qs -> dec_ok d ->
  ahead d = twires e vs ++ r ->
  ts_read_all e qs d = DOk (map (read_back e) vs) (moved (zlen (twires e vs)) d) /\
  ahead (moved (zlen (twires e vs)) d) = r.
Proof.
  intros He Hv Eq Hd Ea. destruct (jwant_map e vs qs Eq) as (ws & Ew & <-).
  rewrite (twires_values e vs ws Ew) in *. rewrite <- (back_map e vs ws Hv Ew).
  apply ts_decode_wires; [eapply values_valid; eauto|exact Hd|exact Ea].
Qed.
Lemma read_back_same e vs : engine_ok e -> Forall js_ok vs -> Forall unchanged vs -> map (read_back e) vs = vs.
Proof.
  intros He Hv Hu. induction vs as [|v vs IH]; [reflexivity|]. inversion Hv; inversion Hu; subst. cbn [map].
  rewrite same_back, IH by assumption. reflexivity.
Qed.
Lemma new_dec_ok m off len : bytes_ok m -> 0 <= off -> 0 <= len -> off + len <= zlen m -> dec_ok (newDecoder m off len).
Proof. intros. unfold dec_ok; cbn. repeat split; try lia. assumption. Qed.
Lemma new_dec_ahead m : ahead (newDecoder m 0 (zlen m)) = m.
Proof.
  unfold ahead, newDecoder; cbn [dblen dpos dboff dmem]. change (0 + 0) with 0. rewrite zdrop_0. apply ztake_all. lia.
Qed.

(** All decoders on one valid value. *)
Lemma four_decoders W ret rt e v r l : engine_ok e -> rust_valid v -> ts_faithful v -> bytes_ok (l ++ wire v ++ r) ->
  int_ok W (l ++ wire v ++ r) -> int_ok (RustModel.W rt) (l ++ wire v ++ r) ->
  V1Model.decode W None (want v) (wire v ++ r) = Done r v /\
  V2Model.decode W ret (want v) (wire v ++ r) = Done r v /\
  RustModel.decode rt (want v) (RustModel.mkcur (l ++ wire v ++ r) (zlen l)) =
    RustModel.ROk v (RustModel.mkcur (l ++ wire v ++ r) (zlen l + zlen (wire v))) /\
  exists j, ts_decode e (want v) (mkdec (l ++ wire v ++ r) 0 (zlen (l ++ wire v ++ r)) (zlen l)) =
    DOk j (mkdec (l ++ wire v ++ r) 0 (zlen (l ++ wire v ++ r)) (zlen l + zlen (wire v))) /\ value_of e j = Some v.
Proof.
  intros He Hr Hf Hb Hi Hi'. pose proof Hr as (Hv & _ & _).
  assert (Hb' := Hb). apply bytes_ok_app in Hb' as [_ Hb']. assert (Hbr := Hb'). apply bytes_ok_app in Hbr as [_ Hbr].
  assert (Hi1 : int_ok W (wire v ++ r)).
  { destruct Hi as [A B]. split; [exact A|]. rewrite zlen_app in B. pose proof (zlen_nonneg l). lia. }
  split; [apply dec1_wire; assumption|]. split; [apply dec2_wire; assumption|].
  split; [apply dec_wire; try assumption|].
  - split; [|split; assumption]. cbn [RustModel.pos RustModel.buf]. rewrite (zlen_app l). pose proof (zlen_nonneg l). pose proof (zlen_nonneg (wire v ++ r)). lia.
  - set (d := mkdec _ _ _ _). assert (Hd : dec_ok d).
    { unfold dec_ok, d; cbn. pose proof (zlen_nonneg l). pose proof (zlen_nonneg (l ++ wire v ++ r)). repeat split; try lia. exact Hb. }
    assert (Ea : ahead d = wire v ++ r).
    { unfold ahead, d; cbn [dblen dpos dboff dmem]. rewrite Z.add_0_l, zdrop_app_exact. apply ztake_all. rewrite (zlen_app l). lia. }
    destruct (ts_decode_wire e v r d Hv Hd Ea) as [E _]. exists (from_wire e v). split; [exact E|].
    apply faithful; assumption.
Qed.
(** [bytes] is stable. *)
Lemma ts_bytes_stable e m off len vs vs' s s' w : 0 <= off -> 0 <= len -> off + len <= zlen m ->
  ts_encode_all e vs (newEncoder (Some (m, off, len))) = EOk s \/ ts_encode_all e vs (newEncoder (Some (m, off, len))) = EThrow s ->
  bytes_view s = Ok w -> ts_encode_all e vs' s = EOk s' \/ ts_encode_all e vs' s = EThrow s' ->
  view_content s' w = view_content s w.
Proof.
  intros Ho Hl Hm E Hw E'. assert (W : wf (newEncoder (Some (m, off, len)))) by (unfold wf; cbn; lia).
  apply (view_stable e vs' s w s'); try assumption.
  apply (keeps_wf (newEncoder (Some (m, off, len)))). apply (encode_all_kept e vs _ W). destruct E as [-> | ->]; reflexivity.
Qed.
(** Enough is stated for every state by [encode_iff]; the first call that does not fit is the first
    one whose output is wrong. *)
Lemma ts_sequence_iff e vs v s b : engine_ok e -> Forall js_ok vs -> js_ok v -> holds s b -> 3 <= zlen (mem s) ->
  fits (room_of s) (pos s) (flat_map (parts e) vs) = true ->
  ((exists s', ts_encode_all e (vs ++ [v]) s = EOk s' /\ holds s' (b ++ twires e (vs ++ [v]))) <->
   fits (room_of s) (pos s) (flat_map (parts e) (vs ++ [v])) = true).
Proof.
  intros He Hvs Hv Hs Hm Hf. destruct (encode_all_fits e vs s b He Hvs Hs Hf) as (s1 & E1 & H1 & R1).
  rewrite flat_map_app, fits_app, Hf. cbn [andb flat_map]. rewrite app_nil_r.
  assert (P1 : pos s1 = pos s + zlen (concat (map snd (flat_map (parts e) vs)))).
  { pose proof (holds_len _ _ H1) as L1. pose proof (holds_len _ _ Hs) as L0. rewrite zlen_app in L1. rewrite <- L1, L0.
    f_equal. f_equal. unfold twires. clear. induction vs as [|v vs IH]; [reflexivity|]. cbn [map concat flat_map].
    rewrite map_app, concat_app, <- IH, parts_wire. reflexivity. }
  rewrite <- R1, <- P1.
  assert (M1 : 3 <= zlen (mem s1)).
  { pose proof (fits_after (flat_map (parts e) vs) (room_of s) (pos s)) as FA.
    destruct FA as (A & B & C); [apply Hs|apply Hs|exact Hf|]. rewrite <- R1 in *. cbn [room_of fst snd] in *. lia. }
  rewrite <- (encode_iff e v s1 (b ++ twires e vs) He Hv H1 M1).
  rewrite encode_all_app, E1. cbn [ebind ts_encode_all].
  unfold twires. rewrite map_app, concat_app. cbn [map concat]. rewrite app_nil_r, <- app_assoc.
  split; intros (s' & E & H); exists s'; (split; [|exact H]); destruct (ts_encode e v s1); cbn [ebind] in *; try discriminate; exact E.
Qed.
