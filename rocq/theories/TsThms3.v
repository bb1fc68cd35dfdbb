(** Call sequences on which the TypeScript encoder goes wrong (C39). *)
From Verif Require Import Base Spec SpecProofs Utf8 TsModel TsSpec TsEnc TsThms TsThms2.

Lemma holds_len s b : holds s b -> zlen b = pos s.
Proof. intros (_ & H2 & H3 & <-). apply zlen_ztake. lia. Qed.

(** One byte dropped behind a full buffer reads as 0 after the next call. *)
Lemma full_drop s b v : holds s b -> zlen b = blen s -> blen s = zlen (mem s) -> 2 <= blen s -> isbyte v ->
  holds (puts [v] (resize 1 (advance 1 s))) (b ++ [0; v]).
Proof.
  intros H Hb Hm Hn Hv. pose proof (holds_len s b H) as Hp. destruct H as (H1 & H2 & H3 & H4).
  unfold resize. cbn [blen pos advance mem boff old].
  destruct (Z.ltb_spec (blen s - (pos s + 1)) 1); [|lia].
  rewrite H1, zdrop_0. rewrite (ztake_all (blen s)) by lia.
  assert (Em : mem s = b) by (rewrite <- H4, ztake_all by lia; reflexivity).
  rewrite Em, splice_0. set (n := zlen b) in *.
  assert (En : zlen (mem s) = n) by (rewrite Em; reflexivity).
  replace (zdrop n (repeat 0 (Z.to_nat (n * 2)))) with (repeat 0 (Z.to_nat n)).
  2:{ replace (Z.to_nat (n * 2)) with (Z.to_nat n + Z.to_nat n)%nat by lia.
      rewrite repeat_app. symmetry. replace n with (zlen (repeat 0 (Z.to_nat n))) at 1 by (rewrite zlen_repeat; lia).
      apply zdrop_app_exact. }
  set (z := Z.to_nat n).
  assert (Hz : exists z', z = S (S z')) by (exists (z - 2)%nat; lia). destruct Hz as (z' & Ez).
  assert (K : holds (mkenc (old s ++ [b]) (b ++ repeat 0 z) 0 (n * 2) (pos s + 1)) (b ++ [0])).
  { unfold holds; cbn [boff pos blen mem]. split; [reflexivity|]. split; [lia|].
    rewrite zlen_app, zlen_repeat. split; [lia|]. rewrite ztake_app2 by lia. f_equal.
    replace (pos s + 1 - zlen b) with 1 by lia. rewrite Ez. reflexivity. }
  apply (puts_holds [v]) in K.
  - rewrite <- app_assoc in K. exact K.
  - change (zlen [v]) with 1. cbn [pos blen]. lia.
  - repeat constructor; apply Hv.
Qed.
Lemma put1_full v s : blen s <= pos s -> put1 v s = advance 1 s.
Proof.
  intros H. unfold put1, store. destruct (Z.ltb_spec (pos s) (blen s)); [lia|]. rewrite andb_false_r. reflexivity.
Qed.

Definition nulls (k : nat) : list jsval := repeat JNull k.
Lemma nulls_ok k : Forall js_ok (nulls k).
Proof. induction k; constructor; [exact I|assumption]. Qed.
Lemma nulls_wire e k : twires e (nulls k) = repeat 0 k.
Proof. induction k as [|k IH]; [reflexivity|]. unfold twires in *; cbn. f_equal. exact IH. Qed.
Lemma nulls_fit e k : forall c a, a + Z.of_nat k <= fst c ->
  fits c a (flat_map (parts e) (nulls k)) = true /\ room_after c a (flat_map (parts e) (nulls k)) = c.
Proof.
  induction k as [|k IH]; intros c a H; [split; reflexivity|].
  cbn [nulls repeat flat_map parts app]. unfold twire; cbn [value_of wire fits room_after].
  replace (regrow c a 1) with c by (unfold regrow; destruct (Z.ltb_spec (fst c - a) 1); [lia|reflexivity]).
  change (zlen [0]) with 1. destruct (IH c (a + 1)) as [A B]; [lia|]. fold (nulls k). rewrite A, B.
  split; [|reflexivity]. lia.
Qed.
Lemma new_holds m : holds (newEncoder (Some (m, 0, zlen m))) [].
Proof.
  pose proof (zlen_nonneg m). unfold holds; cbn. repeat split; lia.
Qed.

(** A sequence of valid values that is silently encoded wrongly, for every buffer but the empty. *)
Definition bad_calls (n : Z) : list jsval :=
  if n =? 1 then [JNull; JBool true; JNull]
  else if n =? 2 then [JNull; JU16 65535; JNull]
  else nulls (Z.to_nat (n - 3)) ++ [JU16 65535; JNull].
Definition bad_bytes (n : Z) : bytes :=
  if n =? 1 then [0; 7; 0; 0]
  else if n =? 2 then [0; 9; 255; 255; 0; 0]
  else repeat 0 (Z.to_nat (n - 3)) ++ [9; 255; 255; 0; 0].
Lemma bad_calls_ok n : Forall js_ok (bad_calls n).
Proof.
  unfold bad_calls. destruct (n =? 1); [|destruct (n =? 2)];
    try (repeat constructor; cbn; lia). apply Forall_app. split; [apply nulls_ok|].
  repeat constructor; cbn; lia.
Qed.
Lemma bad_calls_wire e n : twires e (bad_calls n) <> bad_bytes n.
Proof.
  unfold bad_calls, bad_bytes. destruct (n =? 1); [|destruct (n =? 2)]; [discriminate|discriminate|].
  unfold twires. rewrite map_app, concat_app. fold (twires e (nulls (Z.to_nat (n - 3)))). rewrite nulls_wire.
  intros H. apply app_inv_head in H. discriminate.
Qed.
Lemma encode_all_app e a b s : ts_encode_all e (a ++ b) s = (ts_encode_all e a s >>> ts_encode_all e b).
Proof.
  revert s; induction a as [|v a IH]; intros s; cbn [app ts_encode_all]; [reflexivity|].
  destruct (ts_encode e v s); cbn [ebind]; [apply IH|reflexivity|reflexivity].
Qed.
Theorem bad_calls_run e m : engine_ok e -> 1 <= zlen m ->
  exists s', ts_encode_all e (bad_calls (zlen m)) (newEncoder (Some (m, 0, zlen m))) = EOk s' /\
    holds s' (bad_bytes (zlen m)).
Proof.
  intros He Hn. unfold bad_calls, bad_bytes. destruct (Z.eqb_spec (zlen m) 1) as [E1|].
  { destruct m as [|x [|? ?]]; try (rewrite ?zlen_cons in E1; cbn in E1; lia).
    - eexists. split; [reflexivity|]. unfold holds. vm_compute. repeat split; discriminate.
    - rewrite !zlen_cons in E1. match type of E1 with context [zlen ?l] => pose proof (zlen_nonneg l) end. lia. }
  destruct (Z.eqb_spec (zlen m) 2) as [E2|].
  { destruct m as [|x [|y [|? ?]]]; try (rewrite ?zlen_cons in E2; cbn in E2; lia).
    - eexists. split; [reflexivity|]. unfold holds. vm_compute. repeat split; discriminate.
    - rewrite !zlen_cons in E2. match type of E2 with context [zlen ?l] => pose proof (zlen_nonneg l) end. lia. }
  set (k := Z.to_nat (zlen m - 3)). assert (Hk : Z.of_nat k = zlen m - 3) by lia. set (s0 := newEncoder (Some (m, 0, zlen m))).
  destruct (nulls_fit e k (room_of s0) (pos s0)) as [F R].
  { cbn. lia. }
  destruct (encode_all_fits e (nulls k) s0 [] He (nulls_ok k) (new_holds m) F) as (s1 & E & H & Hr).
  rewrite encode_all_app, E. cbn [ebind ts_encode_all]. rewrite R in Hr. cbn [app] in H. rewrite nulls_wire in H.
  pose proof (holds_len _ _ H) as Hp. rewrite zlen_repeat in Hp.
  unfold room_of in Hr; cbn [s0 newEncoder blen mem] in Hr. injection Hr as Hb Hm.
  rewrite encode_atomic by (cbn; try exact I; lia). cbn [ebind parts writes fold_left fst snd].
  rewrite encode_atomic by exact I. cbn [ebind parts writes fold_left fst snd]. unfold twire; cbn [value_of wire].
  change (9 :: varint 65535) with ([9; 255; 255] ++ [3]).
  assert (ER : resize 3 s1 = s1).
  { unfold resize. destruct (Z.ltb_spec (blen s1 - pos s1) 3); [lia|reflexivity]. }
  rewrite ER, puts_app. assert (H2 : holds (puts [9; 255; 255] s1) (repeat 0 k ++ [9; 255; 255])).
  { apply puts_holds; [exact H|change (zlen [9; 255; 255]) with 3; lia|repeat constructor; unfold isbyte; lia]. }
  destruct (puts_geo [9; 255; 255] s1 (holds_wf _ _ H)) as (_ & Gp & Gr & _ & _).
  change (zlen [9; 255; 255]) with 3 in Gp. assert (Gb := f_equal fst Gr). assert (Gm := f_equal snd Gr). change (blen (puts [9; 255; 255] s1) = blen s1) in Gb. change (zlen (mem (puts [9; 255; 255] s1)) = zlen (mem s1)) in Gm. clear Gr.
  set (s2 := puts [9; 255; 255] s1) in *.
  change (puts [3] s2) with (put1 3 s2). rewrite put1_full by lia.
  eexists. split; [reflexivity|].
  change (repeat 0 k ++ [9; 255; 255; 0; 0]) with (repeat 0 k ++ [9; 255; 255] ++ [0; 0]). rewrite app_assoc.
  apply full_drop; [exact H2| | | |unfold isbyte; lia].
  - rewrite zlen_app, zlen_repeat. change (zlen [9; 255; 255]) with 3. lia.
  - lia.
  - lia.
Qed.
(** An empty buffer never grows: nothing is ever stored and [bytes] throws. *)
Theorem empty_buffer e : exists s', ts_encode_all e [JNull] (newEncoder (Some ([], 0, 0))) = EOk s' /\
  bytes_view s' = Panic.
Proof. eexists; split; reflexivity. Qed.

(** A view that does not start its ArrayBuffer: [bytes] shows the wrong bytes. *)
Theorem offset_view e m off len : 1 <= off -> 1 <= len -> off + len <= zlen m ->
  exists s' w, ts_encode e JNull (newEncoder (Some (m, off, len))) = EOk s' /\
    bytes_view s' = Ok w /\ view_content s' w = ztake 1 m.
Proof.
  intros Ho Hl Hm. cbn [ts_encode]. unfold ts_null.
  assert (ER : resize 1 (newEncoder (Some (m, off, len))) = newEncoder (Some (m, off, len))).
  { unfold resize; cbn. destruct (Z.ltb_spec (len - 0) 1); [lia|reflexivity]. }
  rewrite ER. assert (W : wf (newEncoder (Some (m, off, len)))) by (unfold wf; cbn; lia).
  change (advance 1 _) with (puts [0] (newEncoder (Some (m, off, len)))).
  rewrite puts_in; [|exact W|cbn; change (zlen [kNull]) with 1; lia|repeat constructor; unfold isbyte; lia].
  cbn [old mem boff blen pos newEncoder]. eexists. eexists. split; [reflexivity|].
  unfold bytes_view; cbn [old mem pos]. change (zlen [0]) with 1. rewrite zlen_splice by (change (zlen [0]) with 1; lia).
  destruct (Z.leb_spec (0 + 1) (zlen m)); [|lia]. split; [reflexivity|].
  unfold view_content; cbn [fst snd old mem]. change (Z.to_nat (zlen (@nil bytes))) with 0%nat. cbn [app nth].
  apply ztake_splice_le; lia.
Qed.

(** How long a string the default encoder takes as its first value. *)
Lemma default_holds : holds (newEncoder None) [].
Proof. unfold holds. repeat split; vm_compute; discriminate. Qed.
Theorem default_string e u : engine_ok e -> js_string u -> zlen (text_encode u) < 2 ^ 32 ->
  ((exists s', ts_encode e (JString u) (newEncoder None) = EOk s') <-> zlen (text_encode u) <= 1020) /\
  (1020 < zlen (text_encode u) -> exists s', ts_encode e (JString u) (newEncoder None) = EThrow s').
Proof.
  intros He Hu Hl. assert (Hv : js_ok (JString u)) by (split; assumption).
  pose proof (encode_iff e (JString u) (newEncoder None) [] He Hv default_holds ltac:(vm_compute; discriminate)) as HI.
  pose proof (encode_misfit e (JString u) (newEncoder None) [] He Hv default_holds ltac:(vm_compute; discriminate)) as HM.
  assert (F : fits (room_of (newEncoder None)) (pos (newEncoder None)) (parts e (JString u)) = (zlen (text_encode u) <=? 1020)).
  { change (room_of (newEncoder None)) with (512, 512). change (pos (newEncoder None)) with 0.
    cbn [parts]. set (n := zlen (text_encode u)) in *. pose proof (zlen_text u) as Hn. fold n in Hn.
    cbn [fits wire]. rewrite zlen_app, (zlen_cons 10). fold n. change (zlen [5]) with 1. unfold regrow at 1 2 3; cbn [fst snd].
    destruct (Z.ltb_spec (512 - 0) (5 + n)); cbn [fst snd].
    - unfold regrow; cbn [fst snd]. destruct (Z.ltb_spec (2 * 512 - (0 + 1)) 5); [lia|]. cbn [fst].
      rewrite andb_true_r. destruct (Z.leb_spec n 1020).
      + pose proof (varint_le n 2 ltac:(lia) ltac:(lia) ltac:(change (128 ^ 2) with 16384; lia)). lia.
      + assert (2 <= zlen (varint n)).
        { unfold varint. change (leb 9 n) with (if n <? 128 then [n] else (128 + n mod 128) :: leb 8 (n / 128)).
          destruct (Z.ltb_spec n 128); [lia|]. rewrite zlen_cons.
          pose proof (leb_nonempty 8 (n / 128)) as Hne. destruct (leb 8 (n / 128)); [contradiction|].
          rewrite zlen_cons. pose proof (zlen_nonneg b). lia. }
        lia.
    - unfold regrow; cbn [fst snd]. destruct (Z.ltb_spec (512 - (0 + 1)) 5); [lia|]. cbn [fst].
      pose proof (varint_le n 2 ltac:(lia) ltac:(lia) ltac:(change (128 ^ 2) with 16384; lia)). lia. }
  rewrite F in *. split.
  - split.
    + intros (s' & E). destruct (Z.leb_spec (zlen (text_encode u)) 1020); [assumption|].
      destruct (HM eq_refl) as [(_ & x & Ex)|([] & _)]. congruence.
    + intros H. destruct HI as [_ HI]. destruct HI as (s' & E & _); [lia|]. eauto.
  - intros H. destruct (Z.leb_spec (zlen (text_encode u)) 1020); [lia|].
    destruct (HM eq_refl) as [(_ & x & Ex)|([] & _)]. eauto.
Qed.
