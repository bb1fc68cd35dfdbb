(** Consequences of the acceptance specification. *)
From Verif Require Import Base Spec SpecProofs GoLoop GoIdeal GoSpec GoProps.


(** ** what is consumed *)
(** [accepts] splits the input into consumed bytes and rest, and any other rest would do *)
Lemma accepts_split v2 q b r v : accepts v2 q b r v ->
  (v2 = true /\ q = RBytes /\ r = b /\ v = VBytes [] /\ overlong b) \/
  (exists c, c <> [] /\ b = c ++ r /\ forall r', accepts v2 q (c ++ r') r' v).
Proof.
  assert (HL : forall t ds p r, length_at t ds (p ++ r) ->
    exists c, t = c ++ p ++ r /\ forall r', length_at (c ++ p ++ r') ds (p ++ r')).
  { intros t ds p r0 (u & -> & -> & Hv). exists (10 :: ds).
    split; [reflexivity|]. intros r'. exists (ds ++ p ++ r').
    split; [reflexivity|]. split; [reflexivity|exact Hv]. }
  assert (HL0 : forall t ds r, length_at t ds r ->
    exists c, t = c ++ r /\ forall r', length_at (c ++ r') ds r').
  { intros t ds r0 H. apply (HL t ds [] r0) in H. exact H. }
  intros H. destruct H; [right..|left].
  - exists [0]. split; [discriminate|]. split; [reflexivity|]. intros r'. constructor.
  - exists [7; x]. split; [discriminate|]. split; [reflexivity|]. intros r'. constructor. exact H.
  - exists [8; n]. split; [discriminate|]. split; [reflexivity|]. intros r'. constructor.
  - destruct H as (-> & H). exists (header q ++ ds). split; [|split].
    + destruct q; discriminate.
    + apply app_assoc.
    + intros r'. rewrite <- app_assoc. apply A_int with (ds := ds); [|exact H0].
      split; [reflexivity|exact H].
  - exists (14 :: be4 n). split; [discriminate|]. split; [reflexivity|]. intros r'.
    apply A_f32. exact H.
  - exists (15 :: be8 n). split; [discriminate|]. split; [reflexivity|]. intros r'.
    apply A_f64. exact H.
  - destruct (HL0 _ _ _ H) as (c & -> & Hc). exists (2 :: k1 :: k2 :: c).
    split; [discriminate|]. split; [reflexivity|]. intros r'. apply A_map. apply Hc.
  - destruct (HL0 _ _ _ H) as (c & -> & Hc). exists (1 :: k :: c).
    split; [discriminate|]. split; [reflexivity|]. intros r'. apply A_slice. apply Hc.
  - destruct (HL _ _ _ _ H) as (c & -> & Hc). exists (4 :: c ++ p).
    split; [discriminate|]. split; [cbn [app]; rewrite app_assoc; reflexivity|].
    intros r'. cbn [app]. rewrite <- app_assoc. eapply A_bytes; [apply Hc|exact H0].
  - destruct (HL _ _ _ _ H) as (c & -> & Hc). exists (5 :: c ++ p).
    split; [discriminate|]. split; [cbn [app]; rewrite app_assoc; reflexivity|].
    intros r'. cbn [app]. rewrite <- app_assoc. eapply A_string; [apply Hc|exact H0].
  - destruct (HL _ _ _ _ H) as (c & -> & Hc). exists (6 :: 5 :: c ++ p).
    split; [discriminate|]. split; [cbn [app]; rewrite app_assoc; reflexivity|].
    intros r'. cbn [app]. rewrite <- app_assoc. eapply A_error; [apply Hc|exact H0].
  - split; [exact H|]. repeat split. exists cs, r. auto.
Qed.

Lemma overlong_app b x : overlong b -> overlong (b ++ x).
Proof.
  intros (cs & r & -> & H). exists cs, (r ++ x). split; [|exact H].
  cbn [app]. rewrite <- app_assoc. reflexivity.
Qed.
Lemma accepts_app v2 q b r v x : accepts v2 q b r v -> accepts v2 q (b ++ x) (r ++ x) v.
Proof.
  intros H. destruct (accepts_split _ _ _ _ _ H) as [(-> & -> & -> & -> & Ho)|(c & _ & -> & Hc)].
  - destruct (overlong_app b x Ho) as (cs & r & E & Hl & Hf). rewrite E.
    apply A_bytes_overlong; auto.
  - rewrite <- app_assoc. apply Hc.
Qed.
Lemma accepts_suffix v2 q b r v : accepts v2 q b r v -> exists c, b = c ++ r.
Proof.
  intros H. destruct (accepts_split _ _ _ _ _ H) as [(_ & _ & -> & _)|(c & _ & -> & _)].
  - exists []. reflexivity.
  - exists c. reflexivity.
Qed.
Lemma length_at_suffix t ds r : length_at t ds r -> exists c, t = c ++ r.
Proof. intros (u & -> & -> & _). exists (10 :: ds). reflexivity. Qed.
Lemma left1_suffix q b r : left1 q b r -> exists c, b = c ++ r.
Proof.
  intros H. induction H as [q b H|q t Hs Hn Ht|q t Hs He Hb|q t ds r Hq Hl Hp|t r H [c IH]].
  - exists []; reflexivity.
  - exists []; reflexivity.
  - exists (header q); reflexivity.
  - destruct (length_at_suffix _ _ _ Hl) as [c ->]. exists (header q ++ c). apply app_assoc.
  - exists (6 :: c). rewrite IH. reflexivity.
Qed.
Lemma left2_suffix q b r : left2 q b r -> exists c, b = c ++ r.
Proof.
  intros H. induction H as [q b H|q H|q t Hs Hn Ht|q t Hs He Hby Hne Hb|t ds r Hl Hp|t r Hne H [c IH]|t Hb Hc|t ds r Hl Hp];
    try (exists []; reflexivity).
  - exists (header q); reflexivity.
  - destruct (length_at_suffix _ _ _ Hl) as [c ->]. exists (5 :: c). reflexivity.
  - exists (6 :: c). rewrite IH. reflexivity.
Qed.

(** ** results are values of the type *)
Lemma accepts_valid v2 q b r v : accepts v2 q b r v -> bytes_ok b -> req_ok q -> valid v /\ want v = q.
Proof.
  assert (HP : forall t ds p r, length_at t ds (p ++ r) -> bytes_ok t ->
            zlen p = dval ds mod 2 ^ 32 -> payload_ok p).
  { intros t ds p r0 (u & -> & -> & _) Hb Hp. apply bytes_ok_cons in Hb. destruct Hb as [_ Hb].
    rewrite !bytes_ok_app in Hb. split; [tauto|]. pose proof (dlen_range ds). lia. }
  intros H Hb Hq. destruct H; cbn [valid want req_ok] in *; rewrite ?bytes_ok_cons in Hb; try (split; auto; fail).
  - unfold isbyte in Hb. split; [change (2 ^ 8) with 256; tauto|reflexivity].
  - destruct q; try discriminate; cbn [int_value] in *; injection H0 as <-; cbn [valid want];
      split; try reflexivity; try (apply Z.mod_pos_bound; lia).
    + apply (unzigzag_range 32); [lia|]. apply Z.mod_pos_bound; lia.
    + apply (unzigzag_range 64); [lia|]. apply Z.mod_pos_bound; lia.
  - split; [|reflexivity]. pose proof (dlen_range ds). tauto.
  - split; [|reflexivity]. pose proof (dlen_range ds). tauto.
  - split; [|reflexivity]. eapply HP; try eassumption. tauto.
  - split; [|reflexivity]. eapply HP; try eassumption. tauto.
  - split; [|reflexivity]. eapply HP; try eassumption. tauto.
  - split; [|reflexivity]. split; [constructor|reflexivity].
Qed.

(** ** the wire format is accepted *)
Lemma varint_vsplit n k r : 0 <= n < 128 ^ Z.of_nat k -> (0 < k <= 10)%nat ->
  vsplit (Z.of_nat k) (varint n ++ r) (varint n) r.
Proof. intros H Hk. apply scan_done. apply varint_scan; assumption. Qed.
Lemma lt32_128 n : 0 <= n < 2 ^ 32 -> 0 <= n < 128 ^ Z.of_nat 5.
Proof. intros H. split; [lia|]. eapply Z.lt_le_trans; [apply H|]. vm_compute; discriminate. Qed.
Lemma lt16_128 n : 0 <= n < 2 ^ 16 -> 0 <= n < 128 ^ Z.of_nat 3.
Proof. intros H. split; [lia|]. eapply Z.lt_le_trans; [apply H|]. vm_compute; discriminate. Qed.
Lemma lt64_128 n : 0 <= n < 2 ^ 64 -> 0 <= n < 128 ^ Z.of_nat 10.
Proof. intros H. split; [lia|]. eapply Z.lt_le_trans; [apply H|]. vm_compute; discriminate. Qed.
Lemma wire_length n r : 0 <= n < 2 ^ 32 ->
  length_at (10 :: varint n ++ r) (varint n) r /\ dval (varint n) mod 2 ^ 32 = n.
Proof.
  intros Hn. split.
  - exists (varint n ++ r). split; [reflexivity|]. apply (varint_vsplit n 5); [apply lt32_128; exact Hn|lia].
  - rewrite varint_dval by lia. apply Z.mod_small. exact Hn.
Qed.
Lemma wire_accepts v2 v r : valid v -> accepts v2 (want v) (wire v ++ r) r v.
Proof.
  intros Hv. destruct v; cbn [valid want wire] in *.
  - constructor.
  - destruct Hv as (Hn & _). destruct (wire_length size r Hn) as [HL HD]. cbn [app].
    rewrite <- HD at 2. constructor. exact HL.
  - destruct Hv as (Hn & _). destruct (wire_length size r Hn) as [HL HD]. cbn [app].
    rewrite <- HD at 2. constructor. exact HL.
  - destruct (wire_length (zlen p) (p ++ r) (payload_len p Hv)) as [HL HD]. cbn [app].
    rewrite <- app_assoc. eapply A_bytes; [exact HL|]. symmetry; exact HD.
  - destruct (wire_length (zlen p) (p ++ r) (payload_len p Hv)) as [HL HD]. cbn [app].
    rewrite <- app_assoc. eapply A_string; [exact HL|]. symmetry; exact HD.
  - destruct (wire_length (zlen p) (p ++ r) (payload_len p Hv)) as [HL HD]. cbn [app].
    rewrite <- app_assoc. eapply A_error; [exact HL|]. symmetry; exact HD.
  - destruct b; [apply (A_bool v2 1)|apply (A_bool v2 0)]; auto.
  - constructor.
  - apply (A_int v2 RU16 _ (varint n)); [apply (varint_vsplit n 3); [apply lt16_128; exact Hv|lia]|].
    cbn [int_value]. rewrite varint_dval, Z.mod_small by lia. reflexivity.
  - apply (A_int v2 RU32 _ (varint n)); [apply (varint_vsplit n 5); [apply lt32_128; exact Hv|lia]|].
    cbn [int_value]. rewrite varint_dval, Z.mod_small by lia. reflexivity.
  - apply (A_int v2 RU64 _ (varint n)); [apply (varint_vsplit n 10); [apply lt64_128; exact Hv|lia]|].
    cbn [int_value]. rewrite varint_dval, Z.mod_small by lia. reflexivity.
  - pose proof (zigzag32 n Hv) as Hz.
    apply (A_int v2 RI32 _ (varint (zigzag n))); [apply (varint_vsplit (zigzag n) 5); [apply lt32_128; exact Hz|lia]|].
    cbn [int_value]. rewrite varint_dval, Z.mod_small, zigzag_unzigzag by lia. reflexivity.
  - pose proof (zigzag64 n Hv) as Hz.
    apply (A_int v2 RI64 _ (varint (zigzag n))); [apply (varint_vsplit (zigzag n) 10); [apply lt64_128; exact Hz|lia]|].
    cbn [int_value]. rewrite varint_dval, Z.mod_small, zigzag_unzigzag by lia. reflexivity.
  - apply A_f32. exact Hv.
  - apply A_f64. exact Hv.
Qed.

(** accepted with an unchanged header is deterministic *)
Lemma accepts1_fun q b r v r' v' : accepts false q b r v -> accepts false q b r' v' -> r = r' /\ v = v'.
Proof.
  intros H H'. apply ideal1_accepts in H, H'. rewrite H in H'. injection H' as <- <-. auto.
Qed.
Lemma accepts2_fun q b r v r' v' : accepts true q b r v -> accepts true q b r' v' -> r = r' /\ v = v'.
Proof.
  intros H H'. apply ideal2_accepts in H, H'. rewrite H in H'. injection H' as <- <-. auto.
Qed.
Lemma accepts_fun v2 q b r v r' v' : accepts v2 q b r v -> accepts v2 q b r' v' -> r = r' /\ v = v'.
Proof. destruct v2; [apply accepts2_fun|apply accepts1_fun]. Qed.

(** a strict prefix of an encoding is never accepted *)
Lemma prefix_rejected v2 v p s r v' : valid v -> wire v = p ++ s -> s <> [] ->
  ~ accepts v2 (want v) p r v'.
Proof.
  intros Hv Hw Hs H. apply (accepts_app _ _ _ _ _ s) in H. rewrite <- Hw in H.
  pose proof (wire_accepts v2 v [] Hv) as Ha. rewrite app_nil_r in Ha.
  destruct (accepts_fun _ _ _ _ _ _ _ H Ha) as [E _].
  apply app_eq_nil in E. tauto.
Qed.

(** ** unique decodability *)
(** the first byte determines the request up to element kinds; the next bytes fix these *)
Lemma wire_want v1 v2 r1 r2 : valid v1 -> valid v2 -> wire v1 ++ r1 = wire v2 ++ r2 -> want v1 = want v2.
Proof.
  intros H1 H2 E. destruct v1, v2; cbn [wire app want] in *; try reflexivity; try discriminate E;
    injection E; intros; subst; reflexivity.
Qed.
Lemma wire_inj v1 v2 r1 r2 : valid v1 -> valid v2 -> wire v1 ++ r1 = wire v2 ++ r2 -> v1 = v2 /\ r1 = r2.
Proof.
  intros H1 H2 E. pose proof (wire_want _ _ _ _ H1 H2 E) as W.
  pose proof (wire_accepts false v1 r1 H1) as A1. pose proof (wire_accepts false v2 r2 H2) as A2.
  rewrite E, W in A1. destruct (accepts_fun _ _ _ _ _ _ _ A1 A2). auto.
Qed.
Lemma wires_inj vs : forall vs', Forall valid vs -> Forall valid vs' -> wires vs = wires vs' -> vs = vs'.
Proof.
  induction vs as [|v vs IH]; intros vs' H H' E; destruct vs' as [|v' vs'].
  - reflexivity.
  - rewrite wires_cons in E. symmetry in E. apply app_eq_nil in E. destruct E as [E _].
    exfalso; exact (wire_nonempty _ E).
  - rewrite wires_cons in E. apply app_eq_nil in E. destruct E as [E _].
    exfalso; exact (wire_nonempty _ E).
  - inversion H; inversion H'; subst. rewrite !wires_cons in E.
    destruct (wire_inj _ _ _ _ H2 H6 E) as [-> E']. f_equal. apply IH; assumption.
Qed.
