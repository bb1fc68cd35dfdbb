(** Properties of the compact decoder semantics [ideal1]/[ideal2], from which the property
    theorems about the literal Go models follow through [decode_ideal]. *)
From Verif Require Import Base Spec SpecProofs GoLoop GoIdeal GoSpec.

(** ** Heads *)
Lemma header_dec q b : (exists t, b = header q ++ t) \/ (forall t, b <> header q ++ t).
Proof.
  assert (H : forall h b : bytes, (exists t, b = h ++ t) \/ (forall t, b <> h ++ t)).
  { induction h as [|x h IH]; intros l.
    - left. exists l. reflexivity.
    - destruct l as [|y l].
      + right. intros t; discriminate.
      + destruct (Z.eq_dec y x) as [->|Hn].
        * destruct (IH l) as [[t ->]|Hr].
          -- left. exists t. reflexivity.
          -- right. intros t Ht. injection Ht as Ht. exact (Hr t Ht).
        * right. intros t Ht. injection Ht as Ht _. contradiction. }
  apply H.
Qed.

(** scanning a non-empty rest *)
Lemma scan_view k t : t <> [] ->
  (exists ds r, scan k t = SDone ds r /\ vsplit (Z.of_nat k) t ds r) \/
  (scan k t = SLong /\ (forall ds r, ~ vsplit (Z.of_nat k) t ds r) /\ ~ truncated (Z.of_nat k) t) \/
  (scan k t = STrunc /\ truncated (Z.of_nat k) t /\ (forall ds r, ~ vsplit (Z.of_nat k) t ds r)).
Proof.
  intros Ht. destruct (scan k t) as [ds r| |] eqn:E.
  - left. exists ds, r. split; [reflexivity|]. apply scan_done; exact E.
  - right; left. split; [reflexivity|]. split.
    + intros ds r H. apply scan_done in H. congruence.
    + intros (_ & H1 & H2). assert (scan k t = STrunc) by (apply scan_trunc; auto). congruence.
  - right; right. split; [reflexivity|]. pose proof E as E'. apply scan_trunc in E'.
    split; [split; tauto|]. intros ds r H. apply scan_done in H. congruence.
Qed.
Lemma vsplit_nil k ds r : ~ vsplit k [] ds r.
Proof. intros (H & _ & cs & l & -> & _). destruct cs; discriminate H. Qed.
Lemma truncated_nil k : ~ truncated k [].
Proof. intros (H & _). contradiction. Qed.
Lemma vsplit_fun k t ds r ds' r' : vsplit k t ds r -> vsplit k t ds' r' -> ds = ds' /\ r = r'.
Proof.
  intros H H'. assert (Hk : 0 < k).
  { destruct H as (_ & Hl & cs & l & -> & _). rewrite zlen_app, zlen_cons, zlen_nil in Hl.
    pose proof (zlen_nonneg cs). lia. }
  rewrite <- (Z2Nat.id k) in H, H' by lia. apply scan_done in H, H'. rewrite H in H'.
  injection H' as <- <-. auto.
Qed.
Lemma truncated_vsplit k t ds r : truncated k t -> ~ vsplit k t ds r.
Proof.
  intros (Ht & Hl & Hc) H. destruct H as (-> & _ & cs & l & -> & _ & Hl2).
  rewrite <- app_assoc in Hc. apply Forall_app in Hc. destruct Hc as [_ Hc].
  inversion Hc; lia.
Qed.
Lemma vsplit_app k t ds r x : vsplit k t ds r -> vsplit k (t ++ x) ds (r ++ x).
Proof. intros (-> & H). split; [rewrite app_assoc; reflexivity|exact H]. Qed.
Lemma vsplit_other k t ds r r' : vsplit k t ds r -> vsplit k (ds ++ r') ds r'.
Proof. intros (_ & H). split; [reflexivity|exact H]. Qed.
Lemma truncated_0 t : ~ truncated 0 t.
Proof. intros (_ & H & _). pose proof (zlen_nonneg t). lia. Qed.

(** ** the length field *)
Lemma sub32_view t :
  (exists ds r, sub32 t = Sok r (dval ds mod 2 ^ 32) /\ length_at t ds r) \/
  (sub32 t = Sfail t /\ bad_length t) \/
  (sub32 t = Scrash /\ cut_at t).
Proof.
  assert (Hno : forall c u, c <> 10 -> bad_length (c :: u)).
  { intros c u Hc. split.
    - intros (v & He & _). injection He as He _. contradiction.
    - intros ds r (v & He & _). injection He as He _. contradiction. }
  unfold sub32. destruct t as [|c [|d u]].
  - right; left. split; [reflexivity|]. split.
    + intros (v & He & _); discriminate.
    + intros ds r (v & He & _); discriminate.
  - right; left. split; [reflexivity|]. split.
    + intros (v & He & Hv). injection He as -> <-. exact (truncated_nil _ Hv).
    + intros ds r (v & He & Hv). injection He as -> <-. exact (vsplit_nil _ _ _ Hv).
  - destruct (Z.eqb_spec c 10) as [->|Hc]; [|right; left; auto].
    destruct (scan_view 5 (d :: u)) as [(ds & r & -> & H)|[(-> & H1 & H2)|(-> & H1 & H2)]];
      [discriminate| | |].
    + left. exists ds, r. split; [reflexivity|]. exists (d :: u). auto.
    + right; left. split; [reflexivity|]. split.
      * intros (v & He & Hv). injection He as <-. exact (H2 Hv).
      * intros ds r (v & He & Hv). injection He as <-. exact (H1 _ _ Hv).
    + right; right. split; [reflexivity|]. exists (d :: u). auto.
Qed.
Lemma length_at_fun t ds r ds' r' : length_at t ds r -> length_at t ds' r' -> ds = ds' /\ r = r'.
Proof.
  intros (u & -> & H) (u' & He & H'). injection He as <-. eapply vsplit_fun; eassumption.
Qed.
Lemma length_at_cut t ds r : length_at t ds r -> ~ cut_at t.
Proof.
  intros (u & -> & H) (u' & He & H'). injection He as <-. exact (truncated_vsplit _ _ _ _ H' H).
Qed.
Lemma sub32_ok t ds r : length_at t ds r -> sub32 t = Sok r (dval ds mod 2 ^ 32).
Proof.
  intros H. destruct (sub32_view t) as [(ds' & r' & E & H')|[(E & H')|(E & H')]].
  - destruct (length_at_fun _ _ _ _ _ H H') as [<- <-]. exact E.
  - destruct H' as [_ H']. exfalso. exact (H' _ _ H).
  - exfalso. exact (length_at_cut _ _ _ H H').
Qed.
Lemma sub32_bad t : bad_length t -> sub32 t = Sfail t.
Proof.
  intros H. destruct (sub32_view t) as [(ds' & r' & E & H')|[(E & H')|(E & H')]].
  - exfalso. destruct H as [_ H]. exact (H _ _ H').
  - exact E.
  - exfalso. destruct H as [H _]. exact (H H').
Qed.
Lemma sub32_cut t : cut_at t -> sub32 t = Scrash.
Proof.
  intros H. destruct (sub32_view t) as [(ds' & r' & E & H')|[(E & H')|(E & H')]].
  - exfalso. exact (length_at_cut _ _ _ H' H).
  - exfalso. destruct H' as [H' _]. exact (H' H).
  - exact E.
Qed.
Lemma length_at_len t ds r : length_at t ds r -> zlen r < zlen t.
Proof.
  intros (u & -> & -> & _ & cs & l & -> & _). rewrite zlen_cons, !zlen_app, zlen_cons, zlen_nil.
  pose proof (zlen_nonneg cs). lia.
Qed.
Lemma length_at_app t ds r x : length_at t ds r -> length_at (t ++ x) ds (r ++ x).
Proof. intros (u & -> & H). exists (u ++ x). split; [reflexivity|]. apply vsplit_app; exact H. Qed.

(** ** scalars *)
Lemma scalar_head k n fin e t : scalar k n fin e (k :: t) =
  match t with
  | [] => Fail [k] e
  | _ => match scan n t with SDone ds r => Done r (fin (dval ds)) | SLong => Fail (k :: t) e | STrunc => Crash end
  end.
Proof. unfold scalar. rewrite Z.eqb_refl. destruct t; reflexivity. Qed.

(** ** wrong kind *)
Lemma ideal1_kind W dst q b : (forall t, b <> header q ++ t) -> ideal1 W dst q b = Fail b (error_of q).
Proof.
  intros H. destruct q; cbn [ideal1 header error_of stringy scalar] in *;
  repeat match goal with
  | |- context [match ?l with [] => _ | _ => _ end] => is_var l; destruct l
  | |- context [if ?x =? ?y then _ else _] => destruct (Z.eqb_spec x y); subst
  | |- context [if (?x =? ?y) && _ then _ else _] => destruct (Z.eqb_spec x y); subst; cbn [andb]
  | |- context [if (?x =? ?y) && _ && _ then _ else _] => destruct (Z.eqb_spec x y); subst; cbn [andb]
  end; try reflexivity; try (exfalso; eapply H; reflexivity); unfold scalar;
  repeat match goal with
  | |- context [match ?l with [] => _ | _ => _ end] => is_var l; destruct l
  | |- context [if ?x =? ?y then _ else _] => destruct (Z.eqb_spec x y); subst
  end; try reflexivity; try (exfalso; eapply H; reflexivity).
  all: unfold stringy;  repeat match goal with
  | |- context [match ?l with [] => _ | _ => _ end] => is_var l; destruct l
  | |- context [if ?x =? ?y then _ else _] => destruct (Z.eqb_spec x y); subst
  end; try reflexivity; try (exfalso; eapply H; reflexivity).
Qed.
Lemma ideal2_kind W dst q b : (forall t, b <> header q ++ t) -> ideal2 W dst q b = Fail b (error_of q).
Proof.
  intros H. pose proof (ideal1_kind W None q b H) as H1. destruct q; try exact H1; cbn [ideal2].
  - destruct b as [|? [|? [|? [|? ?]]]]; try exact H1; reflexivity.
  - destruct b as [|? [|? [|? ?]]]; try exact H1; reflexivity.
  - destruct b as [|a [|x [|d t]]]; try reflexivity.
    destruct (Z.eqb_spec a 4) as [->|]; [|reflexivity]. exfalso; eapply H; reflexivity.
  - destruct b as [|? [|? ?]]; try exact H1; reflexivity.
  - destruct b as [|c t]; [reflexivity|].
    destruct (Z.eqb_spec c 6) as [->|]; [|reflexivity]. exfalso; eapply H; reflexivity.
  - destruct b as [|c [|x t]]; try reflexivity.
    destruct (Z.eqb_spec c 7) as [->|]; [|reflexivity]. exfalso; eapply H; reflexivity.
Qed.

(** ** big-endian bytes *)
Lemma be4_bytes b1 b2 b3 b4 : isbyte b1 -> isbyte b2 -> isbyte b3 -> isbyte b4 ->
  [b1; b2; b3; b4] = be4 (be4_val b1 b2 b3 b4) /\ 0 <= be4_val b1 b2 b3 b4 < 2 ^ 32.
Proof.
  unfold isbyte, be4, be4_val; intros H1 H2 H3 H4. split; [|lia].
  f_equal; [lia|]. f_equal; [lia|]. f_equal; [lia|]. f_equal. lia.
Qed.
Lemma be8_bytes b1 b2 b3 b4 b5 b6 b7 b8 : isbyte b1 -> isbyte b2 -> isbyte b3 -> isbyte b4 ->
  isbyte b5 -> isbyte b6 -> isbyte b7 -> isbyte b8 ->
  [b1; b2; b3; b4; b5; b6; b7; b8] = be8 (be8_val b1 b2 b3 b4 b5 b6 b7 b8) /\
  0 <= be8_val b1 b2 b3 b4 b5 b6 b7 b8 < 2 ^ 64.
Proof.
  intros H1 H2 H3 H4 H5 H6 H7 H8.
  destruct (be4_bytes b1 b2 b3 b4) as [Ea Ra]; try assumption.
  destruct (be4_bytes b5 b6 b7 b8) as [Eb Rb]; try assumption.
  unfold be8_val. set (x := be4_val b1 b2 b3 b4) in *. set (y := be4_val b5 b6 b7 b8) in *.
  split; [|lia]. unfold be8.
  change ([b1; b2; b3; b4; b5; b6; b7; b8]) with ([b1; b2; b3; b4] ++ [b5; b6; b7; b8]).
  rewrite Ea, Eb. f_equal.
  - rewrite <- be4_hi. f_equal. rewrite Z.div_add by lia. rewrite (Z.div_small y) by lia. lia.
  - unfold be4. f_equal; [lia|]. f_equal; [lia|]. f_equal; [lia|]. f_equal. lia.
Qed.

(** ** payloads, 64-bit *)
Lemma payload_view r n : 0 <= n < 2 ^ 32 ->
  (exists p r', r = p ++ r' /\ zlen p = n /\ payload 64 r n = Pok r' p) \/
  (zlen r < n /\ payload 64 r n = Pfail r).
Proof.
  intros Hn. rewrite payload_64 by exact Hn. destruct (Z.leb_spec n (zlen r)).
  - left. exists (ztake n r), (zdrop n r). rewrite ztake_zdrop, zlen_ztake by lia. auto.
  - right. auto.
Qed.
Lemma payload_ok64 p r : zlen p < 2 ^ 32 -> payload 64 (p ++ r) (zlen p) = Pok r p.
Proof.
  intros Hp. pose proof (zlen_nonneg p). pose proof (zlen_nonneg r).
  rewrite payload_64 by lia. rewrite zlen_app. destruct (Z.leb_spec (zlen p) (zlen p + zlen r)); [|lia].
  rewrite zdrop_app_exact, ztake_app_exact. reflexivity.
Qed.
Lemma payload_fail64 r n : 0 <= n < 2 ^ 32 -> zlen r < n -> payload 64 r n = Pfail r.
Proof. intros. rewrite payload_64 by lia. destruct (Z.leb_spec n (zlen r)); [lia|reflexivity]. Qed.
Lemma dlen_range ds : 0 <= dval ds mod 2 ^ 32 < 2 ^ 32.
Proof. apply Z.mod_pos_bound; lia. Qed.

(** ** the meaning of an outcome *)
Definition meaning1 (q : request) (b : bytes) (o : outcome) : Prop :=
  match o with
  | Done r v => accepts false q b r v
  | Fail r e => e = error_of q /\ left1 q b r
  | Crash => crashes q b
  end.
Definition meaning2 (q : request) (b : bytes) (o : outcome) : Prop :=
  match o with
  | Done r v => accepts true q b r v
  | Fail r e => e = error_of q /\ left2 q b r
  | Crash => crashes q b
  end.

Lemma cut_crash q t : lead q = header q ++ [10] -> digits q = 5 -> cut_at t -> crashes q (header q ++ t).
Proof.
  intros Hl Hd (u & -> & H). exists u. rewrite Hl, Hd, <- app_assoc. split; [reflexivity|exact H].
Qed.

Ltac heads := cbn [header app ideal1 ideal2 stringy]; rewrite ?Z.eqb_refl; cbn [andb].

Lemma stringy_view t :
  (exists ds p r, length_at t ds (p ++ r) /\ zlen p = dval ds mod 2 ^ 32 /\
     stringy 64 (5 :: t) = Pok r p) \/
  (exists ds r, length_at t ds r /\ zlen r < dval ds mod 2 ^ 32 /\ stringy 64 (5 :: t) = Pfail r) \/
  (bad_length t /\ stringy 64 (5 :: t) = Pfail t) \/
  (cut_at t /\ stringy 64 (5 :: t) = Pcrash).
Proof.
  cbn [stringy]. rewrite Z.eqb_refl.
  destruct (sub32_view t) as [(ds & r & -> & H)|[(-> & H)|(-> & H)]].
  - destruct (payload_view r (dval ds mod 2 ^ 32) (dlen_range ds))
      as [(p & r' & -> & Hp & ->)|(Hp & ->)].
    + left. exists ds, p, r'. auto.
    + right; left. exists ds, r. auto.
  - right; right; left. auto.
  - right; right; right. auto.
Qed.

(** integers *)
Lemma scalar_meaning1 (v2 : bool) q k n fin t :
  header q = [k] -> scalar_req q -> lead q = [k] -> digits q = Z.of_nat n ->
  (forall m, int_value q m = Some (fin m)) ->
  scalar_shape1 q t = (exists ds r, vsplit (digits q) t ds r) ->
  match scalar k n fin (error_of q) (k :: t) with
  | Done r v => accepts v2 q (k :: t) r v
  | Fail r e => e = error_of q /\ r = k :: t /\ ~ scalar_shape1 q t /\ ~ truncated (digits q) t
  | Crash => crashes q (k :: t)
  end.
Proof.
  intros Hh Hs Hl Hd Hv Hsh. rewrite scalar_head. destruct t as [|d t].
  - split; [reflexivity|]. split; [reflexivity|]. rewrite Hsh. split.
    + intros (ds & r & H). exact (vsplit_nil _ _ _ H).
    + apply truncated_nil.
  - destruct (scan_view n (d :: t)) as [(ds & r & -> & H)|[(-> & H1 & H2)|(-> & H1 & H2)]];
      [discriminate| | |].
    + change (k :: d :: t) with ([k] ++ (d :: t)). rewrite <- Hh. eapply A_int; [|apply Hv].
      rewrite Hd. exact H.
    + split; [reflexivity|]. split; [reflexivity|]. rewrite Hsh, Hd. split; [|exact H2].
      intros (ds & r & H). exact (H1 _ _ H).
    + exists (d :: t). rewrite Hl, Hd. split; [reflexivity|exact H1].
Qed.

Ltac short := match goal with |- ~ (?n <= zlen ?l) => rewrite ?zlen_cons, ?zlen_nil; lia end.

Lemma ideal1_sound q b : bytes_ok b -> meaning1 q b (ideal1 64 None q b).
Proof.
  intros Hb. destruct (header_dec q b) as [[t ->]|Hn].
  2:{ rewrite ideal1_kind by exact Hn. split; [reflexivity|]. apply L1_kind; exact Hn. }
  destruct q.
  - heads. constructor.
  - heads. destruct (sub32_view t) as [(ds & r & -> & H)|[(-> & H)|(-> & H)]].
    + constructor; exact H.
    + split; [reflexivity|]. apply (L1_length (RMap keyKind valueKind)); [intros []|discriminate|exact H].
    + apply (cut_crash (RMap keyKind valueKind)); auto.
  - heads. destruct (sub32_view t) as [(ds & r & -> & H)|[(-> & H)|(-> & H)]].
    + constructor; exact H.
    + split; [reflexivity|]. apply (L1_length (RSlice kind)); [intros []|discriminate|exact H].
    + apply (cut_crash (RSlice kind)); auto.
  - heads. destruct (sub32_view t) as [(ds & r & -> & H)|[(-> & H)|(-> & H)]].
    + destruct (payload_view r (dval ds mod 2 ^ 32) (dlen_range ds))
        as [(p & r' & -> & Hp & ->)|(Hp & ->)].
      * cbn [bytes_result]. eapply A_bytes; eassumption.
      * split; [reflexivity|]. eapply (L1_payload RBytes); eauto.
    + split; [reflexivity|]. apply (L1_length RBytes); [intros []|discriminate|exact H].
    + apply (cut_crash RBytes); auto.
  - cbn [header app ideal1].
    destruct (stringy_view t) as [(ds & p & r & H & Hp & ->)|[(ds & r & H & Hp & ->)|[(H & ->)|(H & ->)]]].
    + eapply A_string; eassumption.
    + split; [reflexivity|]. eapply (L1_payload RString); eauto.
    + split; [reflexivity|]. apply (L1_length RString); [intros []|discriminate|exact H].
    + apply (cut_crash RString); auto.
  - cbn [header app ideal1]. rewrite Z.eqb_refl.
    destruct (header_dec RString t) as [[u ->]|Hn].
    2:{ cbn [header] in Hn. assert (stringy 64 t = Pfail t) as ->.
        { unfold stringy. destruct t as [|c t]; [reflexivity|].
          destruct (Z.eqb_spec c 5) as [->|]; [|reflexivity]. exfalso; eapply Hn; reflexivity. }
        split; [reflexivity|]. apply L1_error, L1_kind. exact Hn. }
    cbn [header app] in *.
    destruct (stringy_view u) as [(ds & p & r & H & Hp & ->)|[(ds & r & H & Hp & ->)|[(H & ->)|(H & ->)]]].
    + eapply A_error; eassumption.
    + split; [reflexivity|]. apply L1_error. eapply (L1_payload RString); eauto.
    + split; [reflexivity|]. apply L1_error. apply (L1_length RString); [intros []|discriminate|exact H].
    + destruct H as (v & -> & H). exists v. split; [reflexivity|exact H].
  - destruct t as [|x t]; heads.
    + split; [reflexivity|]. apply (L1_scalar RBool []); [exact I|cbn [scalar_shape1]; short|apply truncated_nil].
    + constructor. discriminate.
  - destruct t as [|x t]; heads.
    + split; [reflexivity|]. apply (L1_scalar RU8 []); [exact I|cbn [scalar_shape1]; short|apply truncated_nil].
    + constructor.
  - cbn [ideal1]. pose proof (scalar_meaning1 false RU16 9 3 (fun n => VU16 (n mod 2 ^ 16)) t
      eq_refl I eq_refl eq_refl (fun m => eq_refl) eq_refl) as H. cbn [header app error_of] in *.
    destruct (scalar _ _ _ _ _); try exact H. destruct H as (He & -> & H1 & H2).
    split; [exact He|]. apply (L1_scalar RU16); auto. exact I.
  - cbn [ideal1]. pose proof (scalar_meaning1 false RU32 10 5 (fun n => VU32 (n mod 2 ^ 32)) t
      eq_refl I eq_refl eq_refl (fun m => eq_refl) eq_refl) as H. cbn [header app error_of] in *.
    destruct (scalar _ _ _ _ _); try exact H. destruct H as (He & -> & H1 & H2).
    split; [exact He|]. apply (L1_scalar RU32); auto. exact I.
  - cbn [ideal1]. pose proof (scalar_meaning1 false RU64 11 10 (fun n => VU64 (n mod 2 ^ 64)) t
      eq_refl I eq_refl eq_refl (fun m => eq_refl) eq_refl) as H. cbn [header app error_of] in *.
    destruct (scalar _ _ _ _ _); try exact H. destruct H as (He & -> & H1 & H2).
    split; [exact He|]. apply (L1_scalar RU64); auto. exact I.
  - cbn [ideal1]. pose proof (scalar_meaning1 false RI32 12 5 (fun n => VI32 (unzigzag (n mod 2 ^ 32))) t
      eq_refl I eq_refl eq_refl (fun m => eq_refl) eq_refl) as H. cbn [header app error_of] in *.
    destruct (scalar _ _ _ _ _); try exact H. destruct H as (He & -> & H1 & H2).
    split; [exact He|]. apply (L1_scalar RI32); auto. exact I.
  - cbn [ideal1]. pose proof (scalar_meaning1 false RI64 13 10 (fun n => VI64 (unzigzag (n mod 2 ^ 64))) t
      eq_refl I eq_refl eq_refl (fun m => eq_refl) eq_refl) as H. cbn [header app error_of] in *.
    destruct (scalar _ _ _ _ _); try exact H. destruct H as (He & -> & H1 & H2).
    split; [exact He|]. apply (L1_scalar RI64); auto. exact I.
  - assert (HF : forall u, zlen u < 4 -> left1 RF32 ([14] ++ u) ([14] ++ u)).
    { intros u Hu. apply (L1_scalar RF32); [exact I|cbn [scalar_shape1]; lia|apply truncated_0]. }
    destruct t as [|b1 [|b2 [|b3 [|b4 t]]]]; heads;
      try (split; [reflexivity|]; apply HF; rewrite ?zlen_cons, zlen_nil; lia).
    cbn [header app] in Hb. rewrite !bytes_ok_cons in Hb.
    destruct (be4_bytes b1 b2 b3 b4) as [E R]; try tauto.
    cbn [meaning1].
    match goal with |- accepts _ _ ?b _ _ =>
      change b with (14 :: [b1; b2; b3; b4] ++ t) end.
    rewrite E. apply A_f32. exact R.
  - assert (HF : forall u, zlen u < 8 -> left1 RF64 ([15] ++ u) ([15] ++ u)).
    { intros u Hu. apply (L1_scalar RF64); [exact I|cbn [scalar_shape1]; lia|apply truncated_0]. }
    destruct t as [|b1 [|b2 [|b3 [|b4 [|b5 [|b6 [|b7 [|b8 t]]]]]]]]; heads;
      try (split; [reflexivity|]; apply HF; rewrite ?zlen_cons, zlen_nil; lia).
    cbn [header app] in Hb. rewrite !bytes_ok_cons in Hb.
    destruct (be8_bytes b1 b2 b3 b4 b5 b6 b7 b8) as [E R]; try tauto.
    cbn [meaning1].
    match goal with |- accepts _ _ ?b _ _ =>
      change b with (15 :: [b1; b2; b3; b4; b5; b6; b7; b8] ++ t) end.
    rewrite E. apply A_f64. exact R.
Qed.

(** ** completeness: each meaning determines the outcome *)
Lemma scalar_ok k n fin e t ds r : vsplit (Z.of_nat n) t ds r ->
  scalar k n fin e (k :: t) = Done r (fin (dval ds)).
Proof.
  intros H. rewrite scalar_head. destruct t as [|d t]; [exfalso; exact (vsplit_nil _ _ _ H)|].
  apply scan_done in H. rewrite H. reflexivity.
Qed.
Lemma scalar_crash k n fin e t : truncated (Z.of_nat n) t -> scalar k n fin e (k :: t) = Crash.
Proof.
  intros (Ht & Hl & Hc). rewrite scalar_head. destruct t as [|d t]; [contradiction|].
  assert (scan n (d :: t) = STrunc) as -> by (apply scan_trunc; auto). reflexivity.
Qed.
Lemma scalar_fail k n fin e t : (forall ds r, ~ vsplit (Z.of_nat n) t ds r) ->
  ~ truncated (Z.of_nat n) t -> scalar k n fin e (k :: t) = Fail (k :: t) e.
Proof.
  intros H1 H2. rewrite scalar_head. destruct t as [|d t]; [reflexivity|].
  destruct (scan_view n (d :: t)) as [(ds & r & -> & H)|[(-> & H)|(-> & H & _)]];
    [discriminate| | |].
  - exfalso. exact (H1 _ _ H).
  - reflexivity.
  - exfalso. exact (H2 H).
Qed.
Lemma stringy_ok t ds p r : length_at t ds (p ++ r) -> zlen p = dval ds mod 2 ^ 32 ->
  stringy 64 (5 :: t) = Pok r p.
Proof.
  intros H Hp. cbn [stringy]. rewrite Z.eqb_refl. rewrite (sub32_ok _ _ _ H), <- Hp.
  apply payload_ok64. pose proof (dlen_range ds). lia.
Qed.
Lemma stringy_fail t ds r : length_at t ds r -> zlen r < dval ds mod 2 ^ 32 ->
  stringy 64 (5 :: t) = Pfail r.
Proof.
  intros H Hp. cbn [stringy]. rewrite Z.eqb_refl. rewrite (sub32_ok _ _ _ H).
  apply payload_fail64; [apply dlen_range|exact Hp].
Qed.
Lemma stringy_bad t : bad_length t -> stringy 64 (5 :: t) = Pfail t.
Proof. intros H. cbn [stringy]. rewrite Z.eqb_refl. rewrite (sub32_bad _ H). reflexivity. Qed.
Lemma stringy_kind t : (forall u, t <> [5] ++ u) -> stringy 64 t = Pfail t.
Proof.
  intros H. unfold stringy. destruct t as [|c t]; [reflexivity|].
  destruct (Z.eqb_spec c 5) as [->|]; [|reflexivity]. exfalso; eapply H; reflexivity.
Qed.

Lemma ideal1_accepts q b r v : accepts false q b r v -> ideal1 64 None q b = Done r v.
Proof.
  intros H. destruct H; heads; try reflexivity; try discriminate.
  - destruct q; try discriminate; cbn [int_value] in *;
      injection H0 as <-; cbn [header app ideal1]; rewrite (scalar_ok _ _ _ _ _ ds r) by exact H; reflexivity.
  - cbn [be4 app]. rewrite be4_val_be4 by assumption. reflexivity.
  - cbn [be8 be4 app]. rewrite be8_val_be8 by assumption. reflexivity.
  - rewrite (sub32_ok _ _ _ H). reflexivity.
  - rewrite (sub32_ok _ _ _ H). reflexivity.
  - rewrite (sub32_ok _ _ _ H). rewrite <- H0. rewrite payload_ok64; [reflexivity|].
    pose proof (dlen_range ds). lia.
  - rewrite (sub32_ok _ _ _ H). rewrite <- H0. rewrite payload_ok64; [reflexivity|].
    pose proof (dlen_range ds). lia.
  - rewrite (sub32_ok _ _ _ H). rewrite <- H0. rewrite payload_ok64; [reflexivity|].
    pose proof (dlen_range ds). lia.
Qed.
Lemma short_fail {A} (n : Z) (t : list A) : ~ n <= zlen t -> zlen t < n.
Proof. lia. Qed.
Lemma ideal1_left q b r : left1 q b r -> ideal1 64 None q b = Fail r (error_of q).
Proof.
  intros H. induction H as [q b H|q t Hs Hn Ht|q t Hs He Hb|q t ds r Hq Hl Hp|t r H IH].
  - apply ideal1_kind; exact H.
  - destruct q; cbn [scalar_req scalar_shape1] in *; try contradiction; try (exfalso; apply Hn; exact I);
      cbn [ideal1 header app error_of];
      try (apply scalar_fail; [intros ds r H; apply Hn; exists ds, r; exact H|exact Ht]).
    all: apply short_fail in Hn.
    all: repeat match goal with
         | |- context [match ?l with [] => _ | _ => _ end] => is_var l; destruct l;
             try reflexivity; rewrite ?zlen_cons in Hn
         end; match goal with Hn : context [zlen ?l] |- _ => pose proof (zlen_nonneg l) end; lia.
  - destruct q; cbn [scalar_req] in *; try (exfalso; apply Hs; exact I); try congruence; heads;
      rewrite (sub32_bad _ Hb); reflexivity.
  - destruct Hq as [-> | ->]; heads; rewrite (sub32_ok _ _ _ Hl);
      rewrite payload_fail64 by (try apply dlen_range; exact Hp); reflexivity.
  - heads. cbn [ideal1] in IH. destruct (stringy 64 t); try discriminate.
    injection IH as ->. reflexivity.
Qed.
Lemma ideal1_crashes W dst q b : crashes q b -> ideal1 W dst q b = Crash.
Proof.
  intros (t & -> & H).
  assert (HC : digits q = 5 -> cut_at (10 :: t)).
  { intros E. exists t. split; [reflexivity|]. rewrite <- E. exact H. }
  destruct q; cbn [digits] in *; try (exfalso; exact (truncated_0 _ H)); cbn [lead header app ideal1];
    try (apply scalar_crash; exact H); unfold stringy; rewrite ?Z.eqb_refl; cbn [andb];
    rewrite (sub32_cut _ (HC eq_refl)); reflexivity.
Qed.

Theorem ideal1_iff q b o : bytes_ok b -> ideal1 64 None q b = o <-> meaning1 q b o.
Proof.
  intros Hb. split.
  - intros <-. apply ideal1_sound; exact Hb.
  - destruct o as [r v|r e|]; cbn [meaning1].
    + apply ideal1_accepts.
    + intros [-> H]. apply ideal1_left; exact H.
    + apply ideal1_crashes.
Qed.

(** ** v2 *)
Lemma accepts_12 q b r v : accepts false q b r v -> q <> RBool -> accepts true q b r v.
Proof.
  intros H Hq. destruct H; try contradiction; try discriminate; try (constructor; assumption).
  - eapply A_int; eassumption.
  - eapply A_bytes; eassumption.
  - eapply A_string; eassumption.
  - eapply A_error; eassumption.
Qed.
Lemma left_12 q b r : left1 q b r -> q <> RBool -> q <> RBytes -> q <> RError ->
  (scalar_req q \/ b <> header q) -> left2 q b r.
Proof.
  intros H Hb Hby He Hh. destruct H as [q b H|q t Hs Hn Ht|q t Hs He' Hb'|q t ds r Hq Hl Hp|t r H].
  - apply L2_kind; exact H.
  - apply L2_scalar; try assumption. destruct q; cbn [scalar_shape2]; try assumption. contradiction.
  - apply L2_length; try assumption. intros ->. rewrite app_nil_r in Hh. tauto.
  - destruct Hq as [-> | ->]; [contradiction|]. eapply L2_string; eassumption.
  - contradiction.
Qed.
Lemma meaning_12 q b o : meaning1 q b o -> q <> RBool -> q <> RBytes -> q <> RError ->
  (scalar_req q \/ b <> header q) -> meaning2 q b o.
Proof.
  intros H Hb Hby He Hh. destruct o as [r v|r e|]; cbn [meaning1 meaning2] in *.
  - apply accepts_12; assumption.
  - destruct H as [He2 H]. split; [exact He2|]. apply left_12; assumption.
  - exact H.
Qed.

Lemma string2_sound b : bytes_ok b -> meaning2 RString b (ideal2 64 None RString b).
Proof.
  intros Hb. assert (HB : b <> header RString -> meaning2 RString b (ideal1 64 None RString b)).
  { intros Hn. apply meaning_12; try discriminate; [apply ideal1_sound; exact Hb|].
    right; exact Hn. }
  cbn [ideal2]. destruct b as [|c [|d t]]; try (apply HB; discriminate).
  split; [reflexivity|]. destruct (Z.eq_dec c 5) as [->|Hc].
  - apply (L2_bare RString). intros [].
  - apply L2_kind. intros t Ht. injection Ht as Ht _. contradiction.
Qed.

Lemma ideal2_sound q b : bytes_ok b -> meaning2 q b (ideal2 64 None q b).
Proof.
  intros Hb. destruct (header_dec q b) as [[t ->]|Hn].
  2:{ rewrite ideal2_kind by exact Hn. split; [reflexivity|]. apply L2_kind; exact Hn. }
  destruct q;
    try (apply meaning_12; [apply (ideal1_sound _ _ Hb)|discriminate|discriminate|discriminate|left; exact I]).
  - destruct t as [|x t].
    + split; [reflexivity|]. apply (L2_bare (RMap keyKind valueKind)). intros [].
    + apply meaning_12; [apply (ideal1_sound (RMap keyKind valueKind) _ Hb)| | | |]; try discriminate.
      right; discriminate.
  - destruct t as [|x t].
    + split; [reflexivity|]. apply (L2_bare (RSlice kind)). intros [].
    + apply meaning_12; [apply (ideal1_sound (RSlice kind) _ Hb)| | | |]; try discriminate.
      right; discriminate.
  - assert (HB : forall u, (forall v, u <> 10 :: v) -> bad_length u /\
      (forall cs r, u = 10 :: cs ++ r -> zlen cs = 5 -> ~ Forall (fun c => 128 <= c) cs)).
    { intros u Hu. split; [split|].
      - intros (v & -> & _). exact (Hu _ eq_refl).
      - intros ds r (v & -> & _). exact (Hu _ eq_refl).
      - intros cs r -> _. exfalso. exact (Hu _ eq_refl). }
    cbn [header app ideal2]. destruct t as [|x [|d t]].
    + split; [reflexivity|]. apply (L2_bare RBytes). intros [].
    + split; [reflexivity|]. destruct (Z.eq_dec x 10) as [->|Hx].
      * apply L2_bytes_length.
        -- split; [intros (v & He & Hv); injection He as <-; exact (truncated_nil _ Hv)|].
           intros ds r (v & He & Hv). injection He as <-. exact (vsplit_nil _ _ _ Hv).
        -- intros cs r He Hl. destruct cs; [|discriminate]. rewrite zlen_nil in Hl. lia.
      * apply L2_bytes_length; apply HB; congruence.
    + rewrite Z.eqb_refl. cbn [andb]. destruct (Z.eqb_spec x 10) as [->|Hx].
      2:{ split; [reflexivity|]. apply L2_bytes_length; apply HB; congruence. }
      destruct (scan 5 (d :: t)) as [ds r| |] eqn:E.
      * apply scan_done in E. assert (H : length_at (10 :: d :: t) ds r) by (exists (d :: t); auto).
        destruct (payload_view r (dval ds mod 2 ^ 32) (dlen_range ds))
          as [(p & r' & -> & Hp & ->)|(Hp & ->)].
        -- eapply A_bytes; eassumption.
        -- split; [reflexivity|]. eapply L2_bytes_payload; eassumption.
      * apply scan_long in E. destruct E as (cs & r & -> & Hl & Hc).
        apply A_bytes_overlong; auto.
      * apply scan_trunc in E. exists (d :: t). split; [reflexivity|].
        split; [discriminate|]. tauto.
  - apply string2_sound; exact Hb.
  - assert (Ht : bytes_ok t) by (apply bytes_ok_cons in Hb; tauto).
    pose proof (string2_sound t Ht) as S. cbn [header app ideal2] in *. rewrite Z.eqb_refl.
    destruct t as [|x [|y t]].
    + split; [reflexivity|]. apply (L2_bare RError). intros [].
    + split; [reflexivity|]. apply L2_error; [discriminate|]. destruct S as [_ S]. exact S.
    + cbn [ideal1] in S. destruct (stringy 64 (x :: y :: t)) as [r p|r|] eqn:E; cbn [meaning2] in *.
      * inversion S; subst; [discriminate|]. eapply A_error; eassumption.
      * destruct S as [_ S]. split; [reflexivity|]. apply L2_error; [discriminate|exact S].
      * destruct S as (u & Hu & Hc). exists u. split; [|exact Hc]. cbn [lead] in *. rewrite Hu.
        reflexivity.
  - cbn [header app ideal2]. destruct t as [|x t].
    + split; [reflexivity|]. apply (L2_scalar RBool []); [exact I| |apply truncated_nil].
      intros (r & [Hr|Hr]); discriminate.
    + rewrite Z.eqb_refl. destruct (Z.eqb_spec x 1) as [->|H1].
      * apply (A_bool true 1 t). auto.
      * destruct (Z.eqb_spec x 0) as [->|H0].
        -- apply (A_bool true 0 t). auto.
        -- split; [reflexivity|]. apply (L2_scalar RBool (x :: t)); [exact I| |apply truncated_0].
           intros (r & [Hr|Hr]); injection Hr as Hr _; contradiction.
Qed.

Lemma ideal2_string_ne c d t : ideal2 64 None RString (c :: d :: t) = ideal1 64 None RString (c :: d :: t).
Proof. reflexivity. Qed.

Lemma length_at_ne t ds r : length_at t ds r -> exists d u, t = 10 :: d :: u.
Proof.
  intros (u & -> & H). destruct u as [|d u]; [exfalso; exact (vsplit_nil _ _ _ H)|]. eauto.
Qed.

Lemma ideal2_accepts q b r v : accepts true q b r v -> ideal2 64 None q b = Done r v.
Proof.
  intros H. destruct H; try reflexivity.
  - destruct (H eq_refl) as [-> | ->]; reflexivity.
  - destruct q; try discriminate; cbn [int_value] in *;
      injection H0 as <-; cbn [header app ideal2 ideal1]; rewrite (scalar_ok _ _ _ _ _ ds r) by exact H; reflexivity.
  - apply (ideal1_accepts RF32). constructor. exact H.
  - apply (ideal1_accepts RF64). constructor. exact H.
  - destruct (length_at_ne _ _ _ H) as (d & u & ->).
    apply (ideal1_accepts (RMap k1 k2)). constructor. exact H.
  - destruct (length_at_ne _ _ _ H) as (d & u & ->).
    apply (ideal1_accepts (RSlice k)). constructor. exact H.
  - destruct H as (u & -> & H). cbn [ideal2]. destruct u as [|d u]; [exfalso; exact (vsplit_nil _ _ _ H)|].
    rewrite !Z.eqb_refl. cbn [andb]. apply (scan_done 5) in H. rewrite H, <- H0.
    rewrite payload_ok64; [reflexivity|]. pose proof (dlen_range ds). lia.
  - destruct (length_at_ne _ _ _ H) as (d & u & ->).
    apply (ideal1_accepts RString). econstructor; eassumption.
  - destruct (length_at_ne _ _ _ H) as (d & u & ->). cbn [ideal2]. rewrite Z.eqb_refl.
    rewrite (stringy_ok _ _ _ _ H H0). reflexivity.
  - cbn [ideal2]. destruct cs as [|c cs]; [rewrite zlen_nil in H0; lia|].
    cbn [app]. rewrite !Z.eqb_refl. cbn [andb].
    assert (scan 5 (c :: cs ++ r) = SLong) as ->; [|reflexivity].
    apply scan_long. exists (c :: cs), r. auto.
Qed.
Lemma ideal2_left q b r : left2 q b r -> ideal2 64 None q b = Fail r (error_of q).
Proof.
  intros H. induction H as [q b H|q H|q t Hs Hn Ht|q t Hs He Hby Hne Hb|t ds r Hl Hp|t r Hne H IH|t Hb Hc|t ds r Hl Hp].
  - apply ideal2_kind; exact H.
  - destruct q; cbn [scalar_req] in H; try (exfalso; apply H; exact I); reflexivity.
  - destruct q; cbn [scalar_req] in Hs; try contradiction;
      try (match goal with |- ideal2 64 None ?q _ = _ =>
             exact (ideal1_left q _ _ (L1_scalar q t I Hn Ht)) end).
    cbn [header app ideal2 error_of]. destruct t as [|x t]; [reflexivity|]. rewrite Z.eqb_refl.
    destruct (Z.eqb_spec x 1) as [->|]; [exfalso; apply Hn; exists t; auto|].
    destruct (Z.eqb_spec x 0) as [->|]; [exfalso; apply Hn; exists t; auto|]. reflexivity.
  - destruct t as [|x t]; [contradiction|].
    destruct q; cbn [scalar_req] in Hs; try (exfalso; apply Hs; exact I); try contradiction.
    all: match goal with |- ideal2 64 None ?q _ = _ => apply (ideal1_left q _ _ (L1_length q _ Hs He Hb)) end.
  - destruct (length_at_ne _ _ _ Hl) as (d & u & ->).
    apply (ideal1_left RString). eapply (L1_payload RString); eauto.
  - cbn [ideal2 error_of] in *. rewrite Z.eqb_refl. destruct t as [|x [|y t]]; [contradiction| |].
    + injection IH as <-. reflexivity.
    + cbn [ideal1] in IH. destruct (stringy 64 (x :: y :: t)); try discriminate.
      injection IH as ->. reflexivity.
  - cbn [ideal2 error_of]. destruct t as [|x [|d t]]; try reflexivity. rewrite Z.eqb_refl.
    destruct (Z.eqb_spec x 10) as [->|]; [|reflexivity]. cbn [andb].
    destruct (scan 5 (d :: t)) as [ds r| |] eqn:E.
    + exfalso. destruct Hb as [_ Hb]. apply (Hb ds r). exists (d :: t). split; [reflexivity|].
      apply (scan_done 5); exact E.
    + exfalso. apply scan_long in E. destruct E as (cs & r & E & Hl & Hf). rewrite E in Hc.
      exact (Hc cs r eq_refl Hl Hf).
    + exfalso. destruct Hb as [Hb _]. apply Hb. exists (d :: t). split; [reflexivity|].
      apply scan_trunc in E. split; [discriminate|tauto].
  - destruct Hl as (u & -> & H). destruct u as [|d u]; [exfalso; exact (vsplit_nil _ _ _ H)|].
    cbn [ideal2 error_of]. rewrite !Z.eqb_refl. cbn [andb]. apply (scan_done 5) in H. rewrite H.
    rewrite payload_fail64 by (try apply dlen_range; exact Hp). reflexivity.
Qed.
Lemma ideal2_crashes W dst q b : crashes q b -> ideal2 W dst q b = Crash.
Proof.
  intros H. pose proof (ideal1_crashes W None q b H) as H1.
  destruct H as (t & -> & H).
  assert (Hne : exists x u, t = x :: u).
  { destruct t as [|x u]; [exfalso; exact (truncated_nil _ H)|eauto]. }
  destruct Hne as (x & u & ->).
  destruct q; try exact H1; cbn [digits] in H; try (exfalso; exact (truncated_0 _ H)).
  - cbn [lead app ideal2]. rewrite !Z.eqb_refl. cbn [andb].
    assert (scan 5 (x :: u) = STrunc) as ->; [|reflexivity].
    apply scan_trunc. destruct H as (_ & Ha & Hb). auto.
Qed.
Theorem ideal2_iff q b o : bytes_ok b -> ideal2 64 None q b = o <-> meaning2 q b o.
Proof.
  intros Hb. split.
  - intros <-. apply ideal2_sound; exact Hb.
  - destruct o as [r v|r e|]; cbn [meaning2].
    + apply ideal2_accepts.
    + intros [-> H]. apply ideal2_left; exact H.
    + apply ideal2_crashes.
Qed.
