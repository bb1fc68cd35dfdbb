(** Proofs about the Rust decoder: exact acceptance, failure and panic sets. *)
From Verif Require Import Base Spec SpecProofs Utf8 GoLoop GoIdeal GoSpec GoProps GoThms RustModel RustSpec RustDec.

Lemma text_from p : from_utf8 p = true <-> utf8 p.
Proof. apply from_utf8_iff. Qed.
Lemma vec_ok_lt rt n : vec_ok rt n = true <-> n < 2 ^ (W rt - 1).
Proof. unfold vec_ok. destruct (Z.leb_spec n (2 ^ (W rt - 1) - 1)); split; intros; try lia; reflexivity. Qed.

(** ** success *)
Lemma iint_scalar k n eo ek fin (mk : Z -> value) e t r v : 0 < Z.of_nat n ->
  ibind (iint k n eo ek fin t) (fun r a => ID r (mk a)) = ID r v <->
  scalar k n (fun d => mk (fin d)) e t = Done r v.
Proof.
  intros Hn. unfold iint, scalar. destruct t as [|c [|d u]].
  - split; discriminate.
  - destruct (c =? k); [|split; discriminate]. destruct n as [|n]; [lia|]. cbn [scan]. split; discriminate.
  - destruct (c =? k); [|split; discriminate]. destruct (scan n (d :: u)); cbn [ibind]; split; intros H;
      try discriminate; injection H as <- <-; reflexivity.
Qed.
Lemma iu32_sub32 t r n : iu32 t = ID r n <-> sub32 t = Sok r n.
Proof.
  unfold iu32, iint, sub32. destruct t as [|c [|d u]].
  - split; discriminate.
  - destruct (c =? 10); split; discriminate.
  - destruct (c =? 10); [|split; discriminate]. destruct (scan 5 (d :: u)); split; intros H;
      try discriminate; injection H as <- <-; reflexivity.
Qed.
Lemma ipay_v1 rt e text t r p : bytes_ok t -> int_ok (W rt) t ->
  ipay rt e text t = ID r p <->
  (exists r0 n, sub32 t = Sok r0 n /\ payload 64 r0 n = Pok r p) /\ (text = true -> utf8 p).
Proof.
  intros Ht [HW Hl]. unfold ipay. split.
  - destruct (iu32 t) as [r0 n| |] eqn:E; cbn [ibind]; try discriminate.
    destruct (iu32_facts t Ht r0 n E) as [Hn [x ->]]. apply iu32_sub32 in E.
    destruct (vec_ok rt n) eqn:Ev; [|discriminate]. apply vec_ok_lt in Ev.
    destruct (Z.leb_spec n (zlen r0)); [|discriminate].
    destruct (negb text || from_utf8 (ztake n r0)) eqn:Eu; [|discriminate]. intros H'; injection H' as <- <-.
    split.
    + exists r0, n. split; [exact E|]. rewrite payload_64 by lia. destruct (Z.leb_spec n (zlen r0)); [reflexivity|lia].
    + intros ->. apply text_from. exact Eu.
  - intros [(r0 & n & E & Hp) Hu]. apply iu32_sub32 in E. rewrite E. cbn [ibind].
    destruct (iu32_facts t Ht r0 n E) as [Hn [x ->]].
    rewrite payload_64 in Hp by lia. destruct (Z.leb_spec n (zlen r0)); [|discriminate].
    injection Hp as <- <-. rewrite zlen_app in Hl. pose proof (zlen_nonneg x).
    assert (vec_ok rt n = true) as -> by (apply vec_ok_lt; lia).
    destruct text; cbn [negb orb]; [|reflexivity].
    assert (from_utf8 (ztake n r0) = true) as -> by (apply text_from; apply Hu; reflexivity). reflexivity.
Qed.
Lemma int_ok_suf Wd a b : int_ok Wd (a ++ b) -> int_ok Wd b.
Proof. apply int_ok_app. Qed.

Lemma be4_ztake b1 b2 b3 b4 u : be_value (ztake 4 (b1 :: b2 :: b3 :: b4 :: u)) = be4_val b1 b2 b3 b4.
Proof. change (ztake 4 (b1 :: b2 :: b3 :: b4 :: u)) with [b1; b2; b3; b4]. unfold be_value, be4_val. cbn [fold_left]. lia. Qed.
Lemma be8_ztake b1 b2 b3 b4 b5 b6 b7 b8 u :
  be_value (ztake 8 (b1 :: b2 :: b3 :: b4 :: b5 :: b6 :: b7 :: b8 :: u)) = be8_val b1 b2 b3 b4 b5 b6 b7 b8.
Proof.
  change (ztake 8 (b1 :: b2 :: b3 :: b4 :: b5 :: b6 :: b7 :: b8 :: u)) with [b1; b2; b3; b4; b5; b6; b7; b8].
  unfold be_value, be8_val, be4_val. cbn [fold_left]. lia.
Qed.

Theorem ideal_v1 rt q t r v : bytes_ok t -> int_ok (W rt) t ->
  ideal rt q t = ID r v <-> ideal1 64 None q t = Done r v /\ text_ok v.
Proof.
  intros Ht Hi. destruct q; cbn [ideal ideal1].
  - destruct t as [|c u]; [split; [discriminate|intros [H _]; discriminate]|].
    destruct (c =? 0); split; try discriminate; try (intros [H _]; discriminate).
    + intros H; injection H as <- <-; split; [reflexivity|exact I].
    + intros [H _]; injection H as <- <-; reflexivity.
  - destruct t as [|a [|x [|y u]]]; try (split; [discriminate|intros [H _]; discriminate]).
    rewrite (Z.eqb_sym keyKind x), (Z.eqb_sym valueKind y).
    destruct (_ && _); [|split; [discriminate|intros [H _]; discriminate]].
    destruct (iu32 u) eqn:E, (sub32 u) eqn:E'; cbn [ibind];
      try (apply iu32_sub32 in E; congruence); try (apply iu32_sub32 in E'; congruence);
      try (split; [discriminate|intros [H _]; discriminate]).
    apply iu32_sub32 in E. rewrite E in E'. injection E' as -> ->.
    split; [intros H; injection H as <- <-; split; [reflexivity|exact I]|intros [H _]; injection H as <- <-; reflexivity].
  - destruct t as [|a [|x u]]; try (split; [discriminate|intros [H _]; discriminate]).
    rewrite (Z.eqb_sym kind x).
    destruct (_ && _); [|split; [discriminate|intros [H _]; discriminate]].
    destruct (iu32 u) eqn:E, (sub32 u) eqn:E'; cbn [ibind];
      try (apply iu32_sub32 in E; congruence); try (apply iu32_sub32 in E'; congruence);
      try (split; [discriminate|intros [H _]; discriminate]).
    apply iu32_sub32 in E. rewrite E in E'. injection E' as -> ->.
    split; [intros H; injection H as <- <-; split; [reflexivity|exact I]|intros [H _]; injection H as <- <-; reflexivity].
  - destruct t as [|c u]; [split; [discriminate|intros [H _]; discriminate]|].
    destruct (c =? 4); [|split; [discriminate|intros [H _]; discriminate]].
    apply bytes_ok_cons in Ht; destruct Ht as [_ Ht]. apply (int_ok_suf _ [c] u) in Hi.
    split.
    + destruct (ipay rt InvalidBytes false u) as [r' p| |] eqn:E; cbn [ibind]; try discriminate.
      apply ipay_v1 in E; [|assumption..]. destruct E as [(r0 & n & -> & ->) _].
      intros H; injection H as <- <-; split; [reflexivity|exact I].
    + intros [H _]. destruct (sub32 u) eqn:E; try discriminate. destruct (payload 64 r0 n) eqn:E2; try discriminate.
      injection H as <- <-. assert (ipay rt InvalidBytes false u = ID r1 p) as ->.
      { apply ipay_v1; [assumption..|]. split; [eauto|discriminate]. }
      reflexivity.
  - destruct t as [|c u]; [split; [discriminate|intros [H _]; discriminate]|]. cbn [stringy].
    destruct (c =? 5); [|split; [discriminate|intros [H _]; discriminate]].
    apply bytes_ok_cons in Ht; destruct Ht as [_ Ht]. apply (int_ok_suf _ [c] u) in Hi.
    split.
    + destruct (ipay rt InvalidString true u) as [r' p| |] eqn:E; cbn [ibind]; try discriminate.
      apply ipay_v1 in E; [|assumption..]. destruct E as [(r0 & n & -> & ->) Hu].
      intros H; injection H as <- <-; split; [reflexivity|apply Hu; reflexivity].
    + intros [H Hu]. destruct (sub32 u) eqn:E; try discriminate. destruct (payload 64 r0 n) eqn:E2; try discriminate.
      injection H as <- <-. assert (ipay rt InvalidString true u = ID r1 p) as ->.
      { apply ipay_v1; [assumption..|]. split; [eauto|intros _; exact Hu]. }
      reflexivity.
  - destruct t as [|c [|x u]]; [split; [discriminate|intros [H _]; discriminate]| |]; cbn [stringy].
    { destruct (c =? 6); split; try discriminate; intros [H _]; discriminate. }
    destruct (c =? 6); cbn [andb]; [|split; [discriminate|intros [H _]; discriminate]].
    destruct (x =? 5); [|split; [discriminate|intros [H _]; discriminate]].
    apply bytes_ok_cons in Ht; destruct Ht as [_ Ht]. apply bytes_ok_cons in Ht; destruct Ht as [_ Ht].
    apply (int_ok_suf _ [c; x] u) in Hi.
    split.
    + destruct (ipay rt InvalidError true u) as [r' p| |] eqn:E; cbn [ibind]; try discriminate.
      apply ipay_v1 in E; [|assumption..]. destruct E as [(r0 & n & -> & ->) Hu].
      intros H; injection H as <- <-; split; [reflexivity|apply Hu; reflexivity].
    + intros [H Hu]. destruct (sub32 u) eqn:E; try discriminate. destruct (payload 64 r0 n) eqn:E2; try discriminate.
      injection H as <- <-. assert (ipay rt InvalidError true u = ID r1 p) as ->.
      { apply ipay_v1; [assumption..|]. split; [eauto|intros _; exact Hu]. }
      reflexivity.
  - destruct t as [|c [|x u]]; try (destruct (c =? 7)); split; try discriminate; try (intros [H _]; discriminate).
    + intros H; injection H as <- <-; split; [reflexivity|exact I].
    + intros [H _]; injection H as <- <-; reflexivity.
  - destruct t as [|c [|x u]]; try (destruct (c =? 8)); split; try discriminate; try (intros [H _]; discriminate).
    + intros H; injection H as <- <-; split; [reflexivity|exact I].
    + intros [H _]; injection H as <- <-; reflexivity.
  - unfold iu16, iu32, iu64, ii32, ii64. rewrite (iint_scalar 9 3 _ _ _ VU16 EU16) by lia. split; [intros H; split; [exact H|]|intros [H _]; exact H].
    unfold scalar in H. destruct t as [|c [|d u]]; try discriminate. destruct (c =? 9); [|discriminate].
    destruct (scan _ _); try discriminate. injection H as <- <-. exact I.
  - unfold iu16, iu32, iu64, ii32, ii64. rewrite (iint_scalar 10 5 _ _ _ VU32 EU32) by lia. split; [intros H; split; [exact H|]|intros [H _]; exact H].
    unfold scalar in H. destruct t as [|c [|d u]]; try discriminate. destruct (c =? 10); [|discriminate].
    destruct (scan _ _); try discriminate. injection H as <- <-. exact I.
  - unfold iu16, iu32, iu64, ii32, ii64. rewrite (iint_scalar 11 10 _ _ _ VU64 EU64) by lia. split; [intros H; split; [exact H|]|intros [H _]; exact H].
    unfold scalar in H. destruct t as [|c [|d u]]; try discriminate. destruct (c =? 11); [|discriminate].
    destruct (scan _ _); try discriminate. injection H as <- <-. exact I.
  - unfold iu16, iu32, iu64, ii32, ii64. rewrite (iint_scalar 12 5 _ _ _ VI32 EI32) by lia. split; [intros H; split; [exact H|]|intros [H _]; exact H].
    unfold scalar in H. destruct t as [|c [|d u]]; try discriminate. destruct (c =? 12); [|discriminate].
    destruct (scan _ _); try discriminate. injection H as <- <-. exact I.
  - unfold iu16, iu32, iu64, ii32, ii64. rewrite (iint_scalar 13 10 _ _ _ VI64 EI64) by lia. split; [intros H; split; [exact H|]|intros [H _]; exact H].
    unfold scalar in H. destruct t as [|c [|d u]]; try discriminate. destruct (c =? 13); [|discriminate].
    destruct (scan _ _); try discriminate. injection H as <- <-. exact I.
  - destruct t as [|c [|b1 [|b2 [|b3 [|b4 u]]]]]; try (destruct (c =? 14));
      try (split; [discriminate|intros [H _]; discriminate]).
    rewrite be4_ztake. change (zdrop 4 (b1 :: b2 :: b3 :: b4 :: u)) with u.
    rewrite !zlen_cons. pose proof (zlen_nonneg u). destruct (Z.leb_spec 4 (1 + (1 + (1 + (1 + zlen u))))); [|lia].
    split; [intros H'; injection H' as <- <-; split; [reflexivity|exact I]|intros [H' _]; injection H' as <- <-; reflexivity].
  - destruct t as [|c [|b1 [|b2 [|b3 [|b4 [|b5 [|b6 [|b7 [|b8 u]]]]]]]]]; try (destruct (c =? 15));
      try (split; [discriminate|intros [H _]; discriminate]).
    rewrite be8_ztake. change (zdrop 8 (b1 :: b2 :: b3 :: b4 :: b5 :: b6 :: b7 :: b8 :: u)) with u.
    rewrite !zlen_cons. pose proof (zlen_nonneg u).
    match goal with |- context [8 <=? ?x] => destruct (Z.leb_spec 8 x); [|lia] end.
    split; [intros H'; injection H' as <- <-; split; [reflexivity|exact I]|intros [H' _]; injection H' as <- <-; reflexivity].
Qed.

(** ** failure *)
Lemma iint_view k (n : nat) eo ek fin t : (0 < n)%nat ->
  (t = [] /\ iint k n eo ek fin t = IF [] eo) \/
  (exists c u, t = c :: u /\ c <> k /\ iint k n eo ek fin t = IF t ek) \/
  (exists u ds r, t = k :: u /\ vsplit (Z.of_nat n) u ds r /\ iint k n eo ek fin t = ID r (fin (dval ds))) \/
  (exists u, t = k :: u /\ Forall (fun c => 128 <= c) u /\ zlen u < Z.of_nat n /\ iint k n eo ek fin t = IF [] eo) \/
  (exists cs x r, t = k :: cs ++ x :: r /\ zlen cs + 1 = Z.of_nat n /\ Forall (fun c => 128 <= c) (cs ++ [x]) /\
     iint k n eo ek fin t = IF (x :: r) ek).
Proof.
  intros Hn. unfold iint. destruct t as [|c u]; [left; split; reflexivity|right].
  destruct (Z.eqb_spec c k) as [->|Hc]; [right|left; exists c, u; repeat split; assumption].
  destruct (scan n u) as [ds r| |] eqn:E.
  - left. exists u, ds, r. apply scan_done in E. repeat split; try assumption; apply E.
  - right; right. apply scan_long in E. destruct E as (cs & r & -> & Hl & HF).
    destruct (exists_last (l := cs)) as (cs' & x & ->); [intros ->; rewrite zlen_nil in Hl; lia|].
    exists cs', x, r. rewrite zlen_app, zlen_cons, zlen_nil in Hl. rewrite <- app_assoc. cbn [app].
    repeat split; try assumption; try lia.
    f_equal. rewrite zdrop_cons by lia. replace (Z.of_nat n - 1) with (zlen cs') by lia.
    apply zdrop_app_exact.
  - right; left. apply scan_trunc in E. exists u. repeat split; try apply E; reflexivity.
Qed.
Lemma iint_short k n eo ek fin : iint k n eo ek fin [] = IF [] eo.
Proof. reflexivity. Qed.
Lemma iint_kind k n eo ek fin c u : c <> k -> iint k n eo ek fin (c :: u) = IF (c :: u) ek.
Proof. intros H. unfold iint. destruct (Z.eqb_spec c k); [contradiction|reflexivity]. Qed.
Lemma iint_trunc k n eo ek fin u : Forall (fun c => 128 <= c) u -> zlen u < Z.of_nat n ->
  iint k n eo ek fin (k :: u) = IF [] eo.
Proof.
  intros HF Hl. unfold iint. rewrite Z.eqb_refl.
  assert (scan n u = STrunc) as -> by (apply scan_trunc; split; assumption). reflexivity.
Qed.
Lemma iint_long k n eo ek fin cs x r : zlen cs + 1 = Z.of_nat n -> Forall (fun c => 128 <= c) (cs ++ [x]) ->
  iint k n eo ek fin (k :: cs ++ x :: r) = IF (x :: r) ek.
Proof.
  intros Hl HF. unfold iint. rewrite Z.eqb_refl.
  assert (scan n (cs ++ x :: r) = SLong) as ->.
  { apply scan_long. exists (cs ++ [x]), r. rewrite <- app_assoc, zlen_app, zlen_cons, zlen_nil. auto with zarith. }
  f_equal. pose proof (zlen_nonneg cs). rewrite zdrop_cons by lia.
  replace (Z.of_nat n - 1) with (zlen cs) by lia. apply zdrop_app_exact.
Qed.
Lemma iint_done k n eo ek fin u ds r : vsplit (Z.of_nat n) u ds r ->
  iint k n eo ek fin (k :: u) = ID r (fin (dval ds)).
Proof.
  intros H. unfold iint. rewrite Z.eqb_refl. apply scan_done in H. rewrite H. reflexivity.
Qed.

(** every U32 failure behind a header *)
Lemma iu32_fail rt t r e : iu32 t = IF r e -> rfails rt RU32 t r e.
Proof.
  intros H. unfold iu32 in H.
  destruct (iint_view 10 5 InvalidU32 InvalidU32 (fun d => d mod 2 ^ 32) t) as
    [[-> E]|[(c & u & -> & Hc & E)|[(u & ds & r' & -> & Hv & E)|[(u & -> & HF & Hl & E)|(cs & x & r' & -> & Hl & HF & E)]]]];
    try lia; rewrite E in H; try discriminate; injection H as <- <-.
  - apply (F_short rt RU32 []). reflexivity.
  - apply (F_kind rt RU32 (c :: u)); [cbn [rhead header]; rewrite !zlen_cons, zlen_nil; pose proof (zlen_nonneg u); lia|].
    intros v Hv. injection Hv as Hv _. lia.
  - apply (F_trunc rt RU32 u); [exact I|exact Hl|exact HF].
  - apply (F_long rt RU32 cs x r'); [exact I|exact Hl|exact HF].
Qed.
Lemma iu32_length t r n : iu32 t = ID r n -> exists ds, length_at t ds r /\ n = dval ds mod 2 ^ 32.
Proof.
  intros H. unfold iu32 in H.
  destruct (iint_view 10 5 InvalidU32 InvalidU32 (fun d => d mod 2 ^ 32) t) as
    [[-> E]|[(c & u & -> & Hc & E)|[(u & ds & r' & -> & Hv & E)|[(u & -> & HF & Hl & E)|(cs & x & r' & -> & Hl & HF & E)]]]];
    try lia; rewrite E in H; try discriminate; injection H as <- <-.
  exists ds. split; [exists u; split; [reflexivity|exact Hv]|reflexivity].
Qed.
Lemma iu32_np t : iu32 t <> IP.
Proof.
  unfold iu32, iint. destruct t; [discriminate|]. destruct (_ =? _); [|discriminate]. destruct (scan _ _); discriminate.
Qed.
Lemma iu32_at t ds r : length_at t ds r -> iu32 t = ID r (dval ds mod 2 ^ 32).
Proof. intros (u & -> & H). apply (iint_done 10 5 InvalidU32 InvalidU32 (fun d => d mod 2 ^ 32)). exact H. Qed.

Definition rmeaning (rt : runtime) (q : request) (t : bytes) (o : ires value) : Prop :=
  match o with
  | ID r v => accepts false q t r v /\ text_ok v
  | IF r e => rfails rt q t r e
  | IP => rpanics rt q t
  end.
Lemma ipay_sound rt q (text : bool) t : has_payload q -> (text = true <-> q = RString \/ q = RError) ->
  bytes_ok t -> int_ok (W rt) t ->
  match ipay rt (own_err q) text t with
  | ID _ _ => True
  | IF r e => rfails rt q (rhead q ++ t) r e
  | IP => rpanics rt q (rhead q ++ t)
  end.
Proof.
  intros Hq Ht Hb Hi. unfold ipay. destruct (iu32 t) as [r n|r e|] eqn:E; cbn [ibind].
  - pose proof (iu32_facts t Hb r n E) as [Hn _].
    apply iu32_length in E. destruct E as (ds & HL & ->).
    destruct (vec_ok rt (dval ds mod 2 ^ 32)) eqn:Ev.
    + apply vec_ok_lt in Ev. destruct (Z.leb_spec (dval ds mod 2 ^ 32) (zlen r)).
      * destruct (negb text || from_utf8 (ztake (dval ds mod 2 ^ 32) r)) eqn:Eu; [exact I|].
        apply orb_false_elim in Eu. destruct Eu as [Et Eu]. destruct text; [|discriminate Et].
        apply (F_utf8 rt q t ds (ztake (dval ds mod 2 ^ 32) r) (zdrop (dval ds mod 2 ^ 32) r)).
        -- apply Ht; reflexivity.
        -- rewrite ztake_zdrop. exact HL.
        -- apply zlen_ztake. lia.
        -- intros Hu. apply text_from in Hu. congruence.
      * apply (F_payload rt q t ds r); try assumption.
    + split; [exact Hq|]. exists t, ds, r. split; [reflexivity|]. split; [exact HL|].
      destruct (Z.ltb_spec (dval ds mod 2 ^ 32) (2 ^ (W rt - 1))) as [H|H]; [|exact H].
      apply vec_ok_lt in H. congruence.
  - apply F_length; [destruct q; cbn in *; tauto|]. apply iu32_fail. exact E.
  - exfalso. apply (iu32_np t E).
Qed.

Ltac kindF := apply F_kind; [cbn [rhead header]; rewrite ?zlen_cons, ?zlen_nil; lia|
  let w := fresh in let Hw := fresh in intros w Hw; cbn [rhead header app] in Hw; injection Hw; intros; lia].
Lemma ideal_sound rt q t : bytes_ok t -> int_ok (W rt) t -> rmeaning rt q t (ideal rt q t).
Proof.
  intros Hb Hi.
  destruct (ideal rt q t) as [r v|r e|] eqn:E; cbn [rmeaning].
  { apply ideal_v1 in E; [|assumption..]. destruct E as [E Hx]. split; [|exact Hx].
    apply (ideal1_iff q t (Done r v)) in E; [exact E|exact Hb]. }
  - destruct q; cbn [ideal] in E.
    + destruct t as [|c u]; [injection E as <- <-; apply (F_short rt RNil []); reflexivity|].
      destruct (Z.eqb_spec c 0) as [->|Hc]; [discriminate|]. injection E as <- <-.
      pose proof (zlen_nonneg u).
      apply (F_kind rt RNil (c :: u)); [cbn; rewrite ?zlen_cons, ?zlen_nil; lia|]. intros w Hw. injection Hw as Hw _. lia.
    + destruct t as [|a [|x [|y u]]];
        try (injection E as <- <-; apply (F_short rt (RMap keyKind valueKind)); cbn; rewrite ?zlen_cons, ?zlen_nil; lia).
      pose proof (zlen_nonneg u).
      destruct (Z.eqb_spec a 2), (Z.eqb_spec keyKind x), (Z.eqb_spec valueKind y); cbn [andb] in E; subst;
        try (injection E as <- <-; apply (F_kind rt (RMap keyKind valueKind) (_ :: _ :: y :: u));
             [cbn; rewrite ?zlen_cons, ?zlen_nil; lia|intros w Hw; injection Hw; intros; lia]);
        try (injection E as <- <-; apply (F_kind rt (RMap x valueKind) (_ :: _ :: y :: u));
             [cbn; rewrite ?zlen_cons, ?zlen_nil; lia|intros w Hw; injection Hw; intros; lia]);
        try (injection E as <- <-; apply (F_kind rt (RMap keyKind y) (_ :: _ :: y :: u));
             [cbn; rewrite ?zlen_cons, ?zlen_nil; lia|intros w Hw; injection Hw; intros; lia]);
        try (injection E as <- <-; apply (F_kind rt (RMap x y) (_ :: _ :: y :: u));
             [cbn; rewrite ?zlen_cons, ?zlen_nil; lia|intros w Hw; injection Hw; intros; lia]).
      destruct (iu32 u) eqn:E2; cbn [ibind] in E; try discriminate. injection E as <- <-.
      apply (F_length rt (RMap x y) u); [intros []|]. apply iu32_fail; exact E2.
    + destruct t as [|a [|x u]];
        try (injection E as <- <-; apply (F_short rt (RSlice kind)); cbn; rewrite ?zlen_cons, ?zlen_nil; lia).
      pose proof (zlen_nonneg u).
      destruct (Z.eqb_spec a 1), (Z.eqb_spec kind x); cbn [andb] in E; subst;
        try (injection E as <- <-; apply (F_kind rt (RSlice kind) (_ :: x :: u));
             [cbn; rewrite ?zlen_cons, ?zlen_nil; lia|intros w Hw; injection Hw; intros; lia]);
        try (injection E as <- <-; apply (F_kind rt (RSlice x) (_ :: x :: u));
             [cbn; rewrite ?zlen_cons, ?zlen_nil; lia|intros w Hw; injection Hw; intros; lia]).
      destruct (iu32 u) eqn:E2; cbn [ibind] in E; try discriminate. injection E as <- <-.
      apply (F_length rt (RSlice x) u); [intros []|]. apply iu32_fail; exact E2.
    + destruct t as [|c u]; [injection E as <- <-; apply (F_short rt RBytes []); reflexivity|].
      pose proof (zlen_nonneg u).
      destruct (Z.eqb_spec c 4) as [->|Hc].
      2:{ injection E as <- <-. apply (F_kind rt RBytes (c :: u)); [cbn; rewrite ?zlen_cons, ?zlen_nil; lia|intros w Hw; injection Hw; intros; lia]. }
      apply bytes_ok_cons in Hb. destruct Hb as [_ Hb]. apply (int_ok_suf _ [4] u) in Hi.
      pose proof (ipay_sound rt RBytes false u I ltac:(split; [discriminate|intros [?|?]; discriminate]) Hb Hi) as P.
      cbn [own_err] in P. destruct (ipay rt InvalidBytes false u); cbn [ibind] in E; try discriminate.
      injection E as <- <-. exact P.
    + destruct t as [|c u]; [injection E as <- <-; apply (F_short rt RString []); reflexivity|].
      pose proof (zlen_nonneg u).
      destruct (Z.eqb_spec c 5) as [->|Hc].
      2:{ injection E as <- <-. apply (F_kind rt RString (c :: u)); [cbn; rewrite ?zlen_cons, ?zlen_nil; lia|intros w Hw; injection Hw; intros; lia]. }
      apply bytes_ok_cons in Hb. destruct Hb as [_ Hb]. apply (int_ok_suf _ [5] u) in Hi.
      pose proof (ipay_sound rt RString true u I ltac:(split; auto) Hb Hi) as P.
      cbn [own_err] in P. destruct (ipay rt InvalidString true u); cbn [ibind] in E; try discriminate.
      injection E as <- <-. exact P.
    + destruct t as [|c [|x u]]; try (injection E as <- <-; apply (F_short rt RError); cbn; rewrite ?zlen_cons, ?zlen_nil; lia).
      pose proof (zlen_nonneg u).
      destruct (Z.eqb_spec c 6) as [->|Hc]; cbn [andb] in E.
      2:{ injection E as <- <-. apply (F_kind rt RError (c :: x :: u)); [cbn; rewrite ?zlen_cons, ?zlen_nil; lia|intros w Hw; injection Hw; intros; lia]. }
      destruct (Z.eqb_spec x 5) as [->|Hc]; cbn [andb] in E.
      2:{ injection E as <- <-. apply (F_kind rt RError (6 :: x :: u)); [cbn; rewrite ?zlen_cons, ?zlen_nil; lia|intros w Hw; injection Hw; intros; lia]. }
      apply bytes_ok_cons in Hb. destruct Hb as [_ Hb]. apply bytes_ok_cons in Hb. destruct Hb as [_ Hb].
      apply (int_ok_suf _ [6; 5] u) in Hi.
      pose proof (ipay_sound rt RError true u I ltac:(split; auto) Hb Hi) as P.
      cbn [own_err] in P. destruct (ipay rt InvalidError true u); cbn [ibind] in E; try discriminate.
      injection E as <- <-. exact P.
    + destruct t as [|c u]; [injection E as <- <-; apply (F_short rt RBool []); reflexivity|].
      pose proof (zlen_nonneg u).
      destruct (Z.eqb_spec c 7) as [->|Hc].
      2:{ injection E as <- <-. apply (F_kind rt RBool (c :: u)); [cbn; rewrite ?zlen_cons, ?zlen_nil; lia|intros w Hw; injection Hw; intros; lia]. }
      destruct u; [|discriminate]. injection E as <- <-. apply (F_bare rt RBool). auto.
    + destruct t as [|c u]; [injection E as <- <-; apply (F_short rt RU8 []); reflexivity|].
      pose proof (zlen_nonneg u).
      destruct (Z.eqb_spec c 8) as [->|Hc].
      2:{ injection E as <- <-. apply (F_kind rt RU8 (c :: u)); [cbn; rewrite ?zlen_cons, ?zlen_nil; lia|intros w Hw; injection Hw; intros; lia]. }
      destruct u; [|discriminate]. injection E as <- <-. apply (F_bare rt RU8). auto.
    + unfold iu16 in E.
      destruct (iint_view 9 3 InvalidU16 InvalidU32 (fun d => d mod 2 ^ 16) t) as
        [[-> E']|[(c & u & -> & Hc & E')|[(u & ds & r' & -> & Hv & E')|[(u & -> & HF & Hl & E')|(cs & x & r' & -> & Hl & HF & E')]]]];
        try lia; rewrite E' in E; cbn [ibind] in E; try discriminate; injection E as <- <-.
      * apply (F_short rt RU16 []); reflexivity.
      * pose proof (zlen_nonneg u). apply (F_kind rt RU16 (c :: u)); [cbn; rewrite ?zlen_cons, ?zlen_nil; lia|intros w Hw; injection Hw; intros; lia].
      * apply (F_trunc rt RU16 u); [exact I|exact Hl|exact HF].
      * apply (F_long rt RU16 cs x r'); [exact I|exact Hl|exact HF].
    + destruct (iu32 t) eqn:E2; cbn [ibind] in E; try discriminate. injection E as <- <-. apply iu32_fail; exact E2.
    + unfold iu64 in E.
      destruct (iint_view 11 10 InvalidU64 InvalidU32 (fun d => d mod 2 ^ 64) t) as
        [[-> E']|[(c & u & -> & Hc & E')|[(u & ds & r' & -> & Hv & E')|[(u & -> & HF & Hl & E')|(cs & x & r' & -> & Hl & HF & E')]]]];
        try lia; rewrite E' in E; cbn [ibind] in E; try discriminate; injection E as <- <-.
      * apply (F_short rt RU64 []); reflexivity.
      * pose proof (zlen_nonneg u). apply (F_kind rt RU64 (c :: u)); [cbn; rewrite ?zlen_cons, ?zlen_nil; lia|intros w Hw; injection Hw; intros; lia].
      * apply (F_trunc rt RU64 u); [exact I|exact Hl|exact HF].
      * apply (F_long rt RU64 cs x r'); [exact I|exact Hl|exact HF].
    + unfold ii32 in E.
      destruct (iint_view 12 5 InvalidI32 InvalidI32 (fun d => unzigzag (d mod 2 ^ 32)) t) as
        [[-> E']|[(c & u & -> & Hc & E')|[(u & ds & r' & -> & Hv & E')|[(u & -> & HF & Hl & E')|(cs & x & r' & -> & Hl & HF & E')]]]];
        try lia; rewrite E' in E; cbn [ibind] in E; try discriminate; injection E as <- <-.
      * apply (F_short rt RI32 []); reflexivity.
      * pose proof (zlen_nonneg u). apply (F_kind rt RI32 (c :: u)); [cbn; rewrite ?zlen_cons, ?zlen_nil; lia|intros w Hw; injection Hw; intros; lia].
      * apply (F_trunc rt RI32 u); [exact I|exact Hl|exact HF].
      * apply (F_long rt RI32 cs x r'); [exact I|exact Hl|exact HF].
    + unfold ii64 in E.
      destruct (iint_view 13 10 InvalidI64 InvalidI64 (fun d => unzigzag (d mod 2 ^ 64)) t) as
        [[-> E']|[(c & u & -> & Hc & E')|[(u & ds & r' & -> & Hv & E')|[(u & -> & HF & Hl & E')|(cs & x & r' & -> & Hl & HF & E')]]]];
        try lia; rewrite E' in E; cbn [ibind] in E; try discriminate; injection E as <- <-.
      * apply (F_short rt RI64 []); reflexivity.
      * pose proof (zlen_nonneg u). apply (F_kind rt RI64 (c :: u)); [cbn; rewrite ?zlen_cons, ?zlen_nil; lia|intros w Hw; injection Hw; intros; lia].
      * apply (F_trunc rt RI64 u); [exact I|exact Hl|exact HF].
      * apply (F_long rt RI64 cs x r'); [exact I|exact Hl|exact HF].
    + destruct t as [|c u]; [injection E as <- <-; apply (F_short rt RF32 []); reflexivity|].
      pose proof (zlen_nonneg u).
      destruct (Z.eqb_spec c 14) as [->|Hc].
      2:{ injection E as <- <-. apply (F_kind rt RF32 (c :: u)); [cbn; rewrite ?zlen_cons, ?zlen_nil; lia|intros w Hw; injection Hw; intros; lia]. }
      destruct (Z.leb_spec 4 (zlen u)); [discriminate|]. injection E as <- <-. apply (F_float rt RF32 u). cbn. lia.
    + destruct t as [|c u]; [injection E as <- <-; apply (F_short rt RF64 []); reflexivity|].
      pose proof (zlen_nonneg u).
      destruct (Z.eqb_spec c 15) as [->|Hc].
      2:{ injection E as <- <-. apply (F_kind rt RF64 (c :: u)); [cbn; rewrite ?zlen_cons, ?zlen_nil; lia|intros w Hw; injection Hw; intros; lia]. }
      destruct (Z.leb_spec 8 (zlen u)); [discriminate|]. injection E as <- <-. apply (F_float rt RF64 u). cbn. lia.
  - destruct q; cbn [ideal] in E;
      try (destruct t as [|c u]; [discriminate|]; destruct (c =? _); [|discriminate]; try destruct u; discriminate);
      try (unfold iu16, iu32, iu64, ii32, ii64, iint in E; destruct t; [discriminate|]; destruct (_ =? _); [|discriminate];
           destruct (scan _ _); discriminate).
    + destruct t as [|a [|x [|y u]]]; try discriminate. destruct (_ && _); [|discriminate].
      destruct (iu32 u) eqn:E2; try discriminate. exfalso; apply (iu32_np u E2).
    + destruct t as [|a [|x u]]; try discriminate. destruct (_ && _); [|discriminate].
      destruct (iu32 u) eqn:E2; try discriminate. exfalso; apply (iu32_np u E2).
    + destruct t as [|c u]; [discriminate|]. destruct (Z.eqb_spec c 4) as [->|]; [|discriminate].
      apply bytes_ok_cons in Hb. destruct Hb as [_ Hb]. apply (int_ok_suf _ [4] u) in Hi.
      pose proof (ipay_sound rt RBytes false u I ltac:(split; [discriminate|intros [?|?]; discriminate]) Hb Hi) as P.
      cbn [own_err] in P. destruct (ipay rt InvalidBytes false u); cbn [ibind] in E; try discriminate. exact P.
    + destruct t as [|c u]; [discriminate|]. destruct (Z.eqb_spec c 5) as [->|]; [|discriminate].
      apply bytes_ok_cons in Hb. destruct Hb as [_ Hb]. apply (int_ok_suf _ [5] u) in Hi.
      pose proof (ipay_sound rt RString true u I ltac:(split; auto) Hb Hi) as P.
      cbn [own_err] in P. destruct (ipay rt InvalidString true u); cbn [ibind] in E; try discriminate. exact P.
    + destruct t as [|c [|x u]]; try discriminate.
      destruct (Z.eqb_spec c 6) as [->|]; cbn [andb] in E; [|discriminate]. destruct (Z.eqb_spec x 5) as [->|]; [|discriminate].
      apply bytes_ok_cons in Hb. destruct Hb as [_ Hb]. apply bytes_ok_cons in Hb. destruct Hb as [_ Hb].
      apply (int_ok_suf _ [6; 5] u) in Hi.
      pose proof (ipay_sound rt RError true u I ltac:(split; auto) Hb Hi) as P.
      cbn [own_err] in P. destruct (ipay rt InvalidError true u); cbn [ibind] in E; try discriminate. exact P.
    + destruct t as [|c u]; [discriminate|]. destruct (c =? 14); [|discriminate]. destruct (4 <=? zlen u); discriminate.
    + destruct t as [|c u]; [discriminate|]. destruct (c =? 15); [|discriminate]. destruct (8 <=? zlen u); discriminate.
Qed.

Lemma eqb_no a b : a <> b -> (a =? b) = false. Proof. apply Z.eqb_neq. Qed.
Lemma ideal_short rt q t : zlen t < zlen (rhead q) -> ideal rt q t = IF [] (own_err q).
Proof.
  intros H. destruct q; cbn [rhead header] in H; rewrite ?zlen_cons, ?zlen_nil in H;
    repeat (destruct t as [|? t]; [reflexivity|]; rewrite ?zlen_cons in H; pose proof (zlen_nonneg t); try lia).
Qed.
Lemma ideal_kind rt q t : zlen (rhead q) <= zlen t -> (forall u, t <> rhead q ++ u) ->
  ideal rt q t = IF (zdrop (skipped q) t) (kind_err q).
Proof.
  intros Hl Hk. destruct q; cbn [rhead header app] in *; cbn [ideal];
    destruct t as [|c t]; try (rewrite ?zlen_cons, ?zlen_nil in Hl; lia);
    try (rewrite (eqb_no c); [reflexivity|intros ->; apply (Hk t); reflexivity]).
  - destruct t as [|x [|y u]]; try (rewrite ?zlen_cons, ?zlen_nil in Hl; lia).
    destruct ((c =? 2) && (keyKind =? x) && (valueKind =? y)) eqn:E; [|reflexivity].
    exfalso. apply (Hk u). do 3 f_equal; lia.
  - destruct t as [|x u]; try (rewrite ?zlen_cons, ?zlen_nil in Hl; lia).
    destruct ((c =? 1) && (kind =? x)) eqn:E; [|reflexivity].
    exfalso. apply (Hk u). do 2 f_equal; lia.
  - destruct t as [|x u]; try (rewrite ?zlen_cons, ?zlen_nil in Hl; lia).
    destruct ((c =? 6) && (x =? 5)) eqn:E; [|reflexivity].
    exfalso. apply (Hk u). do 2 f_equal; lia.
  - unfold iu16. rewrite iint_kind; [reflexivity|]. intros ->; apply (Hk t); reflexivity.
  - unfold iu32. rewrite iint_kind; [reflexivity|]. intros ->; apply (Hk t); reflexivity.
  - unfold iu64. rewrite iint_kind; [reflexivity|]. intros ->; apply (Hk t); reflexivity.
  - unfold ii32. rewrite iint_kind; [reflexivity|]. intros ->; apply (Hk t); reflexivity.
  - unfold ii64. rewrite iint_kind; [reflexivity|]. intros ->; apply (Hk t); reflexivity.
Qed.
(** behind a matching header *)
Lemma ideal_length rt q t : ~ scalar_req q -> forall r e, iu32 t = IF r e -> ideal rt q (rhead q ++ t) = IF r e.
Proof.
  intros Hq r e E. destruct q; try (exfalso; apply Hq; exact I); cbn [rhead header app ideal];
    rewrite ?Z.eqb_refl; cbn [andb]; unfold ipay; rewrite E; reflexivity.
Qed.
Lemma ideal_pay rt q t : has_payload q ->
  ideal rt q (rhead q ++ t) =
  match ipay rt (own_err q) (match q with RBytes => false | _ => true end) t with
  | ID r p => ID r (match q with RBytes => VBytes p | RString => VString p | _ => VError p end)
  | IF r e => IF r e
  | IP => IP
  end.
Proof.
  intros Hq. destruct q; try (destruct Hq); cbn [rhead header app ideal]; rewrite ?Z.eqb_refl; cbn [andb own_err];
    destruct (ipay rt _ _ t); reflexivity.
Qed.
Lemma ideal_rfails rt q t r e : bytes_ok t -> int_ok (W rt) t -> rfails rt q t r e -> ideal rt q t = IF r e.
Proof.
  intros Hb Hi H. induction H as [q t H|q t Hl Hk|q Hq|q t H|q t Hq Hl HF|q cs x r Hq Hl HF|q t r e Hq H IH
    |q t ds r Hq HL Hn Hv|q t ds p r Hq HL Hp Hu].
  - apply ideal_short; exact H.
  - apply ideal_kind; assumption.
  - destruct Hq as [-> | ->]; reflexivity.
  - destruct q; cbn [float_size] in H; try (pose proof (zlen_nonneg t); lia); cbn [rhead header app ideal];
      rewrite Z.eqb_refl.
    + destruct (Z.leb_spec 4 (zlen t)); [lia|reflexivity].
    + destruct (Z.leb_spec 8 (zlen t)); [lia|reflexivity].
  - destruct q; try (destruct Hq); cbn [rhead header app ideal]; unfold iu16, iu32, iu64, ii32, ii64;
      rewrite iint_trunc; try reflexivity; assumption.
  - destruct q; try (destruct Hq); cbn [rhead header app ideal]; unfold iu16, iu32, iu64, ii32, ii64;
      rewrite iint_long; try reflexivity; assumption.
  - apply ideal_length; [exact Hq|]. apply bytes_ok_app in Hb. apply int_ok_app in Hi.
    specialize (IH (proj2 Hb) Hi). cbn [ideal] in IH. destruct (iu32 t); cbn [ibind] in IH; congruence.
  - rewrite ideal_pay by exact Hq. unfold ipay. rewrite (iu32_at _ _ _ HL). cbn [ibind].
    assert (vec_ok rt (dval ds mod 2 ^ 32) = true) as -> by (apply vec_ok_lt; exact Hv).
    destruct (Z.leb_spec (dval ds mod 2 ^ 32) (zlen r)); [lia|]. reflexivity.
  - assert (has_payload q) by (destruct Hq; subst; exact I). rewrite ideal_pay by assumption.
    unfold ipay. rewrite (iu32_at _ _ _ HL). cbn [ibind]. rewrite <- Hp.
    apply int_ok_app in Hi. destruct Hi as [_ Hi]. pose proof (length_at_len _ _ _ HL) as HLL.
    rewrite zlen_app in HLL. pose proof (zlen_nonneg r).
    assert (vec_ok rt (zlen p) = true) as -> by (apply vec_ok_lt; lia).
    destruct (Z.leb_spec (zlen p) (zlen (p ++ r))); [|rewrite zlen_app in *; lia].
    rewrite ztake_app_exact, zdrop_app_exact.
    assert (from_utf8 p = false) as ->.
    { destruct (from_utf8 p) eqn:E; [|reflexivity]. exfalso. apply Hu. apply text_from; exact E. }
    destruct Hq; subst; reflexivity.
Qed.
Lemma ideal_rpanics rt q t : rpanics rt q t -> ideal rt q t = IP.
Proof.
  intros (Hq & u & ds & r & -> & HL & Hn). rewrite ideal_pay by exact Hq. unfold ipay.
  rewrite (iu32_at _ _ _ HL). cbn [ibind].
  destruct (vec_ok rt (dval ds mod 2 ^ 32)) eqn:E; [|reflexivity]. apply vec_ok_lt in E. lia.
Qed.
Theorem ideal_r_iff rt q t o : bytes_ok t -> int_ok (W rt) t -> ideal rt q t = o <-> rmeaning rt q t o.
Proof.
  intros Hb Hi. split; [intros <-; apply ideal_sound; assumption|].
  destruct o as [r v|r e|]; cbn [rmeaning].
  - intros [HA Hx]. apply ideal_v1; [assumption..|]. split; [|exact Hx].
    apply (ideal1_iff q t (Done r v)); [exact Hb|exact HA].
  - apply ideal_rfails; assumption.
  - apply ideal_rpanics.
Qed.

(** ** API form *)
Lemma cursor_cur c : 0 <= pos c <= zlen (buf c) -> c = cur (buf c) (rest c) /\ suf (rest c) (buf c).
Proof.
  intros H. unfold cur, rest. rewrite zlen_zdrop by exact H. split.
  - destruct c; cbn in *. f_equal. lia.
  - exists (ztake (pos c) (buf c)). symmetry. apply ztake_zdrop.
Qed.
Lemma rest_ok rt c : cursor_ok rt c -> bytes_ok (rest c) /\ int_ok (W rt) (rest c).
Proof.
  intros (Hp & Hb & Hi). split; [apply bytes_ok_zdrop; exact Hb|].
  apply (int_ok_app _ (ztake (pos c) (buf c))). unfold rest. rewrite ztake_zdrop. exact Hi.
Qed.
Lemma decode_lift rt q c : rust_req q -> cursor_ok rt c ->
  decode rt q c = lift (buf c) (ideal rt q (rest c)).
Proof.
  intros Hq Hc. pose proof (rest_ok rt c Hc) as [Hb Hi]. destruct Hc as (Hp & _).
  destruct (cursor_cur c Hp) as [E S]. rewrite E at 1. apply decode_ideal; assumption.
Qed.

(** inputs left in front are suffixes *)
Lemma rfails_suffix rt q t r e : rfails rt q t r e -> exists p, t = p ++ r.
Proof.
  intros H. induction H as [q t H|q t Hl Hk|q Hq|q t H|q t Hq Hl HF|q cs x r Hq Hl HF|q t r e Hq H IH
    |q t ds r Hq HL Hn Hv|q t ds p r Hq HL Hp Hu].
  - exists t. rewrite app_nil_r. reflexivity.
  - exists (ztake (skipped q) t). symmetry. apply ztake_zdrop.
  - exists (rhead q). rewrite app_nil_r. reflexivity.
  - destruct (eof rt); [exists (rhead q ++ t); rewrite app_nil_r; reflexivity|exists (rhead q); reflexivity].
  - exists (rhead q ++ t). rewrite app_nil_r. reflexivity.
  - exists (rhead q ++ cs). rewrite <- app_assoc. reflexivity.
  - destruct IH as [p ->]. exists (rhead q ++ p). rewrite <- app_assoc. reflexivity.
  - destruct HL as (u & -> & (-> & _)). destruct (eof rt).
    + eexists. rewrite app_nil_r. reflexivity.
    + exists (rhead q ++ 10 :: ds). rewrite <- app_assoc. reflexivity.
  - destruct HL as (u & -> & (-> & _)). exists (rhead q ++ 10 :: ds ++ p). rewrite <- !app_assoc. cbn [app].
    rewrite <- app_assoc. reflexivity.
Qed.
