(** TextEncoder and TextDecoder. *)
From Verif Require Import Base Spec SpecProofs Utf8 TsModel TsSpec.

Lemma land_low b k m : Z.ones k = m -> 0 <= k -> Z.land b m = b mod 2 ^ k.
Proof. intros <- H. apply Z.land_ones. exact H. Qed.
Lemma join6 x y : 0 <= y < 64 -> Z.lor (Z.shiftl x 6) y = x * 64 + y.
Proof.
  intros H. rewrite Z.shiftl_mul_pow2, Z.lor_comm by lia. rewrite lor_disjoint by (change (2 ^ 6) with 64; lia).
  change (2 ^ 6) with 64. lia.
Qed.
Ltac cmp :=
  repeat match goal with
  | |- context [?a <=? ?b] => destruct (Z.leb_spec a b); try lia
  | |- context [?a =? ?b] => destruct (Z.eqb_spec a b); try lia
  end.
Lemma decode_char c p : scalar_value c ->
  utf8_decode udec0 (utf8_char c ++ p) = c :: utf8_decode udec0 p.
Proof.
  intros Hc. unfold scalar_value in Hc. unfold utf8_char.
  destruct (Z.ltb_spec c 0x80).
  { cbn [app utf8_decode needed udec0]. unfold lead. cmp. reflexivity. }
  destruct (Z.ltb_spec c 0x800).
  { cbn [app utf8_decode needed udec0]. change (0 =? 0) with true. cbv iota. unfold lead, between.
    destruct (Z.leb_spec (0xC0 + c / 64) 0x7F); [lia|].
    destruct (Z.leb_spec 0xC2 (0xC0 + c / 64)); [|lia].
    destruct (Z.leb_spec (0xC0 + c / 64) 0xDF); [|lia]. cbn [andb].
    cbn [app utf8_decode needed lower upper cp seen]. change (1 =? 0) with false. cbv iota. unfold between.
    destruct (Z.leb_spec 0x80 (0x80 + c mod 64)); [|lia]. destruct (Z.leb_spec (0x80 + c mod 64) 0xBF); [|lia].
    cbn [andb negb]. change (0 + 1 =? 1) with true. cbv iota. f_equal.
    rewrite (land_low _ 5 0x1F), (land_low _ 6 0x3F) by (reflexivity || lia).
    change (2 ^ 5) with 32; change (2 ^ 6) with 64. rewrite join6 by lia. lia. }
  destruct (Z.ltb_spec c 0x10000).
  { cbn [app utf8_decode needed udec0]. change (0 =? 0) with true. cbv iota. unfold lead, between.
    destruct (Z.leb_spec (0xE0 + c / 4096) 0x7F); [lia|].
    destruct (Z.leb_spec (0xE0 + c / 4096) 0xDF); [lia|]. rewrite andb_false_r.
    destruct (Z.leb_spec 0xE0 (0xE0 + c / 4096)); [|lia].
    destruct (Z.leb_spec (0xE0 + c / 4096) 0xEF); [|lia]. cbn [andb].
    cbn [app utf8_decode needed lower upper cp seen]. change (2 =? 0) with false. cbv iota. unfold between.
    assert (E : ((if 0xE0 + c / 4096 =? 0xE0 then 0xA0 else 0x80) <=? 0x80 + c / 64 mod 64) &&
                (0x80 + c / 64 mod 64 <=? (if 0xE0 + c / 4096 =? 0xED then 0x9F else 0xBF)) = true).
    { destruct (Z.eqb_spec (0xE0 + c / 4096) 0xE0), (Z.eqb_spec (0xE0 + c / 4096) 0xED); lia. }
    rewrite E. cbn [negb]. change (0 + 1 =? 2) with false. cbv iota.
    cbn [utf8_decode needed lower upper cp seen]. change (2 =? 0) with false. cbv iota. unfold between.
    destruct (Z.leb_spec 0x80 (0x80 + c mod 64)); [|lia]. destruct (Z.leb_spec (0x80 + c mod 64) 0xBF); [|lia].
    cbn [andb negb]. change (0 + 1 + 1 =? 2) with true. cbv iota. f_equal.
    rewrite (land_low _ 4 0xF), !(land_low _ 6 0x3F) by (reflexivity || lia).
    change (2 ^ 4) with 16; change (2 ^ 6) with 64. rewrite !join6 by lia. lia. }
  { cbn [app utf8_decode needed udec0]. change (0 =? 0) with true. cbv iota. unfold lead, between.
    destruct (Z.leb_spec (0xF0 + c / 262144) 0x7F); [lia|].
    destruct (Z.leb_spec (0xF0 + c / 262144) 0xDF); [lia|]. rewrite andb_false_r.
    destruct (Z.leb_spec (0xF0 + c / 262144) 0xEF); [lia|]. rewrite andb_false_r.
    destruct (Z.leb_spec 0xF0 (0xF0 + c / 262144)); [|lia].
    destruct (Z.leb_spec (0xF0 + c / 262144) 0xF4); [|lia]. cbn [andb].
    cbn [app utf8_decode needed lower upper cp seen]. change (3 =? 0) with false. cbv iota. unfold between.
    assert (E : ((if 0xF0 + c / 262144 =? 0xF0 then 0x90 else 0x80) <=? 0x80 + c / 4096 mod 64) &&
                (0x80 + c / 4096 mod 64 <=? (if 0xF0 + c / 262144 =? 0xF4 then 0x8F else 0xBF)) = true).
    { destruct (Z.eqb_spec (0xF0 + c / 262144) 0xF0), (Z.eqb_spec (0xF0 + c / 262144) 0xF4); lia. }
    rewrite E. cbn [negb]. change (0 + 1 =? 3) with false. cbv iota.
    cbn [utf8_decode needed lower upper cp seen]. change (3 =? 0) with false. cbv iota. unfold between.
    destruct (Z.leb_spec 0x80 (0x80 + c / 64 mod 64)); [|lia]. destruct (Z.leb_spec (0x80 + c / 64 mod 64) 0xBF); [|lia].
    cbn [andb negb]. change (0 + 1 + 1 =? 3) with false. cbv iota.
    cbn [utf8_decode needed lower upper cp seen]. change (3 =? 0) with false. cbv iota. unfold between.
    destruct (Z.leb_spec 0x80 (0x80 + c mod 64)); [|lia]. destruct (Z.leb_spec (0x80 + c mod 64) 0xBF); [|lia].
    cbn [andb negb]. change (0 + 1 + 1 + 1 =? 3) with true. cbv iota. f_equal.
    rewrite (land_low _ 3 0x7), !(land_low _ 6 0x3F) by (reflexivity || lia).
    change (2 ^ 3) with 8; change (2 ^ 6) with 64. rewrite !join6 by lia. lia. }
Qed.
Lemma decode_chars cs : Forall scalar_value cs -> utf8_decode udec0 (concat (map utf8_char cs)) = cs.
Proof.
  induction 1 as [|c cs Hc Hcs IH]; [reflexivity|]. cbn [map concat]. rewrite decode_char by exact Hc.
  rewrite IH. reflexivity.
Qed.

(** Only U+FEFF is written EF BB BF. *)
Definition bom := [0xEF; 0xBB; 0xBF].
Lemma strip_bom_yes p : strip_bom (bom ++ p) = p.
Proof. reflexivity. Qed.
Lemma strip_bom_no p : (forall r, p <> bom ++ r) -> strip_bom p = p.
Proof.
  intros H. destruct p as [|a [|b [|c p]]]; try reflexivity. unfold strip_bom.
  destruct (Z.eqb_spec a 0xEF), (Z.eqb_spec b 0xBB), (Z.eqb_spec c 0xBF); try reflexivity.
  subst. exfalso. apply (H p). reflexivity.
Qed.
Lemma cons_eq {A} (a b : A) l m : a :: l = b :: m -> a = b /\ l = m.
Proof. intros H. inversion H. auto. Qed.
Lemma char_bom c p r : scalar_value c -> utf8_char c ++ p = bom ++ r -> c = 0xFEFF.
Proof.
  unfold scalar_value, utf8_char, bom. intros Hc E.
  destruct (c <? 0x80) eqn:E1; [|destruct (c <? 0x800) eqn:E2; [|destruct (c <? 0x10000) eqn:E3]];
    cbn [app] in E; apply cons_eq in E as [Ea E].
  - lia.
  - lia.
  - apply cons_eq in E as [Eb E]. apply cons_eq in E as [Ec E]. lia.
  - lia.
Qed.
Definition scalars_no_bom (cs : list Z) : list Z :=
  match cs with c :: r => if c =? 0xFEFF then r else cs | [] => cs end.
Lemma decode_text cs : Forall scalar_value cs ->
  text_decode (concat (map utf8_char cs)) = concat (map units (scalars_no_bom cs)).
Proof.
  intros H. unfold text_decode. destruct cs as [|c cs]; [reflexivity|]. cbn [scalars_no_bom].
  inversion H; subst. destruct (Z.eqb_spec c 0xFEFF) as [->|Hne].
  - change (concat (map utf8_char (0xFEFF :: cs))) with (bom ++ concat (map utf8_char cs)).
    rewrite strip_bom_yes, decode_chars by assumption. reflexivity.
  - rewrite strip_bom_no, decode_chars by (assumption ||
      (intros r E; cbn [map concat] in E; apply Hne; eapply char_bom; eassumption)). reflexivity.
Qed.
Lemma units_no_bom cs : Forall scalar_value cs ->
  concat (map units (scalars_no_bom cs)) = drop_bom (concat (map units cs)).
Proof.
  intros H. destruct cs as [|c cs]; [reflexivity|]. cbn [scalars_no_bom map concat].
  inversion H; subst. unfold scalar_value in *. destruct (Z.eqb_spec c 0xFEFF) as [->|Hne]; [reflexivity|].
  cbn [map concat]. unfold units. destruct (Z.ltb_spec c 0x10000); cbn [app drop_bom].
  - destruct (Z.eqb_spec c 0xFEFF); [contradiction|reflexivity].
  - destruct (Z.eqb_spec (0xD800 + (c - 0x10000) / 1024) 0xFEFF); [lia|reflexivity].
Qed.
Lemma scalars_units cs : Forall scalar_value cs -> scalars (concat (map units cs)) = cs.
Proof.
  induction 1 as [|c cs Hc Hcs IH]; [reflexivity|]. cbn [map concat]. unfold scalar_value in Hc.
  unfold units at 1. destruct (Z.ltb_spec c 0x10000); cbn [app scalars].
  - destruct (Z.ltb_spec c 0xD800), (Z.ltb_spec 0xDFFF c); cbn [orb]; try lia; rewrite IH; reflexivity.
  - destruct (Z.ltb_spec (0xD800 + (c - 0x10000) / 1024) 0xD800); [lia|].
    destruct (Z.ltb_spec 0xDFFF (0xD800 + (c - 0x10000) / 1024)); [lia|]. cbn [orb].
    destruct (Z.ltb_spec 0xDBFF (0xD800 + (c - 0x10000) / 1024)); [lia|].
    destruct (Z.leb_spec 0xDC00 (0xDC00 + (c - 0x10000) mod 1024)); [|lia].
    destruct (Z.leb_spec (0xDC00 + (c - 0x10000) mod 1024) 0xDFFF); [|lia]. cbn [andb].
    rewrite IH. f_equal. lia.
Qed.
(** A string without lone surrogates survives as it is, but for a leading byte order mark. *)
Lemma wellformed_repaired u : wellformed u -> repaired u = u.
Proof. intros (cs & H & ->). unfold repaired. rewrite scalars_units by exact H. reflexivity. Qed.
