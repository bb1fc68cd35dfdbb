(** Names that protoc passes have Go names that are identifiers. *)
From Coq Require Import String.
From Verif Require Import Base Spec GenTables NameModel NameSpec NameThms NameThms2 EmitModel EmitSpec EmitThms TplGo TplSpec.
Local Open Scope list_scope.

Inductive tail_ok : bytes -> Prop :=
| tail_nil : tail_ok []
| tail_char c t : ident_char c -> tail_ok t -> tail_ok (c :: t)
| tail_dot c t : ident_char c -> tail_ok (c :: t) -> tail_ok (46 :: c :: t).
Lemma chars_tail l t : Forall ident_char l -> tail_ok t -> tail_ok (l ++ t).
Proof. induction 1; intros T; [exact T|]. cbn [app]. apply tail_char; auto. Qed.
Lemma ident_cons s : identifier s -> exists c t, s = c :: t /\ ident_char c /\ Forall ident_char t.
Proof. intros (c & t & -> & H & F). exists c, t. split; [reflexivity|]. split; [unfold ident_char; tauto|exact F]. Qed.
Lemma full_tail s : full_name s -> tail_ok s /\ exists c t, s = c :: t /\ ident_char c.
Proof.
  induction 1 as [s H|s t H Ht (T & c' & t' & -> & Hc')].
  - destruct (ident_cons s H) as (c & t & -> & Hc & F). split; [|eauto]. rewrite <- (app_nil_r (c :: t)). apply chars_tail; [constructor; assumption|constructor].
  - destruct (ident_cons s H) as (c & u & -> & Hc & F). split; [|cbn [app]; eauto]. apply chars_tail; [constructor; assumption|]. apply tail_dot; assumption.
Qed.
Definition low (c : Z) : Prop := lower c.
Lemma not_low_start p c t : starts_word (Some p) = true -> ident_char c -> exists x, In x (camel_from (Some p) (c :: t)) /\ ~ lower x.
Proof.
  intros S H. cbn [camel_from]. unfold camel_piece. unfold ident_char, letter, lower, upper, digit in H. destruct (Z.eqb_spec c 46); [lia|]. destruct (Z.eqb_spec c 95) as [->|].
  - destruct t as [|d t]; cbn [hd_error]; [exists 95; split; [left; reflexivity|unfold lower; lia]|]. destruct (is_lower d) eqn:L; [|exists 95; split; [left; reflexivity|unfold lower; lia]].
    cbn [app camel_from]. unfold camel_piece. unfold is_lower in L. destruct (Z.eqb_spec d 46); [lia|]. destruct (Z.eqb_spec d 95); [lia|]. cbn [starts_word]. assert (E : is_lower d = true) by (unfold is_lower; lia). rewrite E. cbn [Z.eqb orb andb Pos.eqb].
    exists (d - 32). split; [left; reflexivity|unfold lower; lia].
  - rewrite S, andb_true_r. destruct (is_lower c) eqn:L; unfold is_lower in L; [exists (c - 32); split; [left; reflexivity|unfold lower; lia]|]. exists c. split; [left; reflexivity|unfold lower; lia].
Qed.
Lemma all_low t : tail_ok t -> forall p, letter p -> Forall lower (camel_from (Some p) t) -> camel_from (Some p) t = t.
Proof.
  induction 1 as [|c t Hc T IH|c t Hc T IH]; intros p Hp F; [reflexivity| |].
  - assert (NS : starts_word (Some p) = false) by (cbn [starts_word]; unfold letter, lower, upper, is_digit in *; lia).
    cbn [camel_from] in *. unfold camel_piece in *. unfold ident_char, letter, lower, upper, digit in Hc. destruct (Z.eqb_spec c 46); [lia|]. destruct (Z.eqb_spec c 95) as [->|].
    + exfalso. destruct t as [|d t]; cbn [hd_error] in F; [inversion F; unfold lower in *; lia|]. destruct (is_lower d) eqn:L; [|inversion F; unfold lower in *; lia]. cbn [app] in F.
      assert (Hd : ident_char d) by (unfold is_lower in L; unfold ident_char, letter, lower; lia). destruct (not_low_start 95 d t eq_refl Hd) as (x & Hx & Hl). rewrite Forall_forall in F. exact (Hl (F x Hx)).
    + rewrite NS, andb_false_r in *. cbn [app] in *. inversion F as [|? ? F1 F2]; subst. f_equal. apply IH; [left; exact F1|exact F2].
  - exfalso. change (camel_from (Some p) (46 :: c :: t)) with (camel_from (Some 46) (c :: t)) in F. destruct (not_low_start 46 c t eq_refl Hc) as (x & Hx & Hl). rewrite Forall_forall in F. exact (Hl (F x Hx)).
Qed.
Lemma plain_ident s : plain_name s -> go_ident s.
Proof. intros (F & E). exists (camel_spec s). split; [apply camel_exact|]. exact (proj1 (full_exported s F E)). Qed.
Lemma keyword_low w : In w go_keywords -> Forall lower w.
Proof. intros H. vm_compute in H. repeat (destruct H as [<-|H]; [repeat constructor; unfold lower; lia|]). destruct H. Qed.
Lemma plain_slice s : plain_name s -> ~ In s go_keywords -> go_type true (TEnum s).
Proof.
  intros (F & c & t & -> & Hc) K. cbn [go_type]. exists (c :: camel_from (Some c) t).
  assert (P : camel_from (Some 93) (c :: t) = c :: camel_from (Some c) t).
  { cbn [camel_from]. unfold camel_piece. unfold letter, lower, upper in Hc. destruct (Z.eqb_spec c 46); [lia|]. destruct (Z.eqb_spec c 95); [lia|]. cbn [starts_word]. change ((93 =? 95) || (93 =? 46) || is_digit 93) with false. rewrite andb_false_r. reflexivity. }
  split; [|split].
  - rewrite camel_exact. unfold camel_spec. change (str "[]" ++ c :: t) with (91 :: 93 :: c :: t). change (camel_from None (91 :: 93 :: c :: t)) with (91 :: 93 :: camel_from (Some 93) (c :: t)). rewrite P. reflexivity.
  - exists c, (camel_from (Some c) t). split; [reflexivity|]. split; [left; exact Hc|]. assert (C := camel_full_chars (c :: t) F). unfold camel_spec in C. cbn [camel_from] in C. apply Forall_app in C. exact (proj2 C).
  - intros X. assert (L := keyword_low _ X). inversion L as [|? ? L1 L2]; subst. destruct (full_tail _ F) as (T & _). assert (T' : tail_ok t) by (inversion T; subst; [assumption|exfalso; unfold lower in L1; lia]).
    rewrite (all_low t T' c (or_introl L1) L2) in X. exact (K X).
Qed.
Lemma legal_go_type many t : legal_type many t -> go_type many t.
Proof. destruct t as [k|s|s|k v]; cbn [legal_type go_type]; auto using plain_ident. intros (H1 & H2). destruct many; [apply plain_slice; auto|apply plain_ident, H1]. Qed.
Lemma legal_nameable f : legal_file f -> nameable f.
Proof.
  intros L. assert (E : forall e, legal_enum e -> go_enum e) by (intros e (H1 & H2); split; [apply plain_ident, H1|intros v Hv; apply plain_ident, H2, Hv]). split.
  - intros e He. apply E, (lf_enums _ L e He).
  - intros m e Hm He. apply E, (lf_nested _ L m e Hm He).
  - intros m Hm. apply plain_ident, (lf_messages _ L m Hm).
  - intros m fd Hm Hf. destruct (proj2 (lf_messages _ L m Hm) fd Hf) as (H1 & H2 & H3). split; [apply plain_ident, H1|]. destruct (f_typ fd) as [k|s|s|k v]; [apply legal_go_type, H3..|].
    destruct H3 as (A & B & C). split; [exact A|]. split; [apply plain_ident, H2|]. split; [apply legal_go_type, B|exact C].
Qed.
