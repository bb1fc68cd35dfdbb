(** The text of a generated Rust file: the proofs of PropRsTpl. *)
From Coq Require Import String Ascii.
From Verif Require Import Base Spec GenTables NameModel NameSpec NameThms NameThms2 NameThms3 EmitModel EmitSpec EmitThms TplSpec TplNames GoAst GoEmit RsGenModel RsAst RsEmit RsTplText TplModel TplGo TplExec GoLex RsLex RsLexThms RsTpl RsTplSpec RsTplThms RsTplThms5 RsTplThms6.
From Verif Require TplThms9 TplThms10.
Local Open Scope list_scope.

Lemma ident_word w : identifier w -> wname w = true.
Proof.
  intros (c & t & -> & H1 & H2). unfold wname. assert (E : letterb c = true) by (unfold letter, lower, upper, letterb in *; lia). rewrite E.
  apply forallb_forall. intros x Hx. rewrite Forall_forall in H2. apply TplThms10.ident_word, H2, Hx.
Qed.
Lemma camel_word s : go_ident s -> wname (camel s) = true.
Proof. intros (r & E & H). unfold camel. rewrite E. apply ident_word, H. Qed.
Lemma type_fine t : rs_type_ok t -> tfine t.
Proof. destruct t as [k|s|s|k v]; cbn; auto using camel_word. Qed.
Lemma field_fine fd : rs_field_ok fd -> ffine fd.
Proof.
  intros (N & H). split; [apply ident_word, snake_identifier, N|]. destruct (f_typ fd) as [k|s|s|k v]; [apply type_fine, H..|]. destruct H as (H1 & H2). split; [exact H1|apply type_fine, H2].
Qed.
Lemma enum_fine e : rs_enum_ok e -> rs_efine e.
Proof. intros (H1 & H2). split; [apply camel_word, H1|]. intros v Hv. apply ident_word, H2, Hv. Qed.
Lemma messages_fine p f n : rs_nameable f -> forall m, In m (d_msgs f) ->
  writes (RUN p (S (S (depth f + n))) "structs" (VMsg m)) RNone (flat_map r_decl (structs (rs_structs_decl p) m)) RNone.
Proof.
  intros F m Hm. apply t_structs.
  - unfold depth. assert (A := proj1 (list_max_le (map height (d_msgs f)) (list_max (map height (d_msgs f)))) (Nat.le_refl _)). rewrite Forall_forall in A. apply A, in_map, Hm.
  - intros k Hk. assert (H : has_message f k) by (exists m; auto). split; [apply camel_word, (rn_messages _ F k H)|]. apply Forall_forall. intros fd Hfd. apply field_fine, (rn_fields _ F k fd H Hfd).
Qed.
Lemma text_of s fuel ts : writes (RUN (rs_privacy s) fuel "base.templ" (rs_data true s)) RNone ts RNone -> exists l, rs_file_text true fuel s = Some l /\ rs_tokens l = ts.
Proof.
  intros (l & E & L). exists l. unfold rs_file_text. rewrite rs_parsed_ok. split; [exact E|]. unfold rs_tokens. assert (X := RLex_app _ _ _ _ _ _ _ L (eq_refl : RLex RNone [10] [] RNone)). unfold RLex in X. rewrite X. cbn [fst]. apply app_nil_r.
Qed.
Lemma text_headed s fuel hs : rs_nameable (rs_source_file s) -> (depth (rs_source_file s) + 4 <= fuel)%nat -> (forall n, writes (RUN (rs_privacy s) (S n) "headers" (rs_data true s)) RNone hs RNone) ->
  exists l, rs_file_text true fuel s = Some l /\ rs_tokens l = hs ++ r_file (rs_program (rs_privacy s) (rs_deps s) (rs_source_file s)).
Proof.
  intros F D HH. assert (X : exists n, fuel = S (S (S (S (depth (rs_source_file s) + n))))) by (exists (fuel - 4 - depth (rs_source_file s))%nat; lia). destruct X as (n & ->). apply text_of, t_base.
  - intros e He. apply enum_fine, (rn_enums _ F e He).
  - intros m Hm e He. apply enum_fine, (rn_nested _ F m e Hm He).
  - apply messages_fine, F.
  - apply HH.
Qed.
Lemma text_header s fuel : rs_nameable (rs_source_file s) -> (depth (rs_source_file s) + 4 <= fuel)%nat -> one_line (rs_version s) -> one_line (rs_path s) ->
  exists l, rs_file_text true fuel s = Some l /\ rs_tokens l = r_file (rs_program (rs_privacy s) (rs_deps s) (rs_source_file s)).
Proof. intros F D V P. apply (text_headed s fuel []); [exact F|exact D|]. intros n. apply t_headers; apply TplThms10.lineb; assumption. Qed.
Lemma text_spilled s fuel v : rs_nameable (rs_source_file s) -> (depth (rs_source_file s) + 4 <= fuel)%nat -> rs_version s = v ++ [10] -> one_line v -> one_line (rs_path s) ->
  exists l, rs_file_text true fuel s = Some l /\ rs_tokens l = rs_spill ++ r_file (rs_program (rs_privacy s) (rs_deps s) (rs_source_file s)).
Proof. intros F D E V P. apply (text_headed s fuel rs_spill); [exact F|exact D|]. intros n. apply (t_headers_bad _ _ _ v); [exact E|apply TplThms10.lineb; assumption..]. Qed.

Lemma legal_type_ok t : rs_legal_type t -> rs_type_ok t. Proof. destruct t; cbn; auto using plain_ident. Qed.
Lemma rs_legal_nameable f : rs_legal_file f -> rs_nameable f.
Proof.
  intros L. assert (E : forall e, rs_legal_enum e -> rs_enum_ok e) by (intros e (H1 & H2); split; [apply plain_ident, H1|exact H2]). split.
  - intros e He. apply E, (rl_enums _ L e He).
  - intros m e Hm He. apply E, (rl_nested _ L m e Hm He).
  - intros m Hm. apply plain_ident, (rl_messages _ L m Hm).
  - intros m fd Hm Hf. destruct (proj2 (rl_messages _ L m Hm) fd Hf) as (H1 & H3). split; [exact H1|]. destruct (f_typ fd) as [k|s|s|k v]; [apply legal_type_ok, H3..|].
    destruct H3 as (A & B). split; [exact A|apply legal_type_ok, B].
Qed.
