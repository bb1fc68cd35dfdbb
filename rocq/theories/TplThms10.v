(** The text of a generated Go file: the proofs of PropTpl. *)
From Coq Require Import String Ascii.
From Verif Require Import Base Spec GenTables NameModel NameSpec NameThms NameThms2 EmitModel EmitSpec EmitThms GoAst GoEmit TplText TplModel TplGo TplExec GoLex GoLexThms TplSpec TplThms TplThms2 TplThms3 TplThms4 TplThms5 TplThms6 TplThms7 TplThms8 TplThms9.
Local Open Scope list_scope.

Lemma ident_word c : ident_char c -> wordb c = true.
Proof. unfold ident_char, letter, lower, upper, digit, wordb, letterb, digitb. lia. Qed.
Lemma ident_name w : identifier w -> ~ In w go_keywords -> nameb w = true.
Proof.
  intros (c & t & -> & H1 & H2) K. unfold nameb. assert (E : letterb c = true) by (unfold letter, lower, upper, letterb in *; lia). rewrite E.
  assert (F : forallb wordb t = true) by (apply forallb_forall; intros x Hx; rewrite Forall_forall in H2; apply ident_word, H2, Hx). rewrite F. cbn [andb]. apply negb_true_iff. unfold keyword.
  destruct (existsb (same (c :: t)) go_keywords) eqn:X; [|reflexivity]. exfalso. apply existsb_exists in X. destruct X as (k & Hk & Hs). unfold same in Hs. destruct (list_eq_dec Z.eq_dec (c :: t) k) as [<-|]; [|discriminate Hs]. exact (K Hk).
Qed.
Lemma ident_good s : go_ident s -> goodb (camel s) = true.
Proof.
  intros (r & E & (c & t & -> & H1 & H2)). assert (C : camel s = c :: t) by (unfold camel; rewrite E; reflexivity). rewrite C. unfold goodb.
  assert (L := camel_never_lower s (c :: t) E c t eq_refl). assert (E1 : letterb c = true) by (unfold letter, lower, upper, letterb in *; lia). rewrite E1.
  assert (F : forallb wordb t = true) by (apply forallb_forall; intros x Hx; rewrite Forall_forall in H2; apply ident_word, H2, Hx). rewrite F. unfold is_lower in L. unfold lowb. rewrite L. reflexivity.
Qed.
Lemma type_fine many t : go_type many t -> tfine many t.
Proof.
  destruct t as [k|s|s|k v]; cbn [go_type tfine]; auto using ident_good. destruct many; [|apply ident_good]. intros (w & E & I & K). exists w. split; [unfold camel; change (text "[]") with (str "[]"); rewrite E; reflexivity|apply ident_name; assumption].
Qed.
Lemma field_fine fd : go_field fd -> ffine fd.
Proof.
  intros (N & H). split; [apply ident_good, N|]. destruct (f_typ fd) as [k|s|s|k v]; [apply type_fine, H..|].
  destruct H as (H1 & H2 & H3 & k' & -> & H4). split; [exact H1|]. split; [apply ident_good, H2|]. split; [exists k'; split; [reflexivity|exact H4]|apply type_fine, H3].
Qed.
Lemma lineb l : one_line l -> one_lineb l = true.
Proof. intros H. apply forallb_forall. intros x Hx. apply negb_true_iff, Z.eqb_neq. intros ->. exact (H Hx). Qed.
Lemma enum_fine e : go_enum e -> efine e.
Proof. intros (H1 & H2). split; [apply ident_good, H1|]. intros v Hv. apply ident_good, H2, Hv. Qed.
Lemma messages_fine v2 s n : nameable (s_file s) -> forall m, In m (d_msgs (s_file s)) ->
  writes (RUN v2 (S (S (depth (s_file s) + n))) "structs" (VMsg m)) (st0 true) (t_decls v2 None (structs (struct_decls v2) m)) (st0 true).
Proof.
  intros F m Hm. apply t_structs.
  - unfold depth. assert (A := proj1 (list_max_le (map height (d_msgs (s_file s))) (list_max (map height (d_msgs (s_file s))))) (Nat.le_refl _)). rewrite Forall_forall in A. apply A, in_map, Hm.
  - intros k Hk. assert (H : has_message (s_file s) k) by (exists m; auto). split; [apply ident_good, (nm_messages _ F k H)|]. apply Forall_forall. intros fd Hfd. apply field_fine, (nm_fields _ F k fd H Hfd).
Qed.
Lemma text_of v2 h s fuel : forall ts, writes (RUN v2 fuel "base.templ" (data v2 h s)) start ts (st0 true) -> exists l, go_text v2 h fuel s = Some l /\ go_tokens l = ts.
Proof.
  intros ts (l & E & L). exists l. unfold go_text. rewrite templates_ok. split; [exact E|]. unfold go_tokens. assert (X := Lex_app _ _ _ _ _ _ _ L (eq_refl : Lex (st0 true) [10] [] (st0 true))). unfold Lex, start in X. rewrite X. cbn [fst]. apply app_nil_r.
Qed.
Section Whole.
Variables (v2 : bool) (s : source) (fuel : nat).
Hypothesis (F : nameable (s_file s)) (D : (depth (s_file s) + 4 <= fuel)%nat).
Lemma fuel_ok : exists n, fuel = S (S (S (S (depth (s_file s) + n)))). Proof using D. exists (fuel - 4 - depth (s_file s))%nat. lia. Qed.
Lemma text_header : one_line (s_version s) -> one_line (s_path s) -> package_name (s_package s) ->
  exists l, go_text v2 true fuel s = Some l /\ go_tokens l = t_file v2 (s_package s) (required_imports v2) (go_program v2 (s_file s)).
Proof using F D.
  intros V P (K1 & K2). destruct fuel_ok as (n & ->). apply text_of. rewrite file_ok. unfold head_tokens. rewrite <- app_assoc.
  apply t_base_header; [intros e He; apply enum_fine, (nm_enums _ F e He)|intros m Hm e He; apply enum_fine, (nm_nested _ F m e Hm He)|apply messages_fine, F|reflexivity|].
  apply t_headers; [apply lineb, V|apply lineb, P|apply ident_name; assumption].
Qed.
Lemma text_spilled v : s_version s = v ++ [10] -> one_line v -> one_line (s_path s) -> package_name (s_package s) ->
  exists l, go_text v2 true fuel s = Some l /\ go_tokens l = spilled ++ t_file v2 (s_package s) (required_imports v2) (go_program v2 (s_file s)).
Proof using F D.
  intros E V P (K1 & K2). destruct fuel_ok as (n & ->). apply text_of. rewrite file_ok. unfold head_tokens. rewrite <- app_assoc, (app_assoc spilled).
  apply t_base_header; [intros e He; apply enum_fine, (nm_enums _ F e He)|intros m Hm e He; apply enum_fine, (nm_nested _ F m e Hm He)|apply messages_fine, F|reflexivity|].
  apply (t_headers_bad _ _ _ _ v); [exact E|apply lineb, V|apply lineb, P|apply ident_name; assumption].
Qed.
Lemma text_plain : exists l, go_text v2 false fuel s = Some l /\ semi :: go_tokens l = t_decls v2 None (go_program v2 (s_file s)).
Proof using F D.
  destruct fuel_ok as (n & ->). rewrite program_ok. destruct (text_of v2 false s (S (S (S (S (depth (s_file s) + n))))) (program_tokens v2 false (s_file s))) as (l & E & T).
  { apply t_base_plain; [intros e He; apply enum_fine, (nm_enums _ F e He)|intros m Hm e He; apply enum_fine, (nm_nested _ F m e Hm He)|apply messages_fine, F|reflexivity]. }
  exists l. split; [exact E|]. rewrite T. reflexivity.
Qed.
End Whole.
