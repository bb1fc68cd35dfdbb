(** C95, C96: the text of generated files. *)
From Coq Require Import String.
From Verif Require Import Base Spec GenTables NameModel NameSpec EmitModel EmitSpec EmitThms GoAst GoEmit GoSlices TplText TplModel TplGo GoLex TplSpec TplNames TplHead TplThms10 PropGoRun.
From Verif Require GoTypesSpec.
Local Open Scope list_scope.

(** C95: for every file whose names are Go names, executing the templates succeeds, and the text, read by Go's lexical rules,
    is the package clause, the import declaration and the declarations of [go_program] (the program that C92, C93 and C94 are
    about), token by token, with no other token before, between or after them. *)
Theorem c95_text : forall v2 s fuel, nameable (s_file s) -> package_name (s_package s) ->
  one_line (s_version s) -> one_line (s_path s) -> (depth (s_file s) + 4 <= fuel)%nat ->
  exists l, go_text v2 true fuel s = Some l /\
    go_tokens l = t_file v2 (s_package s) (required_imports v2) (go_program v2 (s_file s)).
Proof. intros v2 s fuel F P V H D. apply text_header; assumption. Qed.
Print Assumptions c95_text.
(** Without the header (for plugins that write their own): the declarations alone. *)
Theorem c95_text_without_header : forall v2 s fuel, nameable (s_file s) -> (depth (s_file s) + 4 <= fuel)%nat ->
  exists l, go_text v2 false fuel s = Some l /\ semi :: go_tokens l = t_decls v2 None (go_program v2 (s_file s)).
Proof. intros v2 s fuel F D. apply text_plain; assumption. Qed.
Print Assumptions c95_text_without_header.
(** Files as protoc passes them have Go names: their full names are identifiers joined by dots, of which the first starts with
    a letter; no enum that is repeated somewhere has a keyword of Go for its full name. *)
Theorem c95_legal_files : forall f, legal_file f -> nameable f.
Proof. exact legal_nameable. Qed.
Print Assumptions c95_legal_files.
(** The version string that both modules embed (version/current_version) ends in a newline, which nothing removes: the rest of
    the first line of the header is then no comment.  At this commit the text generated for EVERY file starts with the tokens
    "," "DO" "NOT" "EDIT" ".", where Go's grammar has "package" only. *)
Theorem c95_current_version_refuted : forall v2 s fuel, nameable (s_file s) -> package_name (s_package s) ->
  s_version s = current_version v2 -> one_line (s_path s) -> (depth (s_file s) + 4 <= fuel)%nat ->
  exists l, go_text v2 true fuel s = Some l /\
    go_tokens l = [op ","; id "DO"; id "NOT"; id "EDIT"; op "."] ++ t_file v2 (s_package s) (required_imports v2) (go_program v2 (s_file s)) /\
    hd_error (go_tokens l) <> Some (id "package").
Proof.
  intros v2 s fuel F P V H D. destruct (text_spilled v2 s fuel F D (text (if v2 then "v2.0.5" else "v1.3.0")) V) as (l & E & T); [destruct v2; intros X; vm_compute in X; intuition discriminate|exact H|exact P|].
  exists l. split; [exact E|]. split; [exact T|]. rewrite T. discriminate.
Qed.
Print Assumptions c95_current_version_refuted.

(** The file of C92's example, and the same with a nested message: its text has 1 package clause and as many tokens as follow. *)
Definition tpl_n : msgd := mkmsg (text "p.Outer") false [mkfield (text "in_ner") (text "p.Outer.in_ner") true (TMsg (text "p.Outer.Inner"))] []
  [mkmsg (text "p.Outer.Inner") false [mkfield (text "by_name") (text "p.Outer.Inner.by_name") true (TMap (TScalar KString) (TMsg (text "p.N")))] [] []].
Definition tpl_ex : filed := mkfiled (d_enums go_ex) (d_msgs go_ex ++ [tpl_n]).
Fixpoint fullb (start : bool) (s : bytes) : bool :=
  match s with
  | [] => negb start
  | c :: t => if c =? 46 then negb start && fullb true t
              else (is_lower c || is_upper c || (c =? 95) || (negb start && is_digit c)) && fullb false t
  end.
Lemma fullb_ok s : (fullb true s = true -> full_name s) /\ (fullb false s = true -> forall a, identifier a -> full_name (a ++ s)).
Proof.
  induction s as [|c t (I1 & I2)]; [split; [discriminate|intros _ a A; rewrite app_nil_r; apply Full_one, A]|]. cbn [fullb]. destruct (Z.eqb_spec c 46) as [->|N].
  - split; [discriminate|]. cbn [negb andb]. intros H a A. apply Full_dot; [exact A|apply I1, H].
  - split; intros H; apply andb_true_iff in H; destruct H as (H1 & H2).
    + apply (I2 H2 [c]). exists c, []. split; [reflexivity|]. split; [unfold letter, lower, upper, is_lower, is_upper, is_digit in *; lia|constructor].
    + intros a A. change (c :: t) with ([c] ++ t). rewrite app_assoc. apply (I2 H2). destruct A as (x & u & -> & A1 & A2). exists x, (u ++ [c]). split; [reflexivity|]. split; [exact A1|]. apply Forall_app. split; [exact A2|]. constructor; [|constructor].
      unfold ident_char, letter, lower, upper, digit, is_lower, is_upper, is_digit in *. lia.
Qed.
Lemma plain_ok s : fullb true s && match s with c :: _ => is_lower c || is_upper c | [] => false end = true -> plain_name s.
Proof.
  intros H. apply andb_true_iff in H. destruct H as (H1 & H2). split; [apply fullb_ok, H1|]. destruct s as [|c t]; [discriminate H2|]. exists c, t. split; [reflexivity|]. unfold letter, lower, upper, is_lower, is_upper in *. lia.
Qed.
Lemma tpl_legal : legal_file tpl_ex.
Proof.
  assert (E : legal_enum go_e) by (split; [apply plain_ok; reflexivity|]; intros v Hv; cbn in Hv; repeat (destruct Hv as [<-|Hv]; [apply plain_ok; reflexivity|]); destruct Hv).
  split.
  - intros e [<-|[]]. exact E.
  - intros m e Hm He. cbn in Hm. repeat (destruct Hm as [<-|Hm]; [destruct He|]). destruct Hm.
  - intros m H. apply ms_has in H. cbn in H.
    repeat (destruct H as [<-|H]; [split; [apply plain_ok; reflexivity|]; intros fd Hf; cbn in Hf;
      repeat (destruct Hf as [<-|Hf]; [split; [apply plain_ok; reflexivity|]; split; [apply plain_ok; reflexivity|]; cbn [f_typ f_many];
        first [split; discriminate | split; [apply plain_ok; reflexivity|discriminate] | apply plain_ok; reflexivity
              | split; [reflexivity|]; split; [apply plain_ok; reflexivity|]; eexists; split; [reflexivity|]; repeat split; discriminate | repeat split; discriminate]|]); destruct Hf|]).
    destruct H.
Qed.
Definition tpl_source (v : bytes) : source := mksource v (text "a/b.proto") (text "example") tpl_ex.
Example c95_example : legal_file tpl_ex /\ depth tpl_ex = 2%nat /\ package_name (text "example") /\ one_line (text "a/b.proto") /\ one_line (text "v2.0.5") /\
  (exists l, go_text true true 6 (tpl_source (text "v2.0.5")) = Some l /\ zlen l = 7913) /\
  (exists l, go_text false false 6 (tpl_source []) = Some l /\ zlen (go_tokens l) = 1996).
Proof.
  split; [exact tpl_legal|]. split; [reflexivity|]. split; [split; [apply PkgThms3.identb_ok; reflexivity|vm_compute; intuition discriminate]|]. split; [vm_compute; intuition discriminate|]. split; [vm_compute; intuition discriminate|].
  split; (eexists; split; [vm_compute; reflexivity|vm_compute; reflexivity]).
Qed.

(** C96: the Rust and the TypeScript file start with the same header, whatever else the file has: the version between
    "// Code generated by polyglot " and ", DO NOT EDIT.", then the path, then a newline. *)
Theorem c96_rust_header : forall call others fuel version path rest l, rs_text call others fuel version path rest = Some l ->
  exists t, l = text "
// Code generated by polyglot " ++ version ++ text ", DO NOT EDIT.
// source: " ++ path ++ text "
" ++ t.
Proof. intros call others fuel version path rest l H. destruct (rs_starts _ _ _ _ _ _ _ H) as (t & ->). exists t. unfold header_text. rewrite <- !app_assoc. reflexivity. Qed.
Print Assumptions c96_rust_header.
Theorem c96_typescript_header : forall call others fuel version path rest body l, ts_text call others fuel version path rest body = Some l ->
  exists t, l = text "
// Code generated by polyglot " ++ version ++ text ", DO NOT EDIT.
// source: " ++ path ++ text "
" ++ t.
Proof. intros call others fuel version path rest body l H. destruct (ts_starts _ _ _ _ _ _ _ _ H) as (t & ->). exists t. unfold header_text. rewrite <- !app_assoc. reflexivity. Qed.
Print Assumptions c96_typescript_header.
(** With the version that is embedded at this commit the third line of every Rust and every TypeScript file is ", DO NOT EDIT.",
    outside of any comment, and nothing but a comment comes before it: neither language has a file that starts with a comma. *)
Theorem c96_current_version_refuted : forall v2 call others fuel path rest body l,
  rs_text call others fuel (current_version v2) path rest = Some l \/ ts_text call others fuel (current_version v2) path rest body = Some l ->
  exists v t, one_line v /\ l = [10] ++ text "//" ++ v ++ [10] ++ text ", DO NOT EDIT." ++ [10] ++ t.
Proof.
  intros v2 call others fuel path rest body l H. exists (text (if v2 then " Code generated by polyglot v2.0.5" else " Code generated by polyglot v1.3.0")), (text "// source: " ++ path ++ text "
" ++ (match H with _ => skipn (length (header_text (current_version v2) path)) l end)).
  split; [destruct v2; intros X; vm_compute in X; intuition discriminate|].
  assert (S : exists t, l = header_text (current_version v2) path ++ t) by (destruct H as [H|H]; [exact (rs_starts _ _ _ _ _ _ _ H)|exact (ts_starts _ _ _ _ _ _ _ _ H)]). clear H. destruct S as (t & ->). rewrite skipn_app, skipn_all, Nat.sub_diag, skipn_O.
  unfold header_text. rewrite <- !app_assoc. destruct v2; reflexivity.
Qed.
Print Assumptions c96_current_version_refuted.
(** an instance: the other templates and the body are empty *)
Example c96_example : exists l, rs_text call_of [("imports"%string, []); ("enums"%string, []); ("messages"%string, [])] 2 (current_version true) (text "a.proto") [] = Some l /\ zlen l = 79.
Proof. eexists. split; vm_compute; reflexivity. Qed.
