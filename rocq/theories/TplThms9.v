(** base.templ, headers.templ, imports.templ, errors.templ, enums.templ, messages.templ: the whole file. *)
From Coq Require Import String Ascii.
From Verif Require Import Base Spec GenTables NameModel NameSpec EmitModel EmitSpec EmitThms GoAst GoEmit TplText TplModel TplGo TplExec GoLex GoLexThms TplThms TplThms2 TplThms3 TplThms4 TplThms5 TplThms6 TplThms7 TplThms8.
Local Open Scope list_scope.

(** comments *)
Definition one_lineb (l : bytes) : bool := forallb (fun c => negb (c =? 10)) l.
Lemma Lex_comment l t d : one_lineb l = true -> Lex (mklst PComment t d) l [] (mklst PComment t d).
Proof.
  induction l as [|c l IH]; intros H; [reflexivity|]. cbn [one_lineb forallb] in H. apply andb_true_iff in H. destruct H as (H1 & H2). apply negb_true_iff in H1. specialize (IH H2). unfold Lex in *. cbn [lex]. unfold step. cbn [l_part]. rewrite H1. unfold next. rewrite IH. reflexivity.
Qed.
(** strings *)
Definition no_quote (l : bytes) : bool := forallb (fun c => negb (c =? 34)) l.
Lemma Lex_quote w l t d : no_quote l = true -> Lex (mklst (PQuote w) t d) l [] (mklst (PQuote (w ++ l)) t d).
Proof.
  revert w. induction l as [|c l IH]; intros w H; [rewrite app_nil_r; reflexivity|]. cbn [no_quote forallb] in H. apply andb_true_iff in H. destruct H as (H1 & H2). apply negb_true_iff in H1. specialize (IH (w ++ [c]) H2). unfold Lex in *. cbn [lex]. unfold step. cbn [l_part l_semi l_due]. rewrite H1. unfold next. rewrite IH. rewrite <- app_assoc. reflexivity.
Qed.
Local Opaque call_of truth equal loop show_int.
Lemma loop_cons body i x l : loop body i (x :: l) = both (body i x) (loop body (i + 1) l). Proof. reflexivity. Qed.
Lemma loop_nil body i : loop body i [] = Some []. Proof. reflexivity. Qed.
Definition start : lst := mklst PNone false false.

Lemma t_headers v2 h n s : one_lineb (s_version s) = true -> one_lineb (s_path s) = true -> nameb (s_package s) = true ->
  writes (RUN v2 (S n) "headers" (data v2 h s)) start [id "package"; Id (s_package s)] (st0 true).
Proof.
  intros V P K. rewrite run_S. unfold data. destruct v2.
  all: eapply writes_eq; [ex; w; [eapply writes_both; [apply writes_some, Lex_comment, V|]; w; eapply writes_both; [apply writes_some, Lex_comment, P|]; w]|reflexivity|reflexivity].
Qed.
Lemma t_imports v2 h n s : writes (RUN v2 (S n) "imports" (data v2 h s)) (st0 true)
  (semi :: id "import" :: op "(" :: (match required_imports v2 with [] => [] | i :: l => Quoted i :: flat_map (fun i => [semi; Quoted i]) l end) ++ [op ")"]) (st0 true).
Proof.
  rewrite run_S. unfold data. destruct v2.
  all: eapply writes_eq; [ex; rewrite !loop_cons, loop_nil; ex; w|reflexivity|reflexivity].
Qed.
Lemma t_errors v2 h n s d : writes (RUN v2 (S n) "errors" (data v2 h s)) (st0 d) ((if d then [semi] else []) ++ t_decl v2 (DVar (if v2 then text "ErrDecodeNil" else text "NilDecode"))) (st0 true).
Proof. rewrite run_S. destruct v2, d; tpl. Qed.
Definition efine (e : enumd) : Prop := goodb (camel (e_full e)) = true /\ forall v, In v (e_values e) -> goodb (camel (v_full v)) = true.
Ltac flat := cbn [app]; rewrite ?app_nil_r; reflexivity.
Ltac an_enum b n H Hj e :=
  rewrite (at_nth _ _ _ Hj); cbn [option_map]; let H1 := fresh in let H2 := fresh in destruct (H e (nth_error_In _ _ Hj)) as (H1 & H2); unfold st0;
  eapply writes_eq; [ex; w; [eapply writes_both; [apply (t_enum b n e H1 H2)|w]]|flat|reflexivity].
Ltac enums_ b n l H :=
  eapply writes_both; [apply (loop_nth_writes _ VStruct (fun e => t_decls b None (enum_decls e)) (st0 true) l); let j := fresh "j" in let e := fresh "e" in let Hj := fresh "Hj" in intros j e Hj; an_enum b n H Hj e|w].
Lemma t_enums v2 h n s : (forall e, In e (d_enums (s_file s)) -> efine e) ->
  writes (RUN v2 (S (S n)) "enums" (data v2 h s)) (st0 true) (t_decls v2 None (flat_map enum_decls (d_enums (s_file s)))) (st0 true).
Proof.
  intros H. rewrite run_S. rewrite decls_flat by (intros e _; apply opens_enum). unfold data. destruct v2.
  - eapply writes_eq; [ex; w; enums_ true n (d_enums (s_file s)) H|flat|reflexivity].
  - eapply writes_eq; [ex; w; enums_ false n (d_enums (s_file s)) H|flat|reflexivity].
Qed.
Lemma messages_tokens v2 ms : t_decls v2 None (messages enum_decls (struct_decls v2) ms) =
  flat_map (fun m => flat_map (fun e => t_decls v2 None (enum_decls e)) (m_enums m) ++ t_decls v2 None (structs (struct_decls v2) m)) ms.
Proof.
  unfold messages. rewrite decls_flat by (intros m _; apply opens_app; [apply opens_flat; intros e _; apply opens_enum|apply opens_structs]).
  apply flat_map_ext. intros m. rewrite decls_app by apply opens_structs. rewrite decls_flat by (intros e _; apply opens_enum). reflexivity.
Qed.
Ltac messages_ b n s HE HM :=
  eapply writes_both; [apply (loop_nth_writes _ VStruct (fun m => flat_map (fun e => t_decls b None (enum_decls e)) (m_enums m) ++ t_decls b None (structs (struct_decls b) m)) (st0 true) (d_msgs (s_file s)));
    let j := fresh "j" in let m := fresh "m" in let Hj := fresh "Hj" in intros j m Hj; rewrite (at_nth _ _ _ Hj); cbn [option_map]; let H1 := fresh in let H2 := fresh in assert (H1 := HE m (nth_error_In _ _ Hj)); assert (H2 := HM m (nth_error_In _ _ Hj)); unfold st0;
    eapply writes_eq; [ex; w; [eapply writes_both; [apply (loop_nth_writes _ VStruct (fun e => t_decls b None (enum_decls e)) (st0 true) (m_enums m)); let j' := fresh "j" in let e := fresh "e" in let Hj' := fresh "Hj" in intros j' e Hj'; an_enum b (S n) H1 Hj' e|w]; [eapply writes_both; [exact H2|w]]]|flat|reflexivity]|w].
Lemma t_messages_all v2 h n s : (forall m, In m (d_msgs (s_file s)) -> forall e, In e (m_enums m) -> efine e) ->
  (forall m, In m (d_msgs (s_file s)) -> writes (RUN v2 (S (S n)) "structs" (VMsg m)) (st0 true) (t_decls v2 None (structs (struct_decls v2) m)) (st0 true)) ->
  writes (RUN v2 (S (S (S n))) "messages" (data v2 h s)) (st0 true) (t_decls v2 None (messages enum_decls (struct_decls v2) (d_msgs (s_file s)))) (st0 true).
Proof.
  intros HE HM. rewrite run_S. rewrite messages_tokens. unfold data. destruct v2.
  - eapply writes_eq; [ex; w; messages_ true n s HE HM|flat|reflexivity].
  - eapply writes_eq; [ex; w; messages_ false n s HE HM|flat|reflexivity].
Qed.
Definition imports_tokens (l : list bytes) : list token := match l with [] => [] | i :: l => Quoted i :: flat_map (fun i => [semi; Quoted i]) l end.
Definition program_tokens (v2 d : bool) (f : filed) : list token :=
  ((if d then [semi] else []) ++ t_decl v2 (DVar (if v2 then text "ErrDecodeNil" else text "NilDecode"))) ++
  t_decls v2 None (flat_map enum_decls (d_enums f)) ++ t_decls v2 None (messages enum_decls (struct_decls v2) (d_msgs f)).
Lemma program_ok v2 f : t_decls v2 None (go_program v2 f) = program_tokens v2 true f.
Proof.
  unfold go_program, body, program_tokens. cbn [t_decls]. rewrite decls_app by (apply opens_flat; intros m _; apply opens_app; [apply opens_flat; intros e _; apply opens_enum|apply opens_structs]).
  repeat (progress (rewrite <- ?app_assoc; cbn [app])). reflexivity.
Qed.
Definition head_tokens (v2 : bool) (p : bytes) : list token := [id "package"; Id p] ++ (semi :: id "import" :: op "(" :: imports_tokens (required_imports v2) ++ [op ")"]).
Lemma file_ok v2 p f : t_file v2 p (required_imports v2) (go_program v2 f) = head_tokens v2 p ++ program_tokens v2 true f.
Proof. unfold t_file, head_tokens. rewrite program_ok. fold (imports_tokens (required_imports v2)). repeat (progress (rewrite <- ?app_assoc; cbn [app])). reflexivity. Qed.
(** a version that ends in a newline: the rest of the comment is no comment *)
Definition spilled : list token := [op ","; id "DO"; id "NOT"; id "EDIT"; op "."].
Lemma t_headers_bad v2 h n s v : s_version s = v ++ [10] -> one_lineb v = true -> one_lineb (s_path s) = true -> nameb (s_package s) = true ->
  writes (RUN v2 (S n) "headers" (data v2 h s)) start (spilled ++ [id "package"; Id (s_package s)]) (st0 true).
Proof.
  intros E V P K. rewrite run_S. unfold data. destruct s as [ve pa pk f]. cbn [s_version s_path s_package s_file] in *. subst ve.
  assert (L : Lex (mklst PComment false false) (v ++ [10]) [] (st0 false)) by (change (@nil token) with (@nil token ++ []); eapply Lex_app; [apply Lex_comment, V|lex_lit]).
  destruct v2.
  all: eapply writes_eq; [ex; w; [eapply writes_both; [apply writes_some, Lex_comment, P|]; w]|reflexivity|reflexivity].
Qed.
Section Base.
Variables (v2 h : bool) (n : nat) (s : source).
Hypothesis HE : forall e, In e (d_enums (s_file s)) -> efine e.
Hypothesis HEM : forall m, In m (d_msgs (s_file s)) -> forall e, In e (m_enums m) -> efine e.
Hypothesis HM : forall m, In m (d_msgs (s_file s)) -> writes (RUN v2 (S (S n)) "structs" (VMsg m)) (st0 true) (t_decls v2 None (structs (struct_decls v2) m)) (st0 true).
Lemma t_base_header hs : h = true -> writes (RUN v2 (S (S (S n))) "headers" (data v2 h s)) start hs (st0 true) ->
  writes (RUN v2 (S (S (S (S n)))) "base.templ" (data v2 h s)) start (hs ++ (semi :: id "import" :: op "(" :: imports_tokens (required_imports v2) ++ [op ")"]) ++ program_tokens v2 true (s_file s)) (st0 true).
Proof.
  intros -> HH. rewrite run_S. unfold program_tokens.
  assert (I := t_imports v2 true (S (S n)) s). assert (E := t_errors v2 true (S (S n)) s true). assert (EN := t_enums v2 true (S n) s HE). assert (MS := t_messages_all v2 true n s HEM HM).
  clear HM HEM HE. destruct v2.
  all: eapply writes_eq; [ex; unfold data at 1; ex; w; [eapply writes_both; [exact HH|w]; [eapply writes_both; [exact I|w]; [eapply writes_both; [exact E|w]; [eapply writes_both; [exact EN|w]; [eapply writes_both; [exact MS|w]]]]]]|flat|reflexivity].
Qed.
Lemma t_base_plain : h = false -> writes (RUN v2 (S (S (S (S n)))) "base.templ" (data v2 h s)) start (program_tokens v2 false (s_file s)) (st0 true).
Proof.
  intros ->. rewrite run_S. unfold program_tokens.
  assert (E := t_errors v2 false (S (S n)) s false). assert (EN := t_enums v2 false (S n) s HE). assert (MS := t_messages_all v2 false n s HEM HM).
  clear HM HEM HE. destruct v2.
  all: eapply writes_eq; [ex; unfold data at 1; ex; w; [eapply writes_both; [exact E|w]; [eapply writes_both; [exact EN|w]; [eapply writes_both; [exact MS|w]]]]|flat|reflexivity].
Qed.
End Base.
