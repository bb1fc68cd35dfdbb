(** base.templ, headers.templ, imports.templ, enums.templ, messages.templ: the whole file. *)
From Coq Require Import String Ascii.
From Verif Require Import Base Spec GenTables NameModel NameSpec EmitModel EmitSpec EmitThms TplSpec GoAst GoEmit RsGenModel RsAst RsEmit RsTplText TplModel TplGo TplExec GoLex GoLexThms RsLex RsLexThms RsTpl RsTplThms RsTplThms2 RsTplThms3 RsTplThms4 RsTplThms5.
From Verif Require TplThms TplThms2 TplThms7 TplThms8 TplThms9.
Import TplThms (some, truth_list, truth_b, truth_nil, sameb, equal_text, equal_kind, equal_card, both_assoc).
Import TplThms9 (one_lineb).
Local Open Scope list_scope.

Lemma RLex_comment l : one_lineb l = true -> RLex RComment l [] RComment.
Proof.
  induction l as [|c l IH]; intros H; [reflexivity|]. cbn [one_lineb forallb] in H. apply andb_true_iff in H. destruct H as (H1 & H2). apply negb_true_iff in H1. specialize (IH H2). unfold RLex in *. cbn [rs_lex rs_step]. rewrite H1, IH. reflexivity.
Qed.
Local Opaque rs_call_of truth equal loop show_int.
Lemma t_headers p n s : one_lineb (rs_version s) = true -> one_lineb (rs_path s) = true -> writes (RUN p (S n) "headers" (rs_data true s)) RNone [] RNone.
Proof.
  intros V P. rewrite run_S. unfold rs_data. eapply writes_eq; [ex; w; [eapply writes_both; [apply writes_some, RLex_comment, V|]; w; eapply writes_both; [apply writes_some, RLex_comment, P|]; w]|reflexivity|reflexivity].
Qed.
(** a version that ends in a newline: the rest of the comment is no comment *)
Definition rs_spill : list token := [op ","; id "DO"; id "NOT"; id "EDIT"; op "."].
Lemma t_headers_bad p n s v : rs_version s = v ++ [10] -> one_lineb v = true -> one_lineb (rs_path s) = true -> writes (RUN p (S n) "headers" (rs_data true s)) RNone rs_spill RNone.
Proof.
  intros E V P. rewrite run_S. unfold rs_data. rewrite E.
  assert (L : RLex RComment (v ++ [10]) [] RNone) by (change (@nil token) with (@nil token ++ []); eapply RLex_app; [apply RLex_comment, V|reflexivity]).
  eapply writes_eq; [ex; w; eapply writes_both; [apply writes_some, RLex_comment, P|]; w|reflexivity|reflexivity].
Qed.
Lemma t_imports p h n s : writes (RUN p (S n) "imports" (rs_data h s)) RNone (flat_map r_decl (rs_imports (rs_deps s))) RNone.
Proof.
  rewrite run_S. unfold rs_data, rs_imports. destruct (rs_deps s) as [en ma]. cbn [Enums Maps].
  destruct en, ma; (eapply writes_eq; [ex; w|reflexivity|reflexivity]).
Qed.
Definition enums_tokens (l : list enumd) : list token := flat_map (fun e => flat_map r_decl (rs_enum_decl e)) l.
Lemma t_enums p h n s : (forall e, In e (d_enums (rs_source_file s)) -> rs_efine e) ->
  writes (RUN p (S (S n)) "enums" (rs_data h s)) RNone (enums_tokens (d_enums (rs_source_file s))) RNone.
Proof.
  intros H. rewrite run_S. unfold rs_data. eapply writes_eq; [ex; w; mid; [|w]|cbn [app]; rewrite app_nil_r; reflexivity|reflexivity].
  apply (loop_nth_writes _ VStruct (fun e => flat_map r_decl (rs_enum_decl e))). intros j e Hj. rewrite (at_nth _ _ _ Hj). cbn [option_map]. assert (T := t_enum p n e (H e (nth_error_In _ _ Hj))).
  eapply writes_eq; [ex; w; mid; [exact T|w]|norm; rewrite ?app_nil_r; reflexivity|reflexivity].
Qed.
Lemma messages_tokens p ms : flat_map r_decl (messages rs_enum_decl (rs_structs_decl p) ms) =
  flat_map (fun m => enums_tokens (m_enums m) ++ flat_map r_decl (structs (rs_structs_decl p) m)) ms.
Proof.
  unfold messages. rewrite flat_map_flat. apply flat_map_ext. intros m. rewrite flat_map_app, flat_map_flat. reflexivity.
Qed.
Lemma t_messages p h n s : (forall m, In m (d_msgs (rs_source_file s)) -> forall e, In e (m_enums m) -> rs_efine e) ->
  (forall m, In m (d_msgs (rs_source_file s)) -> writes (RUN p (S (S n)) "structs" (VMsg m)) RNone (flat_map r_decl (structs (rs_structs_decl p) m)) RNone) ->
  writes (RUN p (S (S (S n))) "messages" (rs_data h s)) RNone (flat_map r_decl ([DTrait false; DTrait true] ++ messages rs_enum_decl (rs_structs_decl p) (d_msgs (rs_source_file s)))) RNone.
Proof.
  intros HE HM. rewrite run_S, flat_map_app, messages_tokens. unfold rs_data. eapply writes_eq; [ex; w; mid; [|w]| |].
  - apply (loop_nth_writes _ VStruct (fun m => enums_tokens (m_enums m) ++ flat_map r_decl (structs (rs_structs_decl p) m))). intros j m Hj. rewrite (at_nth _ _ _ Hj). cbn [option_map]. assert (H1 := HE m (nth_error_In _ _ Hj)). assert (H2 := HM m (nth_error_In _ _ Hj)).
    eapply writes_eq; [ex; w; mid; [|w; mid; [exact H2|w]]| |].
    + apply (loop_nth_writes _ VStruct (fun e => flat_map r_decl (rs_enum_decl e))). intros j' e Hj'. rewrite (at_nth _ _ _ Hj'). cbn [option_map]. assert (T := t_enum p (S n) e (H1 e (nth_error_In _ _ Hj'))).
      eapply writes_eq; [ex; w; mid; [exact T|w]|norm; rewrite ?app_nil_r; reflexivity|reflexivity].
    + unfold enums_tokens. norm. rewrite ?app_nil_r. reflexivity.
    + reflexivity.
  - rewrite app_nil_r. norm. reflexivity.
  - reflexivity.
Qed.
Lemma program_ok p d f : r_file (rs_program p d f) = flat_map r_decl (rs_imports d) ++ enums_tokens (d_enums f) ++ flat_map r_decl ([DTrait false; DTrait true] ++ messages rs_enum_decl (rs_structs_decl p) (d_msgs f)).
Proof. unfold r_file, rs_program. rewrite flat_map_app, flat_map_app, flat_map_flat. reflexivity. Qed.
Section Base.
Variables (p : bytes) (n : nat) (s : rsource).
Hypothesis HE : forall e, In e (d_enums (rs_source_file s)) -> rs_efine e.
Hypothesis HEM : forall m, In m (d_msgs (rs_source_file s)) -> forall e, In e (m_enums m) -> rs_efine e.
Hypothesis HM : forall m, In m (d_msgs (rs_source_file s)) -> writes (RUN p (S (S n)) "structs" (VMsg m)) RNone (flat_map r_decl (structs (rs_structs_decl p) m)) RNone.
Lemma t_base hs : writes (RUN p (S (S (S n))) "headers" (rs_data true s)) RNone hs RNone ->
  writes (RUN p (S (S (S (S n)))) "base.templ" (rs_data true s)) RNone (hs ++ r_file (rs_program p (rs_deps s) (rs_source_file s))) RNone.
Proof using HE HEM HM.
  intros HH. rewrite run_S, program_ok.
  assert (I := t_imports p true (S (S n)) s). assert (EN := t_enums p true (S n) s HE). assert (MS := t_messages p true n s HEM HM). clear HM HEM HE.
  eapply writes_eq; [cbn; mid; [exact HH|w; mid; [exact I|w; mid; [exact EN|w; mid; [exact MS|w]]]]|norm; rewrite ?app_nil_r; reflexivity|reflexivity].
Qed.
End Base.
