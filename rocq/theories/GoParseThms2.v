(** GoParse reads what GoLex prints: statements. *)
From Coq Require Import String Ascii.
From Verif Require Import Base Spec GenTables NameModel NameSpec EmitModel EmitSpec GoAst GoEmit TplModel GoLex GoLexThms TplThms TplThms7 GoParse GoParseThms.
Local Open Scope list_scope.

Fixpoint oks (c : stmt) : Prop :=
  match c with
  | Do e | Defer e => ok 2 e
  | Let n t => nameb n = true /\ is_type t
  | Define ns e => ns <> [] /\ all variable ns /\ ok 2 e
  | Assign ls e => ls <> [] /\ all (ok 2) ls /\ ok 2 e
  | If c a b => ok 2 c /\ all oks a /\ all oks b
  | Count i n body => nameb i = true /\ ok 2 n /\ all oks body
  | Range k v e body => nameb k = true /\ nameb v = true /\ ok 2 e /\ all oks body
  | Return es => es <> [] /\ all (ok 2) es
  end.
Section Ind.
Variable P : stmt -> Prop.
Hypothesis (HDo : forall e, P (Do e)) (HLet : forall n t, P (Let n t)) (HDef : forall ns e, P (Define ns e)) (HAsg : forall ls e, P (Assign ls e))
  (HIf : forall c a b, all P a -> all P b -> P (If c a b)) (HCount : forall i n b, all P b -> P (Count i n b)) (HRange : forall k v e b, all P b -> P (Range k v e b))
  (HRet : forall es, P (Return es)) (HDefer : forall e, P (Defer e)).
Fixpoint stmt_all (c : stmt) : P c :=
  let go := fix go l : all P l := match l with [] => I | c :: l => conj (stmt_all c) (go l) end in
  match c with
  | Do e => HDo e | Let n t => HLet n t | Define ns e => HDef ns e | Assign ls e => HAsg ls e
  | If c a b => HIf c a b (go a) (go b) | Count i n b => HCount i n b (go b) | Range k v e b => HRange k v e b (go b)
  | Return es => HRet es | Defer e => HDefer e
  end.
End Ind.

(** a statement ends before ; or } *)
Definition after_statement (l : list token) : Prop := exists r, l = op ";" :: r \/ l = op "}" :: r.
Ltac ended H := destruct H as (? & [-> | ->]).

Lemma expressions_read es : es <> [] -> all (ok 2) es -> forall l, stops l -> nexts "," l = false -> ev (fun n => expressions n (commas (map t_expr es) ++ l)) (es, l).
Proof.
  induction es as [|e es IH]; [congruence|]. intros _ (O & A) l S C. apply ev_S. cbn [expressions]. destruct es as [|e' es].
  - cbn [map commas]. eapply ev_bind2; [apply expr_read; assumption|]. cbv beta. rewrite C. apply ev_ret.
  - cbn [map commas]. rewrite <- app_assoc. cbn [app]. eapply ev_bind2; [apply expr_read; [exact O|stop]|]. cbv beta. tst. eapply ev_bind2; [apply IH; [discriminate|assumption..]|]. cbv beta. apply ev_ret.
Qed.
Lemma simple_head es l : es <> [] -> all (ok 2) es -> exists t r, commas (map t_expr es) ++ l = t :: r /\ first_token 2 t.
Proof.
  destruct es as [|e [|e' es]]; [congruence|..]; intros _ (O & A); destruct (head_of e _ O) as (t & r & E & F); cbn [map commas]; rewrite E; cbn [app]; eauto.
Qed.
Lemma simple_case n t r : first_token 2 t -> statement (S n) (t :: r) = simple n (t :: r).
Proof. intros F. cbn [statement]. destruct t; try reflexivity. cbn [first_token] in F. rewrite F. reflexivity. Qed.
Lemma ev_simple es l (r : stmt * list token) : es <> [] -> all (ok 2) es -> ev (fun n => simple n (commas (map t_expr es) ++ l)) r -> ev (fun n => statement n (commas (map t_expr es) ++ l)) r.
Proof.
  intros N A H. destruct (simple_head es l N A) as (t & y & E & F). rewrite E in *. apply ev_S. destruct H as (n0 & H). exists n0. intros n L. rewrite simple_case by exact F. apply H, L.
Qed.
Lemma names_vars ns : names_of (map Var ns) = Some ns.
Proof. induction ns as [|n ns IH]; [reflexivity|]. cbn [map names_of]. rewrite IH. reflexivity. Qed.

Definition reads_stmt (c : stmt) : Prop := forall l, after_statement l -> ev (fun n => statement n (t_stmt c ++ l)) (c, l).
Lemma stmt_head c : oks c -> exists t r, t_stmt c = t :: r /\ nexts "}" [t] = false.
Proof.
  assert (X : forall es y, es <> [] -> all (ok 2) es -> exists t r, commas (map t_expr es) ++ y = t :: r /\ nexts "}" [t] = false).
  { intros es y N A. destruct (simple_head es y N A) as (t & r & E & F). exists t, r. split; [exact E|]. destruct t; try reflexivity. destruct F as (_ & [->| ->]); reflexivity. }
  destruct c as [e|n t|ns e|ls e|c a b|i n b|k v e b|es|e]; cbn [oks]; intros O; try (eexists; eexists; split; reflexivity).
  - destruct (X [e] [] ltac:(discriminate) (conj O I)) as (t & r & E & F). rewrite app_nil_r in E. eauto.
  - destruct O as (N & A & _). cbn [t_stmt]. replace (map (fun n => [Id n]) ns) with (map t_expr (map Var ns)) by (rewrite map_map; reflexivity). apply X; [destruct ns; [congruence|discriminate]|].
    clear N X. induction ns as [|n ns IH]; [exact I|]. destruct A as (A & B). split; [exact A|apply IH, B].
  - cbn [t_stmt]. apply X; apply O.
  - cbn [t_stmt]. destruct b; [|destruct a as [|[] []]; eexists; eexists; split; reflexivity]. destruct a as [|[] []]; eexists; eexists; split; reflexivity.
Qed.
Lemma block_due l : t_block t_stmt true l = match l with [] => [] | _ => semi :: t_block t_stmt false l end.
Proof. destruct l; reflexivity. Qed.
Lemma block_read body : all reads_stmt body -> all oks body -> forall l, ev (fun n => block n (t_block t_stmt false body ++ op "}" :: l)) (body, l).
Proof.
  induction body as [|c body IH]; intros R O l; [apply ev_S; cbn [block t_block app]; tst; apply ev_ret|]. destruct R as (R & R'). destruct O as (O & O'). apply ev_S. cbn [block t_block].
  rewrite <- app_assoc. cbn [app]. destruct (stmt_head c O) as (t & r & E & F).
  assert (X : forall y, nexts "}" (t_stmt c ++ y) = false) by (intros y; rewrite E; exact F). rewrite <- ?app_assoc, X. rewrite block_due. destruct body as [|c' body].
  - cbn [app]. eapply ev_bind2; [apply R; exists l; right; reflexivity|]. cbv beta. red_eat. apply ev_ret.
  - eapply ev_bind2; [apply R; eexists; left; reflexivity|]. cbv beta. cbn [app]. unfold semi. tst. eapply ev_bind2; [apply IH; assumption|]. cbv beta. apply ev_ret.
Qed.
Lemma braces_app body l : braces t_stmt body ++ l = op "{" :: t_block t_stmt false body ++ op "}" :: l.
Proof. unfold braces. cbn [app]. rewrite <- app_assoc. reflexivity. Qed.
Lemma this_ok w l : nameb w = true -> this_name w (Id w :: l) = Some l.
Proof. intros N. unfold this_name. rewrite name_ok by exact N. rewrite same_refl. reflexivity. Qed.
Lemma return_case es y : all (ok 2) es -> es <> [] -> nexts ";" (commas (map t_expr es) ++ y) || nexts "}" (commas (map t_expr es) ++ y) = false.
Proof. intros A N. destruct (simple_head es y N A) as (t & r & E & F). rewrite E. destruct t; try reflexivity. destruct F as (_ & [->| ->]); reflexivity. Qed.

(** how [If] is printed *)
Lemma if_shape c a b : (t_stmt (If c a b) = id "if" :: t_expr c ++ braces t_stmt a ++ id "else" :: braces t_stmt b) \/ (b = [] /\ t_stmt (If c a b) = id "if" :: t_expr c ++ braces t_stmt a).
Proof.
  destruct b as [|x b]; [|left; destruct a as [|[] []]; reflexivity]. destruct a as [|[e| | | | | | | |] [|y a]]; try (right; split; reflexivity). left. cbn [t_stmt t_block braces app]. unfold braces. cbn [t_block app t_stmt]. rewrite app_nil_r, <- app_assoc. reflexivity.
Qed.
Lemma stmt_read c : oks c -> reads_stmt c.
Proof.
  induction c as [e|n t|ns e|ls e|c a b IHa IHb|i n b IHb|k v e b IHb|es|e] using stmt_all; cbn [oks]; intros O l L.
  - change (t_stmt (Do e)) with (commas (map t_expr [e])). apply ev_simple; [discriminate|split; [exact O|exact I]|]. unfold simple. ended L; (eapply ev_bind2; [apply expressions_read; [discriminate|split; [exact O|exact I]|stop|reflexivity]|]; cbv beta; tst; apply ev_ret).
  - destruct O as (N & T). apply ev_S. cbn [t_stmt app statement id]. tst. rewrite name_ok by exact N. rewrite type_read by exact T. apply ev_ret.
  - destruct O as (N & A & O). cbn [t_stmt]. replace (map (fun n => [Id n]) ns) with (map t_expr (map Var ns)) by (rewrite map_map; reflexivity).
    assert (N' : map Var ns <> []) by (destruct ns; [congruence|discriminate]). assert (A' : all (ok 2) (map Var ns)) by (clear N N'; induction ns as [|n ns IH]; [exact I|]; destruct A as (A & B); split; [exact A|apply IH, B]).
    rewrite <- app_assoc. cbn [app]. apply ev_simple; [assumption..|]. unfold simple. eapply ev_bind2; [apply expressions_read; [assumption..|stop|reflexivity]|]. cbv beta. tst. rewrite names_vars.
    ended L; (eapply ev_bind2; [apply expr_read; [exact O|stop]|]; cbv beta; apply ev_ret).
  - destruct O as (N & A & O). cbn [t_stmt]. rewrite <- app_assoc. cbn [app]. apply ev_simple; [assumption..|]. unfold simple. eapply ev_bind2; [apply expressions_read; [assumption..|stop|reflexivity]|]. cbv beta. tst.
    ended L; (eapply ev_bind2; [apply expr_read; [exact O|stop]|]; cbv beta; apply ev_ret).
  - destruct O as (O & Oa & Ob).
    assert (Ra : all reads_stmt a) by (assert (C := all_both _ _ _ IHa Oa); revert C; apply all_impl; intros x (H1 & H2); auto).
    assert (Rb : all reads_stmt b) by (assert (C := all_both _ _ _ IHb Ob); revert C; apply all_impl; intros x (H1 & H2); auto).
    destruct (if_shape c a b) as [E|(Eb & E)]; rewrite E; apply ev_S; cbn [app statement id]; tst; rewrite <- !app_assoc.
    + eapply ev_bind2; [apply expr_read; [exact O|rewrite braces_app; stop]|]. cbv beta. rewrite braces_app. red_eat. eapply ev_bind2; [apply block_read; assumption|]. cbv beta. unfold id. tst. rewrite braces_app. red_eat.
      eapply ev_bind2; [apply block_read; assumption|]. cbv beta. apply ev_ret.
    + subst b. eapply ev_bind2; [apply expr_read; [exact O|rewrite braces_app; stop]|]. cbv beta. rewrite braces_app. red_eat. eapply ev_bind2; [apply block_read; assumption|]. cbv beta. ended L; (tst; apply ev_ret).
  - destruct O as (N & O & Ob). assert (Rb : all reads_stmt b) by (assert (C := all_both _ _ _ IHb Ob); revert C; apply all_impl; intros x (H1 & H2); auto).
    apply ev_S. cbn [t_stmt app statement id]. tst. rewrite name_ok by exact N. repeat (cbn [app]; rewrite <- ?app_assoc). unfold id, semi. red_eat. change (same (show_int 0) (text "0")) with true. cbn iota. red_eat. rewrite this_ok by exact N. red_eat.
    eapply ev_bind2; [apply expr_read; [exact O|stop]|]. cbv beta. red_eat. rewrite this_ok by exact N. red_eat. rewrite braces_app. red_eat. eapply ev_bind2; [apply block_read; assumption|]. cbv beta. apply ev_ret.
  - destruct O as (K & V & O & Ob). assert (Rb : all reads_stmt b) by (assert (C := all_both _ _ _ IHb Ob); revert C; apply all_impl; intros x (H1 & H2); auto).
    apply ev_S. cbn [t_stmt app statement id]. tst. rewrite name_ok by exact K. repeat (cbn [app]; rewrite <- ?app_assoc). unfold id. tst. rewrite name_ok by exact V. red_eat.
    eapply ev_bind2; [apply expr_read; [exact O|rewrite braces_app; stop]|]. cbv beta. rewrite braces_app. red_eat. eapply ev_bind2; [apply block_read; assumption|]. cbv beta. apply ev_ret.
  - destruct O as (N & A). apply ev_S. cbn [t_stmt app statement id]. tst. rewrite return_case by assumption. ended L; (eapply ev_bind2; [apply expressions_read; [assumption..|stop|reflexivity]|]; cbv beta; apply ev_ret).
  - apply ev_S. cbn [t_stmt app statement id]. tst. ended L; (eapply ev_bind2; [apply expr_read; [exact O|stop]|]; cbv beta; apply ev_ret).
Qed.
Lemma body_read body l : all oks body -> ev (fun n => block n (t_block t_stmt false body ++ op "}" :: l)) (body, l).
Proof. intros O. apply block_read; [|exact O]. revert O. apply all_impl. exact stmt_read. Qed.
