(** Reading a TypeScript text piece by piece. *)
From Coq Require Import String Ascii.
From Verif Require Import Base Spec GenTables NameModel NameSpec EmitModel EmitSpec GoAst TplModel GoLex GoLexThms TsLex.
Local Open Scope list_scope.

Definition JLex (s : jpart) (l : bytes) (ts : list token) (s' : jpart) : Prop := js_lex s l = (ts, s').
Lemma js_lex_app s a b : js_lex s (a ++ b) = let '(x, s) := js_lex s a in let '(y, s) := js_lex s b in (x ++ y, s).
Proof.
  revert s. induction a as [|c a IH]; intros s; [cbn [app js_lex]; destruct (js_lex s b); reflexivity|]. cbn [app js_lex]. destruct (js_step s c) as (t1 & s1). rewrite IH.
  destruct (js_lex s1 a) as (t2 & s2). destruct (js_lex s2 b) as (t3 & s3). rewrite app_assoc. reflexivity.
Qed.
Lemma JLex_app s a b t1 s1 t2 s2 : JLex s a t1 s1 -> JLex s1 b t2 s2 -> JLex s (a ++ b) (t1 ++ t2) s2.
Proof. unfold JLex. intros A B. rewrite js_lex_app, A, B. reflexivity. Qed.
Lemma JLex_nil s : JLex s [] [] s. Proof. reflexivity. Qed.
Lemma JLex_eq s l t t' s1 s1' : JLex s l t s1 -> t = t' -> s1 = s1' -> JLex s l t' s1'.
Proof. intros H <- <-. exact H. Qed.

(** words *)
Definition wname (w : bytes) : bool := match w with c :: t => letterb c && forallb wordb t | [] => false end.
Lemma wname_chars w : wname w = true -> forallb wordb w = true.
Proof. unfold wname. destruct w as [|c t]; [discriminate|]. intros H. apply andb_true_iff in H. destruct H as (H1 & H2). cbn [forallb]. rewrite H2. unfold wordb. rewrite H1. reflexivity. Qed.
Lemma JLex_more w x : forallb wordb x = true -> JLex (JWord w) x [] (JWord (w ++ x)).
Proof.
  revert w. induction x as [|c x IH]; intros w H; [rewrite app_nil_r; reflexivity|]. cbn [forallb] in H. apply andb_true_iff in H. destruct H as (H1 & H2). unfold JLex. cbn [js_lex js_step]. rewrite H1.
  specialize (IH (w ++ [c]) H2). unfold JLex in IH. rewrite IH. cbn [app]. rewrite <- app_assoc. reflexivity.
Qed.
Lemma letter_js_fresh b c : letterb c = true -> js_fresh b c = (broken b, JWord [c]).
Proof.
  intros H. unfold js_fresh. assert (E : ((c =? 10) || (c =? 13)) = false /\ ((c =? 32) || (c =? 9)) = false) by (unfold letterb in H; split; lia). destruct E as (-> & ->). rewrite H. reflexivity.
Qed.
Lemma JLex_name b w : wname w = true -> JLex (JNone b) w (broken b) (JWord w).
Proof.
  intros H. unfold wname in H. destruct w as [|c x]; [discriminate H|]. apply andb_true_iff in H. destruct H as (H1 & H2).
  unfold JLex. cbn [js_lex js_step]. rewrite (letter_js_fresh b c H1). assert (M := JLex_more [c] x H2). unfold JLex in M. rewrite M, app_nil_r. reflexivity.
Qed.
(** the end of a word or number *)
Lemma JLex_flush w l ts s' : breaks l = true -> JLex (JNone false) l ts s' -> JLex (JWord w) l (Id w :: ts) s'.
Proof.
  destruct l as [|c l]; [discriminate|]. cbn [breaks]. intros B H. apply negb_true_iff in B. unfold JLex in *. cbn [js_lex js_step] in *. rewrite B. unfold after. destruct (js_fresh false c) as (t1 & s1). cbn [fst snd].
  destruct (js_lex s1 l) as (t2 & s2). injection H as <- <-. reflexivity.
Qed.
Lemma JLex_flush_num w l ts s' : breaks l = true -> JLex (JNone false) l ts s' -> JLex (JNum w) l (Lit w :: ts) s'.
Proof.
  destruct l as [|c l]; [discriminate|]. cbn [breaks]. intros B H. apply negb_true_iff in B. unfold JLex in *. cbn [js_lex js_step] in *. rewrite B. unfold after. destruct (js_fresh false c) as (t1 & s1). cbn [fst snd].
  destruct (js_lex s1 l) as (t2 & s2). injection H as <- <-. reflexivity.
Qed.
(** a piece that may end inside a word: [w] is that word *)
Definition closable (s : jpart) (w : list token) : Prop := s = JNone false /\ w = [] \/ exists v, s = JWord v /\ w = [Id v].
Lemma JLex_close s w l ts s' : closable s w -> breaks l = true -> JLex (JNone false) l ts s' -> JLex s l (w ++ ts) s'.
Proof. intros [(-> & ->)|(v & -> & ->)] B H; [exact H|]. apply JLex_flush; assumption. Qed.

Ltac jlex_lit := match goal with |- JLex ?s ?l _ _ => let r := eval vm_compute in (js_lex s l) in exact (eq_refl r) end.
(** one piece of text; [name] proves that a name is one *)
Ltac jlex_one name :=
  match goal with
  | H : JLex ?s ?x _ _ |- JLex ?s ?x _ _ => exact H
  | |- JLex _ [] _ _ => apply JLex_nil
  | |- JLex _ (_ ++ _) _ _ => eapply JLex_app; [jlex_one name|jlex_one name]
  | |- JLex (JWord ?w) (text ?s) _ _ =>
      let p := eval vm_compute in (let '(a, b) := span (list_ascii_of_string s) in (string_of_list_ascii a, string_of_list_ascii b)) in
      match p with
      | (EmptyString, _) => eapply JLex_flush; [reflexivity|jlex_lit]
      | (?a, EmptyString) => apply JLex_more; reflexivity
      | (?a, ?b) => change (text s) with (text a ++ text b); eapply JLex_app; [apply JLex_more; reflexivity|eapply JLex_flush; [reflexivity|jlex_lit]]
      end
  | |- JLex (JNum _) (text _) _ _ => eapply JLex_flush_num; [reflexivity|jlex_lit]
  | C : closable ?s _ |- JLex ?s (text _) _ _ => eapply (JLex_close _ _ _ _ _ C); [reflexivity|jlex_lit]
  | |- JLex _ (text _) _ _ => jlex_lit
  | |- JLex (JWord _) _ _ _ => apply JLex_more, wname_chars; name
  | |- JLex (JNone _) _ _ _ => apply JLex_name; name
  end.
