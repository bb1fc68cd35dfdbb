(** Reading a Rust text piece by piece. *)
From Coq Require Import String Ascii.
From Verif Require Import Base Spec GenTables NameModel NameSpec EmitModel EmitSpec GoAst RsGenModel RsAst TplModel GoLex GoLexThms RsLex.
Local Open Scope list_scope.

Definition RLex (s : rpart) (l : bytes) (ts : list token) (s' : rpart) : Prop := rs_lex s l = (ts, s').
Lemma rs_lex_app s a b : rs_lex s (a ++ b) = let '(x, s) := rs_lex s a in let '(y, s) := rs_lex s b in (x ++ y, s).
Proof.
  revert s. induction a as [|c a IH]; intros s; [cbn [app rs_lex]; destruct (rs_lex s b); reflexivity|]. cbn [app rs_lex]. destruct (rs_step s c) as (t1 & s1). rewrite IH.
  destruct (rs_lex s1 a) as (t2 & s2). destruct (rs_lex s2 b) as (t3 & s3). rewrite app_assoc. reflexivity.
Qed.
Lemma RLex_app s a b t1 s1 t2 s2 : RLex s a t1 s1 -> RLex s1 b t2 s2 -> RLex s (a ++ b) (t1 ++ t2) s2.
Proof. unfold RLex. intros A B. rewrite rs_lex_app, A, B. reflexivity. Qed.
Lemma RLex_nil s : RLex s [] [] s. Proof. reflexivity. Qed.
Lemma RLex_eq s l t t' s1 s1' : RLex s l t s1 -> t = t' -> s1 = s1' -> RLex s l t' s1'.
Proof. intros H <- <-. exact H. Qed.

(** words *)
Definition wname (w : bytes) : bool := match w with c :: t => letterb c && forallb wordb t | [] => false end.
Lemma wname_chars w : wname w = true -> forallb wordb w = true.
Proof. unfold wname. destruct w as [|c t]; [discriminate|]. intros H. apply andb_true_iff in H. destruct H as (H1 & H2). cbn [forallb]. rewrite H2. unfold wordb. rewrite H1. reflexivity. Qed.
Lemma RLex_more w x : forallb wordb x = true -> RLex (RWord w) x [] (RWord (w ++ x)).
Proof.
  revert w. induction x as [|c x IH]; intros w H; [rewrite app_nil_r; reflexivity|]. cbn [forallb] in H. apply andb_true_iff in H. destruct H as (H1 & H2). unfold RLex. cbn [rs_lex rs_step]. rewrite H1.
  specialize (IH (w ++ [c]) H2). unfold RLex in IH. rewrite IH. cbn [app]. rewrite <- app_assoc. reflexivity.
Qed.
Lemma letter_rs_fresh c : letterb c = true -> rs_fresh c = ([], RWord [c]).
Proof.
  intros H. unfold rs_fresh. assert (E : ((c =? 10) || (c =? 32) || (c =? 9) || (c =? 13)) = false) by (unfold letterb in H; lia). rewrite E, H. reflexivity.
Qed.
Lemma RLex_name w : wname w = true -> RLex RNone w [] (RWord w).
Proof.
  intros H. unfold wname in H. destruct w as [|c x]; [discriminate H|]. apply andb_true_iff in H. destruct H as (H1 & H2).
  unfold RLex. cbn [rs_lex rs_step]. rewrite (letter_rs_fresh c H1). assert (M := RLex_more [c] x H2). unfold RLex in M. rewrite M. reflexivity.
Qed.
(** after "*", "&" and "." *)
Lemma RLex_name_op o w : o = 42 \/ o = 38 \/ o = 46 -> wname w = true -> RLex (ROp o) w [Op [o]] (RWord w).
Proof.
  intros Ho H. unfold wname in H. destruct w as [|c x]; [discriminate H|]. apply andb_true_iff in H. destruct H as (H1 & H2).
  unfold RLex. cbn [rs_lex rs_step].
  assert (E1 : (o =? 47) && (c =? 47) = false) by (apply andb_false_iff; left; lia). rewrite E1.
  assert (E2 : existsb (same [o; c]) rs_pairs = false).
  { destruct (existsb (same [o; c]) rs_pairs) eqn:E; [|reflexivity]. exfalso. apply existsb_exists in E. destruct E as (p & Hp & Hs). unfold same in Hs. destruct (list_eq_dec Z.eq_dec [o; c] p) as [<-|]; [|discriminate Hs].
    unfold letterb in H1. vm_compute in Hp. repeat (destruct Hp as [Hp|Hp]; [injection Hp as Hq Hc; subst c; try lia; vm_compute in H1; discriminate H1|]). destruct Hp. }
  rewrite E2, (letter_rs_fresh c H1). unfold before. cbn [fst snd].
  assert (M := RLex_more [c] x H2). unfold RLex in M. rewrite M. reflexivity.
Qed.
(** the end of a word or number *)
Lemma RLex_flush w l ts s' : breaks l = true -> RLex RNone l ts s' -> RLex (RWord w) l (Id w :: ts) s'.
Proof.
  destruct l as [|c l]; [discriminate|]. cbn [breaks]. intros B H. apply negb_true_iff in B. unfold RLex in *. cbn [rs_lex rs_step] in *. rewrite B. unfold before. destruct (rs_fresh c) as (t1 & s1). cbn [fst snd].
  destruct (rs_lex s1 l) as (t2 & s2). injection H as <- <-. reflexivity.
Qed.
Lemma RLex_flush_num w l ts s' : breaks l = true -> RLex RNone l ts s' -> RLex (RNum w) l (Lit w :: ts) s'.
Proof.
  destruct l as [|c l]; [discriminate|]. cbn [breaks]. intros B H. apply negb_true_iff in B. unfold RLex in *. cbn [rs_lex rs_step] in *. rewrite B. unfold before. destruct (rs_fresh c) as (t1 & s1). cbn [fst snd].
  destruct (rs_lex s1 l) as (t2 & s2). injection H as <- <-. reflexivity.
Qed.
(** a piece that may end inside a word: [w] is that word *)
Definition closable (s : rpart) (w : list token) : Prop := s = RNone /\ w = [] \/ exists v, s = RWord v /\ w = [Id v].
Lemma RLex_close s w l ts s' : closable s w -> breaks l = true -> RLex RNone l ts s' -> RLex s l (w ++ ts) s'.
Proof. intros [(-> & ->)|(v & -> & ->)] B H; [exact H|]. apply RLex_flush; assumption. Qed.

Ltac rlex_lit := match goal with |- RLex ?s ?l _ _ => let r := eval vm_compute in (rs_lex s l) in exact (eq_refl r) end.
(** one piece of text; [name] proves that a name is one *)
Ltac rlex_one name :=
  match goal with
  | H : RLex ?s ?x _ _ |- RLex ?s ?x _ _ => exact H
  | |- RLex _ [] _ _ => apply RLex_nil
  | |- RLex _ (_ ++ _) _ _ => eapply RLex_app; [rlex_one name|rlex_one name]
  | |- RLex (RWord ?w) (text ?s) _ _ =>
      let p := eval vm_compute in (let '(a, b) := span (list_ascii_of_string s) in (string_of_list_ascii a, string_of_list_ascii b)) in
      match p with
      | (EmptyString, _) => eapply RLex_flush; [reflexivity|rlex_lit]
      | (?a, EmptyString) => apply RLex_more; reflexivity
      | (?a, ?b) => change (text s) with (text a ++ text b); eapply RLex_app; [apply RLex_more; reflexivity|eapply RLex_flush; [reflexivity|rlex_lit]]
      end
  | |- RLex (RNum _) (text _) _ _ => eapply RLex_flush_num; [reflexivity|rlex_lit]
  | C : closable ?s _ |- RLex ?s (text _) _ _ => eapply (RLex_close _ _ _ _ _ C); [reflexivity|rlex_lit]
  | |- RLex _ (text _) _ _ => rlex_lit
  | |- RLex (RWord _) _ _ _ => apply RLex_more, wname_chars; name
  | |- RLex RNone _ _ _ => apply RLex_name; name
  | |- RLex (ROp _) _ _ _ => apply RLex_name_op; [auto|name]
  end.
