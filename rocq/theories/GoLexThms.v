(** Reading a text piece by piece. *)
From Coq Require Import String Ascii.
From Verif Require Import Base Spec GenTables NameModel NameSpec EmitModel EmitSpec EmitThms2 GoAst GoEmit TplModel TplGo GoLex.
Local Open Scope list_scope.

Definition Lex (s : lst) (l : bytes) (ts : list token) (s' : lst) : Prop := lex s l = (ts, s').
Lemma lex_app s a b : lex s (a ++ b) = next (lex s a) (fun s => lex s b).
Proof.
  revert s. induction a as [|c a IH]; intros s; [unfold next; cbn [app lex]; destruct (lex s b); reflexivity|]. cbn [app lex]. unfold next at 1 2 3. destruct (step s c) as (t1 & s1). rewrite IH. unfold next.
  destruct (lex s1 a) as (t2 & s2). destruct (lex s2 b) as (t3 & s3). rewrite app_assoc. reflexivity.
Qed.
Lemma Lex_app s a b t1 s1 t2 s2 : Lex s a t1 s1 -> Lex s1 b t2 s2 -> Lex s (a ++ b) (t1 ++ t2) s2.
Proof. unfold Lex. intros A B. rewrite lex_app, A. unfold next. rewrite B. reflexivity. Qed.
Lemma Lex_nil s : Lex s [] [] s. Proof. reflexivity. Qed.
Lemma Lex_eq s l t t' s1 s1' : Lex s l t s1 -> t = t' -> s1 = s1' -> Lex s l t' s1'.
Proof. intros H <- <-. exact H. Qed.
Lemma Lex_all s l t s' : Lex s (l ++ []) t s' -> Lex s l t s'. Proof. rewrite app_nil_r. auto. Qed.

(** names *)
Definition nameb (w : bytes) : bool := match w with c :: t => letterb c && forallb wordb t | [] => false end && negb (keyword w).
Lemma name_ends w : nameb w = true -> ends_line (Id w) = true.
Proof. unfold nameb. intros H. apply andb_true_iff in H. destruct H as (_ & H). cbn [ends_line]. rewrite H. reflexivity. Qed.
Lemma Lex_more w t d x : forallb wordb x = true -> Lex (mklst (PWord w) t d) x [] (mklst (PWord (w ++ x)) t d).
Proof.
  revert w. induction x as [|c x IH]; intros w H; [rewrite app_nil_r; reflexivity|]. cbn [forallb] in H. apply andb_true_iff in H. destruct H as (H1 & H2). unfold Lex. cbn [lex]. unfold step. cbn [l_part l_semi l_due]. rewrite H1.
  unfold next. specialize (IH (w ++ [c]) H2). unfold Lex in IH. rewrite IH. cbn [app]. rewrite <- app_assoc. reflexivity.
Qed.
Lemma name_chars w : nameb w = true -> forallb wordb w = true.
Proof. unfold nameb. destruct w as [|c t]; [discriminate|]. intros H. apply andb_true_iff in H. destruct H as (H & _). apply andb_true_iff in H. destruct H as (H1 & H2). cbn [forallb]. rewrite H2. unfold wordb. rewrite H1. reflexivity. Qed.
Lemma letter_fresh c s : letterb c = true -> fresh s c = ([], mklst (PWord [c]) (l_semi s) (l_due s)).
Proof.
  intros H. unfold fresh. assert (E : (c =? 10) = false /\ ((c =? 32) || (c =? 9) || (c =? 13)) = false) by (unfold letterb in H; split; lia). destruct E as (-> & ->). rewrite H. reflexivity.
Qed.
Lemma Lex_name t d w : nameb w = true -> Lex (mklst PNone t d) w [] (mklst (PWord w) t d).
Proof.
  intros H. pose proof (name_chars w H) as C. unfold nameb in H. destruct w as [|c x]; [discriminate H|]. apply andb_true_iff in H. destruct H as (H & _). apply andb_true_iff in H. destruct H as (H1 & H2).
  unfold Lex. cbn [lex]. unfold step. cbn [l_part]. rewrite (letter_fresh c _ H1). unfold next. cbn [l_semi l_due]. assert (M := Lex_more [c] t d x H2). unfold Lex in M. rewrite M. reflexivity.
Qed.
(** after * and & *)
Lemma Lex_name_op o t d w : o = 42 \/ o = 38 -> nameb w = true -> Lex (mklst (POp o) t d) w (if d then [semi; Op [o]] else [Op [o]]) (mklst (PWord w) false false).
Proof.
  intros Ho H. pose proof (name_chars w H) as C. unfold nameb in H. destruct w as [|c x]; [discriminate H|]. apply andb_true_iff in H. destruct H as (H & _). apply andb_true_iff in H. destruct H as (H1 & H2).
  unfold Lex. cbn [lex]. unfold step. cbn [l_part].
  assert (E1 : (o =? 47) && (c =? 47) = false) by (apply andb_false_iff; left; lia). rewrite E1.
  assert (E2 : existsb (same [o; c]) pairs = false).
  { destruct (existsb (same [o; c]) pairs) eqn:E; [|reflexivity]. exfalso. apply existsb_exists in E. destruct E as (p & Hp & Hs). unfold same in Hs. destruct (list_eq_dec Z.eq_dec [o; c] p) as [<-|]; [|discriminate Hs].
    unfold letterb in H1. vm_compute in Hp. repeat (destruct Hp as [Hp|Hp]; [injection Hp as Hq Hc; subst c; try lia; vm_compute in H1; discriminate H1|]). destruct Hp. }
  rewrite E2. unfold put. cbn [l_due closes]. assert (E3 : existsb (same [o]) (map text [")"; "}"]%string) = false) by (destruct Ho as [-> | ->]; reflexivity). rewrite E3.
  assert (E4 : ends_line (Op [o]) = false) by (destruct Ho as [-> | ->]; reflexivity). rewrite E4. cbn [negb andb]. rewrite andb_true_r. unfold next at 2. rewrite (letter_fresh c _ H1). cbn [l_semi l_due]. unfold next.
  assert (M := Lex_more [c] false false x H2). unfold Lex in M. rewrite M. destruct d; reflexivity.
Qed.
(** the end of a word *)
Definition breaks (l : bytes) : bool := match l with c :: _ => negb (wordb c) | [] => false end.
Lemma Lex_flush w t d l ts s' : breaks l = true -> nameb w = true -> Lex (mklst PNone true false) l ts s' -> Lex (mklst (PWord w) t d) l ((if d then [semi; Id w] else [Id w]) ++ ts) s'.
Proof.
  destruct l as [|c l]; [discriminate|]. cbn [breaks]. intros B N H. apply negb_true_iff in B. unfold Lex in *. cbn [lex] in *. unfold step in *. cbn [l_part] in *. rewrite B. unfold put. cbn [l_due closes negb]. rewrite andb_true_r, (name_ends w N).
  unfold next in *. destruct (fresh (mklst PNone true false) c) as (t1 & s1). destruct (lex s1 l) as (t2 & s2). injection H as <- <-. destruct d; rewrite ?app_assoc; reflexivity.
Qed.
(** the part of a literal that belongs to the word before it *)
Fixpoint span (l : list ascii) : list ascii * list ascii :=
  match l with [] => ([], []) | c :: l' => if wordb (Z.of_N (N_of_ascii c)) then let '(a, b) := span l' in (c :: a, b) else ([], l) end.

(** states *)
Definition st0 (d : bool) : lst := mklst PNone false d.

Ltac lex_lit := match goal with |- Lex ?s ?l _ _ => let r := eval vm_compute in (lex s l) in exact (eq_refl r) end.
(** one piece; [name] proves that a name is one *)
Ltac lex_piece name :=
  match goal with
  | |- Lex _ [] _ _ => apply Lex_nil
  | |- Lex _ ((_ ++ _) ++ _) _ _ => rewrite <- app_assoc
  | |- Lex _ ([] ++ _) _ _ => change (@nil Z ++ ?x) with x
  | |- Lex (mklst (PWord ?w) _ _) (text ?s ++ _) _ _ =>
      let p := eval vm_compute in (let '(a, b) := span (list_ascii_of_string s) in (string_of_list_ascii a, string_of_list_ascii b)) in
      match p with
      | (EmptyString, _) => eapply Lex_flush; [reflexivity|name|]
      | (?a, EmptyString) => eapply Lex_app; [apply Lex_more; reflexivity|]
      | (?a, ?b) => change (text s) with (text a ++ text b); rewrite <- app_assoc; eapply Lex_app; [apply Lex_more; reflexivity|]
      end
  | |- Lex _ (text _ ++ _) _ _ => eapply Lex_app; [lex_lit|]
  | |- Lex (mklst (PWord _) _ _) (_ ++ _) _ _ => eapply Lex_app; [apply Lex_more, name_chars; name|]
  | |- Lex (mklst PNone _ _) (_ ++ _) _ _ => eapply Lex_app; [apply Lex_name; name|]
  | |- Lex (mklst (POp _) _ _) (_ ++ _) _ _ => eapply Lex_app; [apply Lex_name_op; [auto|name]|]
  end.
Ltac tokens_eq := cbn [app]; rewrite <- ?app_assoc; cbn [app]; reflexivity.
