(** GoParse reads what GoLex prints: types and expressions. *)
From Coq Require Import String Ascii.
From Verif Require Import Base Spec GenTables NameModel NameSpec EmitModel EmitSpec GoAst GoEmit TplModel GoLex GoLexThms TplThms TplThms7 GoParse.
Local Open Scope list_scope.

(** ---- with enough depth ---- *)
Definition ev {A} (f : nat -> option A) (r : A) : Prop := exists n0, forall n, (n0 <= n)%nat -> f n = Some r.
Lemma ev_S {A} (f : nat -> option A) r : ev (fun n => f (S n)) r -> ev f r.
Proof. intros (n0 & H). exists (S n0). intros [|n] L; [lia|]. apply H. lia. Qed.
Lemma ev_ret {A} (r : A) : ev (fun _ => Some r) r.
Proof. exists O. reflexivity. Qed.
Lemma ev_bind {A B} (f : nat -> option A) (g : nat -> A -> option B) a r : ev f a -> ev (fun n => g n a) r -> ev (fun n => match f n with Some x => g n x | None => None end) r.
Proof. intros (n1 & H1) (n2 & H2). exists (n1 + n2)%nat. intros n L. rewrite H1 by lia. apply H2. lia. Qed.
Lemma ev_bind2 {A A' B} (f : nat -> option (A * A')) (g : nat -> A -> A' -> option B) a a' r : ev f (a, a') -> ev (fun n => g n a a') r ->
  ev (fun n => match f n with Some (x, y) => g n x y | None => None end) r.
Proof. intros (n1 & H1) (n2 & H2). exists (n1 + n2)%nat. intros n L. rewrite H1 by lia. apply H2. lia. Qed.

(** ---- tests on tokens ---- *)
Lemma same_refl n : same n n = true. Proof. unfold same. destruct (list_eq_dec Z.eq_dec n n); congruence. Qed.
Ltac tst := repeat (match goal with
  | |- context [nexts ?a ?b] => let v := eval hnf in (nexts a b) in match v with true => change (nexts a b) with true | false => change (nexts a b) with false end
  | |- context [word ?a ?b] => let v := eval hnf in (word a b) in match v with true => change (word a b) with true | false => change (word a b) with false end
  | |- context [same ?a ?b] => let v := eval hnf in (same a b) in match v with true => change (same a b) with true | false => change (same a b) with false end
  | |- context [keyword ?b] => let v := eval hnf in (keyword b) in match v with true => change (keyword b) with true | false => change (keyword b) with false end
  end; cbn [tl andb orb negb]); cbn [tl andb orb negb].
Ltac red_eat := unfold eat, eat_word; cbn [app]; tst.
Lemma nameb_kw w : nameb w = true -> keyword w = false.
Proof. destruct w as [|c t]; [discriminate|]. unfold nameb. intros H. apply andb_true_iff in H. apply negb_true_iff, H. Qed.
Lemma name_ok w l : nameb w = true -> name (Id w :: l) = Some (w, l).
Proof. intros H. cbn [name]. rewrite (nameb_kw _ H). reflexivity. Qed.

(** ---- texts ---- *)
Lemma untext_text s : untext (text s) = s.
Proof. unfold untext, text. rewrite map_map, (map_ext _ (fun a => a)), map_id; [apply string_of_list_ascii_of_string|]. intros a. rewrite N2Z.id. apply ascii_N_embedding. Qed.
Lemma number_snoc w d : number (w ++ [48 + d]) = 10 * number w + d.
Proof. unfold number. rewrite fold_left_app. cbn [fold_left]. lia. Qed.
Lemma digits_number fuel : forall z, 0 <= z < 10 ^ Z.of_nat fuel -> number (digits fuel z) = z.
Proof.
  induction fuel as [|fuel IH]; intros z Hz; [cbn in *; lia|]. cbn [digits]. rewrite number_snoc. rewrite Nat2Z.inj_succ, Z.pow_succ_r in Hz by lia. pose proof (Z.div_mod z 10 ltac:(lia)) as D. destruct (Z.ltb_spec z 10).
  - change (number []) with 0. rewrite Z.mod_small by lia. lia.
  - rewrite IH; [lia|]. split; [apply Z.div_pos; lia|apply Z.div_lt_upper_bound; lia].
Qed.
Lemma number_int z : 0 <= z <= 2 ^ 32 -> number (show_int z) = z.
Proof. intros H. unfold show_int. destruct (Z.ltb_spec z 0); [lia|]. apply digits_number. change (10 ^ Z.of_nat 70) with (10 ^ 70). lia. Qed.

(** ---- types ---- *)
Inductive is_type : bytes -> Prop :=
| T_name w : nameb w = true -> is_type w
| T_ptr t : is_type t -> is_type (text "*" ++ t)
| T_slice t : is_type t -> is_type (text "[]" ++ t).
Lemma type_read t : is_type t -> forall l, p_type (t_type t ++ l) = Some (t, l).
Proof.
  induction 1 as [w H|t H IH|t H IH]; intros l.
  - rewrite t_type_name by exact H. cbn [app p_type]. rewrite (nameb_kw _ H). reflexivity.
  - change (t_type (text "*" ++ t)) with (op "*" :: t_type t). cbn [app p_type op]. tst. rewrite IH. reflexivity.
  - change (t_type (text "[]" ++ t)) with (op "[" :: op "]" :: t_type t). cbn [app p_type op]. tst. rewrite IH. reflexivity.
Qed.
Lemma type_head t : is_type t -> exists k r, t_type t = k :: r /\ (k = op "*" \/ k = op "[" \/ exists w, k = Id w /\ nameb w = true).
Proof.
  destruct 1 as [w H|t H|t H]; [rewrite t_type_name by exact H; eauto 8|eexists; eexists; split; [reflexivity|auto]..].
Qed.
Lemma map_read k v l : is_type k -> is_type v -> p_map (op "[" :: t_type k ++ op "]" :: t_type v ++ l) = Some (k, v, l).
Proof. intros K V. unfold p_map. red_eat. rewrite type_read by exact K. red_eat. rewrite type_read by exact V. reflexivity. Qed.

(** ---- what an expression must be to be read back ---- *)
Section All.
Context {A : Type} (P : A -> Prop).
Fixpoint all (l : list A) : Prop := match l with [] => True | a :: l => P a /\ all l end.
End All.
Definition variable (n : bytes) : Prop := nameb n = true /\ same n (text "nil") = false /\ same n (text "polyglot") = false /\ same n (text "make") = false.
Definition dotted (m : string) : Prop := match text m with 46 :: w => nameb w = true | _ => False end.
Definition library (s : string) : Prop := exists w, text s = text "polyglot." ++ w /\ nameb w = true.
Lemma library_ok s : library s -> exists w, text s = text "polyglot." ++ w /\ nameb w = true /\ t_dotted s = [id "polyglot"; op "."; Id w].
Proof. intros (w & E & N). exists w. repeat split; [exact E|exact N|]. unfold t_dotted. rewrite E. reflexivity. Qed.
Fixpoint ok (lv : nat) (e : expr) : Prop :=
  match e with
  | Var n => variable n
  | NilLit => True
  | Num z => 0 <= z <= 2 ^ 32
  | Const s => library s
  | Sel e f => ok 0 e /\ nameb f = true
  | Idx e i => ok 0 e /\ ok 2 i
  | App f args => variable f /\ all (ok 2) args
  | Make t n => is_type t /\ ok 2 n
  | MakeM k v n => is_type k /\ is_type v /\ ok 2 n
  | GoAst.Lit t fs => (1 <= lv)%nat /\ nameb t = true /\ all (fun f => nameb (fst f) = true /\ ok 2 (snd f)) fs
  | Lib f e => nameb (text f) = true /\ ok 2 e
  | Met e m args => ok 0 e /\ dotted m /\ all (ok 2) args
  | Not e => (1 <= lv)%nat /\ ok 1 e
  | Eq a b | Neq a b => (2 <= lv)%nat /\ ok 1 a /\ ok 1 b
  end.
Lemma ok_mono e lv lv' : (lv <= lv')%nat -> ok lv e -> ok lv' e.
Proof. intros L. destruct e; cbn [ok]; try tauto; intros (H & K); split; auto; lia. Qed.
Section Ind.
Variable P : expr -> Prop.
Hypothesis (HVar : forall n, P (Var n)) (HNil : P NilLit) (HNum : forall z, P (Num z)) (HConst : forall s, P (Const s))
  (HSel : forall e f, P e -> P (Sel e f)) (HIdx : forall e i, P e -> P i -> P (Idx e i)) (HApp : forall f es, all P es -> P (App f es))
  (HMake : forall t n, P n -> P (Make t n)) (HMakeM : forall k v n, P n -> P (MakeM k v n)) (HLit : forall t fs, all (fun f => P (snd f)) fs -> P (GoAst.Lit t fs))
  (HLib : forall f e, P e -> P (Lib f e)) (HMet : forall e m es, P e -> all P es -> P (Met e m es)) (HNot : forall e, P e -> P (Not e))
  (HEq : forall a b, P a -> P b -> P (Eq a b)) (HNeq : forall a b, P a -> P b -> P (Neq a b)).
Fixpoint expr_all (e : expr) : P e :=
  match e with
  | Var n => HVar n | NilLit => HNil | Num z => HNum z | Const s => HConst s
  | Sel e f => HSel e f (expr_all e) | Idx e i => HIdx e i (expr_all e) (expr_all i)
  | App f es => HApp f es ((fix go l : all P l := match l with [] => I | e :: l => conj (expr_all e) (go l) end) es)
  | Make t n => HMake t n (expr_all n) | MakeM k v n => HMakeM k v n (expr_all n)
  | GoAst.Lit t fs => HLit t fs ((fix go l : all (fun f => P (snd f)) l := match l with [] => I | f :: l => conj (expr_all (snd f)) (go l) end) fs)
  | Lib f e => HLib f e (expr_all e)
  | Met e m es => HMet e m es (expr_all e) ((fix go l : all P l := match l with [] => I | e :: l => conj (expr_all e) (go l) end) es)
  | Not e => HNot e (expr_all e) | Eq a b => HEq a b (expr_all a) (expr_all b) | Neq a b => HNeq a b (expr_all a) (expr_all b)
  end.
End Ind.

(** ---- what may follow ---- *)
Definition stops (l : list token) : Prop := forall s, In s ["."; "["; "("; "=="; "!="]%string -> nexts s l = false.
Definition ends_operand (l : list token) : Prop := forall s, In s ["."; "["; "("]%string -> nexts s l = false.
Lemma stops_ends l : stops l -> ends_operand l.
Proof. intros H s Hs. apply H. cbn in *. tauto. Qed.
Definition no_call (l : list token) : Prop := nexts "(" l = false.
Ltac stop := let s := fresh in let x := fresh in intros s x; cbn in x; repeat (destruct x as [<-|x]; [reflexivity|]); destruct x.
Lemma stop_suffix e l : ends_operand l -> ev (fun n => suffix n e l) (e, l).
Proof. intros H. apply ev_S. cbn [suffix]. rewrite !H by (cbn; tauto). apply ev_ret. Qed.
(** the first token of an expression *)
Definition first_token (lv : nat) (t : token) : Prop :=
  match t with Id w => keyword w = false | GoLex.Lit _ => True | Op o => (1 <= lv)%nat /\ (o = text "!" \/ o = text "&") | _ => False end.
Lemma head_of e : forall lv, ok lv e -> exists t r, t_expr e = t :: r /\ first_token lv t.
Proof.
  assert (M : forall lv lv' t, (lv <= lv')%nat -> first_token lv t -> first_token lv' t) by (intros lv lv' [] L; cbn; try tauto; intros (H & K); split; [lia|exact K]).
  assert (Z0 : forall lv e y, (exists t r, t_expr e = t :: r /\ first_token 0 t) -> exists t r, t_expr e ++ y = t :: r /\ first_token lv t).
  { intros lv e0 y (t & r & E & F). exists t, (r ++ y). rewrite E. split; [reflexivity|]. apply (M 0%nat); [lia|exact F]. }
  assert (Z1 : forall lv e y, (2 <= lv)%nat -> (exists t r, t_expr e = t :: r /\ first_token 1 t) -> exists t r, t_expr e ++ y = t :: r /\ first_token lv t).
  { intros lv e0 y L (t & r & E & F). exists t, (r ++ y). rewrite E. split; [reflexivity|]. apply (M 1%nat); [lia|exact F]. }
  induction e using expr_all; intros lv HH; cbn [ok] in HH; cbn [t_expr].
  - eexists; eexists; split; [reflexivity|]. apply nameb_kw, HH.
  - eexists; eexists; split; reflexivity.
  - eexists; eexists; split; [reflexivity|exact I].
  - destruct (library_ok s HH) as (w & _ & _ & T). rewrite T. eexists; eexists; split; reflexivity.
  - apply Z0, IHe, HH.
  - apply Z0, IHe1, HH.
  - eexists; eexists; split; [reflexivity|]. apply nameb_kw, HH.
  - eexists; eexists; split; reflexivity.
  - eexists; eexists; split; reflexivity.
  - eexists; eexists; split; [reflexivity|]. split; [apply HH|auto].
  - eexists; eexists; split; reflexivity.
  - apply Z0, IHe, HH.
  - eexists; eexists; split; [reflexivity|]. split; [apply HH|auto].
  - apply Z1; [apply HH|apply IHe1, HH].
  - apply Z1; [apply HH|apply IHe1, HH].
Qed.

(** ---- expressions are read back ---- *)
Definition reads_primary (e : expr) : Prop := forall l r, no_call l -> ev (fun n => suffix n e l) r -> ev (fun n => primary n (t_expr e ++ l)) r.
Definition reads (e : expr) : Prop := forall l, stops l -> ev (fun n => expression n (t_expr e ++ l)) (e, l).
Definition reads_unary (e : expr) : Prop := forall l, ends_operand l -> ev (fun n => unary n (t_expr e ++ l)) (e, l).
Lemma primary_unary e : ok 0 e -> reads_primary e -> reads_unary e.
Proof.
  intros O H l S. apply ev_S. cbn [unary]. destruct (head_of e 0%nat O) as (t & r & E & F).
  assert (X : nexts "!" (t_expr e ++ l) = false /\ nexts "&" (t_expr e ++ l) = false) by (rewrite E; destruct t; try (split; reflexivity); destruct F; lia). destruct X as (-> & ->).
  apply H; [apply S; cbn; tauto|apply stop_suffix, S].
Qed.
Lemma unary_reads e : reads_unary e -> reads e.
Proof. intros H l S. apply ev_S. cbn [expression]. eapply ev_bind2; [apply H, stops_ends, S|]. cbv beta. rewrite !S by (cbn; tauto). apply ev_ret. Qed.
Lemma arguments_read es : all (fun e => ok 2 e /\ reads e) es -> forall l, ev (fun n => arguments n (commas (map t_expr es) ++ op ")" :: l)) (es, l).
Proof.
  induction es as [|e es IH]; intros H l; [apply ev_S; cbn [arguments map commas app]; tst; apply ev_ret|]. destruct H as ((O & H) & A). apply ev_S. cbn [arguments].
  assert (X : forall y, nexts ")" (t_expr e ++ y) = false) by (intros y; destruct (head_of e _ O) as (t & r & E & F); rewrite E; destruct t; try reflexivity; destruct F as (_ & [->| ->]); reflexivity).
  destruct es as [|e' es].
  - cbn [map commas app]. rewrite X. eapply ev_bind2; [apply H; stop|]. cbv beta. red_eat. apply ev_ret.
  - cbn [map commas]. rewrite <- app_assoc, X. cbn [app]. eapply ev_bind2; [apply H; stop|]. cbv beta. tst. eapply ev_bind2; [apply (IH A)|]. cbv beta. apply ev_ret.
Qed.
Lemma elements_read fs : all (fun f => nameb (fst f) = true /\ reads (snd f)) fs -> forall l,
  ev (fun n => elements n (flat_map (fun f => Id (fst f) :: op ":" :: t_expr (snd f) ++ [op ","]) fs ++ op "}" :: l)) (fs, l).
Proof.
  induction fs as [|(f & e) fs IH]; intros H l; [apply ev_S; cbn [elements flat_map app]; tst; apply ev_ret|]. destruct H as ((N & H) & A). cbn [fst snd] in *. apply ev_S. cbn [elements flat_map fst snd].
  rewrite <- !app_assoc. cbn [app]. rewrite <- !app_assoc. cbn [app]. tst. rewrite name_ok by exact N. red_eat. eapply ev_bind2; [apply H; stop|]. cbv beta. tst. eapply ev_bind2; [apply (IH A)|]. cbv beta. apply ev_ret.
Qed.
Lemma dotted_ok m : dotted m -> exists w, text m = 46 :: w /\ nameb w = true /\ t_dotted m = [op "."; Id w] /\ untext (46 :: w) = m.
Proof.
  unfold dotted. intros H. assert (E : exists w, text m = 46 :: w /\ nameb w = true).
  { destruct (text m) as [|c w]; [destruct H|]. destruct (Z.eq_dec c 46) as [->|N]; [eauto|exfalso]. destruct c as [|p|p]; try exact H. repeat (destruct p as [p|p|]; try exact H). congruence. }
  destruct E as (w & E & N). exists w. repeat split; [exact E|exact N|unfold t_dotted; rewrite E; reflexivity|]. rewrite <- E. apply untext_text.
Qed.
Lemma all_impl {A} (P Q : A -> Prop) l : (forall a, P a -> Q a) -> all P l -> all Q l.
Proof. intros H. induction l; cbn [all]; [auto|]. intros (? & ?); split; auto. Qed.
Lemma all_both {A} (P Q : A -> Prop) l : all P l -> all Q l -> all (fun a => P a /\ Q a) l.
Proof. induction l; cbn [all]; [auto|]. intros (? & ?) (? & ?). split; auto. Qed.

Definition good_read (e : expr) : Prop := (ok 0 e -> reads_primary e) /\ (ok 1 e -> reads_unary e) /\ (ok 2 e -> reads e).
Lemma prim_good e : (forall lv, ok lv e -> ok 0 e) -> (ok 0 e -> reads_primary e) -> good_read e.
Proof.
  intros M H. split; [exact H|]. assert (U : ok 1 e -> reads_unary e) by (intros O; apply primary_unary; [|apply H]; apply (M _ O)).
  split; [exact U|]. intros O. apply unary_reads, U. apply M in O. apply (ok_mono e 0); [lia|exact O].
Qed.
Lemma goods es : all good_read es -> all (ok 2) es -> all (fun e => ok 2 e /\ reads e) es.
Proof. intros A B. assert (C := all_both _ _ _ A B). revert C. apply all_impl. intros e ((_ & _ & H) & O). auto. Qed.
Lemma paren_stops l : stops (op ")" :: l). Proof. stop. Qed.
Lemma expr_good e : good_read e.
Proof.
  induction e using expr_all.
  - apply prim_good; [intros lv O; exact O|]. intros (N & A & B & C) l r L S. apply ev_S. cbn [primary t_expr app]. rewrite (nameb_kw _ N), A, B, C. unfold no_call in L. rewrite L. exact S.
  - apply prim_good; [intros lv O; exact O|]. intros _ l r L S. apply ev_S. cbn [primary t_expr app id]. tst. exact S.
  - apply prim_good; [intros lv O; exact O|]. intros O l r L S. apply ev_S. cbn [primary t_expr app]. rewrite number_int by exact O. exact S.
  - apply prim_good; [intros lv O; exact O|]. intros Y l r L S. destruct (library_ok s Y) as (w & E & N & T). apply ev_S. cbn [primary t_expr]. rewrite T.
    cbn [app id]. tst. red_eat. rewrite name_ok by exact N. unfold no_call in L. rewrite L. rewrite <- E, untext_text. exact S.
  - apply prim_good; [intros lv O; exact O|]. intros (O & N) l r L S. cbn [t_expr]. rewrite <- app_assoc. apply (proj1 IHe O); [reflexivity|]. cbn [app]. apply ev_S. cbn [suffix]. tst. rewrite name_ok by exact N. unfold no_call in L. rewrite L. exact S.
  - apply prim_good; [intros lv O; exact O|]. intros (O & O') l r L S. cbn [t_expr]. rewrite <- app_assoc. apply (proj1 IHe1 O); [reflexivity|]. cbn [app]. rewrite <- app_assoc. apply ev_S. cbn [suffix]. tst.
    eapply ev_bind2; [apply IHe2; [exact O'|stop]|]. cbv beta. red_eat. exact S.
  - apply prim_good; [intros lv O; exact O|]. intros ((N & A & B & C) & O) l r L S. apply ev_S. cbn [primary t_expr app]. unfold parens. repeat (cbn [app]; rewrite <- ?app_assoc). rewrite (nameb_kw _ N), A, B, C. tst.
    eapply ev_bind2; [apply arguments_read, goods; assumption|]. cbv beta. exact S.
  - apply prim_good; [intros lv O; exact O|]. intros (T & O) l r L S. apply ev_S. cbn [primary t_expr app id]. unfold parens, id. repeat (cbn [app]; rewrite <- ?app_assoc). tst. red_eat.
    assert (W : forall y, word "map" (t_type t ++ y) = false).
    { intros y. destruct (type_head t T) as (k & z & E & [->|[->|(w & -> & K)]]); rewrite E; try reflexivity. cbn [app word]. destruct (same w (text "map")) eqn:X; [|reflexivity]. exfalso. unfold same in X. destruct (list_eq_dec Z.eq_dec w (text "map")) as [->|]; discriminate. }
    rewrite W, type_read by exact T. red_eat. eapply ev_bind2; [apply IHe; [exact O|stop]|]. cbv beta. red_eat. exact S.
  - apply prim_good; [intros lv O; exact O|]. intros (K & V & O) l r L S. apply ev_S. cbn [primary t_expr app id]. unfold parens, id. repeat (cbn [app]; rewrite <- ?app_assoc). tst. red_eat.
    rewrite map_read by assumption. red_eat. eapply ev_bind2; [apply IHe; [exact O|stop]|]. cbv beta. red_eat. exact S.
  - assert (U : forall lv, ok lv (GoAst.Lit t fs) -> reads_unary (GoAst.Lit t fs)).
    { intros lv (_ & N & A) l S. apply ev_S. cbn [unary t_expr]. repeat (cbn [app]; rewrite <- ?app_assoc). tst. rewrite name_ok by exact N. red_eat. eapply ev_bind2; [|apply ev_ret]. apply elements_read.
      assert (C := all_both _ _ _ H A). revert C. apply all_impl. intros f ((_ & _ & G) & Nf & O). auto. }
    split; [intros (X & _); lia|]. split; [apply U|intros O; apply unary_reads, (U _ O)].
  - apply prim_good; [intros lv O; exact O|]. intros (N & O) l r L S. apply ev_S. cbn [primary t_expr app id]. unfold parens, id. repeat (cbn [app]; rewrite <- ?app_assoc). tst. red_eat. rewrite name_ok by exact N. tst.
    eapply ev_bind2; [apply IHe; [exact O|stop]|]. cbv beta. red_eat. rewrite untext_text. exact S.
  - apply prim_good; [intros lv O; exact O|]. intros (O & D & A) l r L S. destruct (dotted_ok m D) as (w & E & N & T & U). cbn [t_expr]. rewrite T. unfold parens. rewrite <- app_assoc. apply (proj1 IHe O); [reflexivity|]. repeat (cbn [app]; rewrite <- ?app_assoc).
    apply ev_S. cbn [suffix]. tst. rewrite name_ok by exact N. tst. eapply ev_bind2; [apply arguments_read, goods; assumption|]. cbv beta. rewrite U. exact S.
  - assert (U : ok 1 e -> reads_unary (Not e)).
    { intros O l S. apply ev_S. cbn [unary t_expr app]. tst. eapply ev_bind2; [apply IHe; [exact O|exact S]|]. cbv beta. apply ev_ret. }
    split; [intros (X & _); lia|]. split; [intros (_ & O); auto|intros (_ & O); apply unary_reads; auto].
  - split; [intros (X & _); lia|]. split; [intros (X & _); lia|]. intros (_ & O1 & O2) l S. cbn [t_expr]. rewrite <- app_assoc. cbn [app]. apply ev_S. cbn [expression].
    eapply ev_bind2; [apply IHe1; [exact O1|stop]|]. cbv beta. tst. eapply ev_bind2; [apply IHe2; [exact O2|apply stops_ends, S]|]. cbv beta. apply ev_ret.
  - split; [intros (X & _); lia|]. split; [intros (X & _); lia|]. intros (_ & O1 & O2) l S. cbn [t_expr]. rewrite <- app_assoc. cbn [app]. apply ev_S. cbn [expression].
    eapply ev_bind2; [apply IHe1; [exact O1|stop]|]. cbv beta. tst. eapply ev_bind2; [apply IHe2; [exact O2|apply stops_ends, S]|]. cbv beta. apply ev_ret.
Qed.
Lemma expr_read e l : ok 2 e -> stops l -> ev (fun n => expression n (t_expr e ++ l)) (e, l).
Proof. intros O. apply expr_good, O. Qed.
