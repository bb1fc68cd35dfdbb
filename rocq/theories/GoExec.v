(** Running the pieces of generated functions. *)
From Coq Require Import String.
From Verif Require Import Base Spec GenTables GenModel GenTrace NameModel NameSpec EmitModel EmitSpec EmitThms PkgThms GoAst GoEmit GoRunSpec GoLink GoFrame.

(** ---- a run agrees with the tree model ---- *)
Definition agrees {A B} (done : B) (failed : gerr -> B) (o : ex (B * st)) (t : run A) (s : st) (ok : A -> st -> Prop) : Prop :=
  match snd t with
  | TDone r x => exists s', o = Fine (done, s') /\ inp s' = r /\ ok x s' /\ made s' = made s ++ fst t /\ out s' = out s
  | TErr e x => exists s', o = Fine (failed e, s') /\ ok x s' /\ made s' = made s ++ fst t /\ out s' = out s
  | TPanic => o = Panics
  | TDeep => o = Deep
  | TBroken => True
  end.
Definition runs {A} (o : ex (signal * st)) (t : run A) (s : st) (ok : A -> st -> Prop) : Prop :=
  agrees Next (fun e => Ret [GoError (Some e)]) o t s ok.
Definition returns {A} (o : ex (list gov * st)) (t : run A) (s : st) (ok : A -> st -> Prop) : Prop :=
  agrees [GoNil] (fun e => [GoError (Some e)]) o t s ok.

Lemma runs_weaken {A} o (t : run A) s (ok ok' : A -> st -> Prop) : runs o t s ok -> (forall x s', ok x s' -> ok' x s') -> runs o t s ok'.
Proof.
  unfold runs, agrees. intros H K. destruct (snd t); try exact H.
  - destruct H as (s' & E & Ei & Ho & R). exists s'. auto.
  - destruct H as (s' & E & Ho & R). exists s'. auto.
Qed.
Lemma runs_from {A} o (t : run A) s s2 (ok : A -> st -> Prop) : runs o t s2 ok -> made s2 = made s -> out s2 = out s -> runs o t s ok.
Proof. unfold runs, agrees. intros H M O. rewrite <- M, <- O. exact H. Qed.
Lemma runs_bind {A B} o o' (t : run A) (k : bytes -> A -> run B) undo s (ok : A -> st -> Prop) (ok' : B -> st -> Prop) :
  runs o t s ok ->
  (match o with Fine (Next, s') => forall x, ok x s' -> out s' = out s -> runs o' (k (inp s') x) s' ok' | Fine (g, s') => o' = Fine (g, s') | Panics => o' = Panics | Deep => o' = Deep | Stuck => True end) ->
  (forall x s', ok x s' -> ok' (undo x) s') ->
  runs o' (tbind t undo k) s ok'.
Proof.
  unfold runs, agrees. destruct t as (l & [r x|e x| | |]); cbn [tbind snd fst]; intros H K U.
  - destruct H as (s' & -> & Ei & Ho & Em & Eo). specialize (K x Ho Eo). rewrite Ei in K. destruct (k r x) as (l' & y). cbn [snd fst] in *.
    destruct y as [r' y|e y| | |]; try exact K.
    + destruct K as (s2 & -> & E2 & H2 & M2 & O2). exists s2. rewrite M2, Em, app_assoc, O2, Eo. auto.
    + destruct K as (s2 & -> & H2 & M2 & O2). exists s2. rewrite M2, Em, app_assoc, O2, Eo. auto.
  - destruct H as (s' & -> & Ho & Em & Eo). rewrite K. exists s'. auto.
  - rewrite H in K. exact K.
  - rewrite H in K. exact K.
  - exact I.
Qed.

Lemma names_lower v2 f n c t : n = c :: t -> is_lower c = true -> ~ In n (go_names (go_file v2 f)).
Proof. intros -> L H. apply names_no_lower in H. rewrite (H c t eq_refl) in L. discriminate L. Qed.
Lemma set_env_same s : set_env s (env s) = s.
Proof. destruct s. reflexivity. Qed.

Section Exec.
Variables (P : list decl) (room : Z -> bool) (prim : option bytes -> request -> bytes -> outcome).
Variable callee : option bytes -> bytes -> list gov -> st -> ex (list gov * st).
Notation EV := (eval P room prim callee).
Notation EX := (exec P room prim callee).
Notation SEQ := (seq (exec P room prim callee)).

Lemma seq_app l1 l2 s : SEQ (l1 ++ l2) s = let? (g, s) := SEQ l1 s in match g with Next => SEQ l2 s | Ret vs => Fine (Ret vs, s) end.
Proof.
  revert s. induction l1 as [|c l1 IH]; intros s; [reflexivity|]. cbn [app seq]. destruct (EX c s) as [[[|vs] s1]| | |]; cbn [ebind]; auto.
Qed.
Lemma seq_one c s : SEQ [c] s = EX c s.
Proof. cbn [seq]. destruct (EX c s) as [[[|vs] s1]| | |]; reflexivity. Qed.
Lemma seq_cons c l s : SEQ (c :: l) s = let? (g, s) := EX c s in match g with Next => SEQ l s | Ret vs => Fine (Ret vs, s) end.
Proof. reflexivity. Qed.
(** the second part of a sequence, for [runs_bind] *)
Lemma runs_seq {A B} l1 l2 (t : run A) (k : bytes -> A -> run B) undo s (ok : A -> st -> Prop) (ok' : B -> st -> Prop) :
  runs (SEQ l1 s) t s ok ->
  (forall s' x, SEQ l1 s = Fine (Next, s') -> ok x s' -> out s' = out s -> runs (SEQ l2 s') (k (inp s') x) s' ok') ->
  (forall x s', ok x s' -> ok' (undo x) s') ->
  runs (SEQ (l1 ++ l2) s) (tbind t undo k) s ok'.
Proof.
  intros H K U. apply (runs_bind (SEQ l1 s) _ _ _ _ _ ok); [exact H| |exact U].
  rewrite seq_app. destruct (SEQ l1 s) as [[[|vs] s1]| | |] eqn:E; cbn [ebind]; auto.
Qed.

Lemma eval_var n v s : find_name n (env s) = Some v -> EV (Var n) s = Fine ([v], s).
Proof. intros H. cbn [eval]. rewrite H. reflexivity. Qed.
Lemma one_var n v s : find_name n (env s) = Some v -> one EV (Var n) s = Fine (v, s).
Proof. intros H. unfold one. rewrite (eval_var _ _ _ H). reflexivity. Qed.
Lemma block_nil l s : block EX [] [] l s = let? (g, s1) := SEQ l s in Fine (g, set_env s1 (leave (env s) (env s1))).
Proof. reflexivity. Qed.

Lemma exec_check s o : find_name n_err (env s) = Some (GoError o) ->
  EX check s = match o with None => Fine (Next, s) | Some e => Fine (Ret [GoError (Some e)], s) end.
Proof.
  intros H. unfold check. cbn [exec]. unfold one at 1. cbn [eval]. rewrite (one_var _ _ _ H). cbn [ebind]. unfold one. cbn [eval ebind equal].
  destruct o as [e|]; cbn [negb]; rewrite block_nil.
  - rewrite seq_one. cbn [exec eval]. rewrite H. cbn [ebind]. rewrite leave_same by reflexivity. rewrite set_env_same. reflexivity.
  - cbn [seq ebind]. rewrite leave_same by reflexivity. rewrite set_env_same. reflexivity.
Qed.

Lemma exec_if_nil e v b l1 l2 s : EV e s = Fine ([v], s) -> equal v GoNil = Fine b -> EX (If (Eq e NilLit) l1 l2) s = block EX [] [] (if b then l1 else l2) s.
Proof.
  intros E Q. cbn [exec]. unfold one at 1. cbn [eval]. unfold one. rewrite E. cbn [ebind]. cbn [eval ebind]. rewrite Q. cbn [ebind]. destruct b; reflexivity.
Qed.
Lemma block_same l s g s' : SEQ l s = Fine (g, s') -> length (env s') = length (env s) -> block EX [] [] l s = Fine (g, s').
Proof. intros E L. rewrite block_nil, E. cbn [ebind]. rewrite leave_same by exact L. rewrite set_env_same. reflexivity. Qed.
(** a method of the decoder *)
Lemma eval_dec m s : find_name n_d (env s) = Some GoDecoder -> EV (Met (Var n_d) m []) s = decoder_method prim m [] s.
Proof. intros H. cbn [eval]. rewrite (one_var _ _ _ H). reflexivity. Qed.
Lemma eval_dec1 m e v s : find_name n_d (env s) = Some GoDecoder -> EV e s = Fine ([v], s) -> EV (Met (Var n_d) m [e]) s = decoder_method prim m [v] s.
Proof. intros H E. cbn [eval]. rewrite (one_var _ _ _ H). cbn [ebind each]. unfold one. rewrite E. reflexivity. Qed.
Lemma eval_dec2 m e v e2 v2 s : find_name n_d (env s) = Some GoDecoder -> EV e s = Fine ([v], s) -> EV e2 s = Fine ([v2], s) ->
  EV (Met (Var n_d) m [e; e2]) s = decoder_method prim m [v; v2] s.
Proof. intros H E E2. cbn [eval]. rewrite (one_var _ _ _ H). cbn [ebind each]. unfold one. rewrite E. cbn [ebind]. rewrite E2. reflexivity. Qed.

Section Field.
Variables (T : bytes) (a : nat) (fs : list (bytes * gov)) (fd : fieldd).
Lemma eval_my s v : find_name n_x (env s) = Some (GoPtr T (Some a)) -> nth_error (heap s) a = Some (OStruct fs) -> find_name (goname fd) fs = Some v ->
  EV (my fd) s = Fine ([v], s).
Proof.
  intros Hx Ha Hf. unfold my. cbn [eval]. rewrite (one_var _ _ _ Hx). cbn [ebind select]. unfold fetch. rewrite Ha. cbn [need ebind]. rewrite Hf. reflexivity.
Qed.
Lemma one_my s v : find_name n_x (env s) = Some (GoPtr T (Some a)) -> nth_error (heap s) a = Some (OStruct fs) -> find_name (goname fd) fs = Some v ->
  one EV (my fd) s = Fine (v, s).
Proof. intros. unfold one. rewrite (eval_my s v) by assumption. reflexivity. Qed.
Lemma store_my s old v w : find_name n_x (env s) = Some (GoPtr T (Some a)) -> nth_error (heap s) a = Some (OStruct fs) -> find_name (goname fd) fs = Some old ->
  fit old v = Some w -> store P room prim callee (my fd) v s = Fine (set_heap s (set_at a (OStruct (set_name (goname fd) w fs)) (heap s))).
Proof.
  intros Hx Ha Hf E. unfold my. cbn [store]. rewrite (one_var _ _ _ Hx). cbn [ebind]. unfold fetch. rewrite Ha. cbn [need ebind]. rewrite Hf. cbn [need ebind]. rewrite E. reflexivity.
Qed.
End Field.
Lemma store_var n s old v w : find_name n (env s) = Some old -> fit old v = Some w ->
  store P room prim callee (Var n) v s = Fine (set_env s (set_name n w (env s))).
Proof. intros H E. cbn [store]. rewrite H. cbn [need ebind]. rewrite E. reflexivity. Qed.
Lemma fit_err o e : fit (GoError o) (GoError e) = Some (GoError e). Proof. reflexivity. Qed.
Lemma fit_err_nil o : fit (GoError o) GoNil = Some (GoError None). Proof. reflexivity. Qed.
Lemma fit_base a b : want a = want b -> fit (GoBase a) (GoBase b) = Some (GoBase b).
Proof. intros H. cbn [fit]. destruct (request_eq_dec (want a) (want b)); congruence. Qed.
End Exec.
