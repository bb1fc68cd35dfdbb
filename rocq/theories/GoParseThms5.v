(** Reading does not depend on the bound of its depth; the program that generated text is. *)
From Coq Require Import String Ascii.
From Verif Require Import Base Spec GenTables NameModel NameSpec EmitModel EmitSpec EmitThms GoAst GoEmit TplModel TplGo GoLex GoLexThms TplSpec TplThms TplThms2 TplThms10 GoLink GoParse GoParseThms GoParseThms2 GoParseThms3 GoParseThms4.
From Verif Require GoTypesSpec.
Local Open Scope list_scope.

(** ---- the bound ---- *)
Definition less {A} (x y : option A) : Prop := forall r, x = Some r -> y = Some r.
Lemma less_refl {A} (x : option A) : less x x. Proof. intros r H. exact H. Qed.
Lemma less_bind {A B} (x y : option A) (k k' : A -> option B) : less x y -> (forall a, less (k a) (k' a)) -> less (match x with Some a => k a | None => None end) (match y with Some a => k' a | None => None end).
Proof. intros H K r E. destruct x as [a|]; [|discriminate E]. rewrite (H a eq_refl). apply K, E. Qed.
Lemma less_bind2 {A A' B} (x y : option (A * A')) (k k' : A -> A' -> option B) : less x y -> (forall a b, less (k a b) (k' a b)) ->
  less (match x with Some (a, b) => k a b | None => None end) (match y with Some (a, b) => k' a b | None => None end).
Proof. intros H K r E. destruct x as [(a, b)|]; [|discriminate E]. rewrite (H (a, b) eq_refl). apply K, E. Qed.
Lemma less_bind3 {A A' A'' B} (x y : option (A * A' * A'')) (k k' : A -> A' -> A'' -> option B) : less x y -> (forall a b c, less (k a b c) (k' a b c)) ->
  less (match x with Some (a, b, c) => k a b c | None => None end) (match y with Some (a, b, c) => k' a b c | None => None end).
Proof. intros H K r E. destruct x as [((a, b), c)|]; [|discriminate E]. rewrite (H (a, b, c) eq_refl). apply K, E. Qed.
Ltac up IH := intros; cbv beta; repeat match goal with
  | |- less ?x ?x => apply less_refl
  | |- less (match ?x with _ => _ end) (match ?x with _ => _ end) => destruct x
  | _ => IH
  | |- less _ _ => first [apply less_bind3; [|intros]|apply less_bind2; [|intros]|apply less_bind; [|intros]]
  end.
Definition upward {A B} (f : nat -> A -> option B) (n m : nat) : Prop := forall l, less (f n l) (f m l).
Lemma expr_up : forall n m, (n <= m)%nat -> upward primary n m /\ (forall e, upward (fun n => suffix n e) n m) /\ upward unary n m /\ upward expression n m /\ upward arguments n m /\ upward elements n m.
Proof.
  induction n as [|n IH]; intros m L; [unfold upward; repeat split; intros; intros r H; discriminate H|]. destruct m as [|m]; [lia|]. destruct (IH m ltac:(lia)) as (H1 & H2 & H3 & H4 & H5 & H6). clear IH. unfold upward in *.
  split; [|split; [|split; [|split; [|split]]]]; intros; cbn [primary suffix unary expression arguments elements]; up ltac:(first [apply H1|apply H2|apply H3|apply H4|apply H5|apply H6]).
Qed.
Lemma expression_up n m l : (n <= m)%nat -> less (expression n l) (expression m l).
Proof. intros L. apply (expr_up n m L). Qed.
Lemma expressions_up : forall n m, (n <= m)%nat -> upward expressions n m.
Proof.
  induction n as [|n IH]; intros m L l; [intros r H; discriminate H|]. destruct m as [|m]; [lia|]. specialize (IH m ltac:(lia)). cbn [expressions]. up ltac:(first [apply IH|apply expression_up; lia]).
Qed.
Lemma simple_up n m l : (n <= m)%nat -> less (simple n l) (simple m l).
Proof. intros L. unfold simple. up ltac:(first [apply expressions_up, L|apply expression_up, L]). Qed.
Lemma stmt_up : forall n m, (n <= m)%nat -> upward statement n m /\ upward block n m.
Proof.
  induction n as [|n IH]; intros m L; [split; intros l r H; discriminate H|]. destruct m as [|m]; [lia|]. destruct (IH m ltac:(lia)) as (H1 & H2). clear IH. unfold upward in *.
  split; intros l; cbn [statement block]; up ltac:(first [apply H1|apply H2|apply expression_up; lia|apply expressions_up; lia|apply simple_up; lia]).
Qed.
Lemma block_up n m l : (n <= m)%nat -> less (block n l) (block m l).
Proof. intros L. apply (stmt_up n m L). Qed.
Section V.
Variable v2 : bool.
Lemma params_up : forall n m, (n <= m)%nat -> upward (params v2) n m.
Proof using Type. induction n as [|n IH]; intros m L l; [intros r H; discriminate H|]. destruct m as [|m]; [lia|]. specialize (IH m ltac:(lia)). cbn [params]. up ltac:(apply IH). Qed.
Lemma func_up n m l : (n <= m)%nat -> less (p_func v2 n l) (p_func v2 m l).
Proof using Type. intros L. unfold p_func. up ltac:(first [apply params_up, L|apply block_up, L]). Qed.
Lemma fields_up : forall n m, (n <= m)%nat -> upward p_fields n m.
Proof using Type. induction n as [|n IH]; intros m L l; [intros r H; discriminate H|]. destruct m as [|m]; [lia|]. specialize (IH m ltac:(lia)). cbn [p_fields]. up ltac:(apply IH). Qed.
Lemma decl_up n m l : (n <= m)%nat -> less (p_decl v2 n l) (p_decl v2 m l).
Proof using Type. intros L. unfold p_decl. up ltac:(first [apply func_up, L|apply fields_up, L]). Qed.
Lemma decls_up : forall n m, (n <= m)%nat -> forall g, upward (fun n => p_decls v2 n g) n m.
Proof using Type. induction n as [|n IH]; intros m L g l; [intros r H; discriminate H|]. destruct m as [|m]; [lia|]. specialize (IH m ltac:(lia)). cbn [p_decls]. up ltac:(first [apply IH|apply decl_up; lia]). Qed.
Lemma file_up n m l : (n <= m)%nat -> less (p_file v2 n l) (p_file v2 m l).
Proof using Type. intros L. unfold p_file. up ltac:(apply decls_up, L). Qed.
(** two readings of a text are the same *)
Lemma file_unique n m l r r' : p_file v2 n l = Some r -> p_file v2 m l = Some r' -> r = r'.
Proof using Type.
  intros H K. destruct (Nat.le_ge_cases n m) as [L|L]; [apply (file_up _ _ l L) in H|apply (file_up _ _ l L) in K]; congruence.
Qed.
End V.

(** ---- the marks of the stack model ---- *)
Definition marked (d : decl) : Prop := with_frames (syntax d) = d.
Lemma map_marked fd : (exists c w, map_name fd = c :: w /\ c <> 42) -> Forall marked (map_decls fd).
Proof.
  intros (c & w & E & N). assert (P : pointer (XText (map_name fd)) = false).
  { rewrite E. cbn [pointer]. destruct c as [|p|p]; try reflexivity. repeat (destruct p as [p|p|]; try reflexivity). congruence. }
  unfold map_decls. destruct (f_typ fd) as [| | |k v]; try constructor. reflexivity. constructor; [reflexivity|].
  constructor; [|constructor; [|constructor]]; unfold marked, with_frames, syntax, bare_func, counted, encode_map_func, decode_map_func; cbn [fn_recv fn_name fn_params fn_types fn_result fn_body fn_frame firstn existsb]; rewrite P; reflexivity.
Qed.
Lemma program_marked v2 f : nameable f -> map with_frames (map syntax (go_program v2 f)) = go_program v2 f.
Proof.
  intros NF. rewrite map_map. rewrite <- (map_id (go_program v2 f)) at 2. apply map_ext_in. intros d Hd. change (marked d). unfold go_program in Hd. rewrite body_units in Hd. destruct Hd as [<-|Hd]; [reflexivity|].
  apply in_flat_map in Hd. destruct Hd as ([e|m] & Hu & Hd); cbn [either] in Hd.
  - unfold enum_decls in Hd. destruct Hd as [<-|Hd]; [reflexivity|]. apply in_map_iff in Hd. destruct Hd as (iv & <- & _). reflexivity.
  - apply units_msg in Hu. unfold struct_decls in Hd. apply in_app_or in Hd. destruct Hd as [Hd|Hd].
    + apply in_flat_map in Hd. destruct Hd as (fd & Hf & Hd). assert (G := field_fine fd (nm_fields _ NF m fd Hu Hf)).
      assert (M := Forall_forall marked (map_decls fd)). destruct M as (M & _). refine (M _ d Hd). clear M Hd d. destruct (f_typ fd) as [| | |k v] eqn:E; [unfold map_decls; rewrite E; constructor..|].
      apply map_marked. destruct G as (_ & G). rewrite E in G. destruct G as (_ & G & _). unfold map_name. destruct (camel (f_full fd)) as [|c w]; [discriminate G|]. exists c, (w ++ text "Map"). split; [reflexivity|]. intros ->. discriminate G.
    + cbn [In] in Hd. repeat (destruct Hd as [<-|Hd]; [reflexivity|]). destruct Hd.
Qed.
Lemma text_read v2 p is f : nameable f -> nameb p = true -> GoTypesSpec.enums_fit f -> forall l, go_tokens l = t_file v2 p is (go_program v2 f) ->
  (exists n0, forall n, (n0 <= n)%nat -> p_file v2 n (go_tokens l) = Some (p, is, map syntax (go_program v2 f)) /\ read_program v2 n l = Some (go_program v2 f)) /\
  (forall n r, p_file v2 n (go_tokens l) = Some r -> r = (p, is, map syntax (go_program v2 f))) /\
  (forall n P, read_program v2 n l = Some P -> P = go_program v2 f).
Proof.
  intros NF NP EF l E. destruct (program_ok v2 f NF EF) as (A & G). destruct (file_read v2 p is _ NP A G) as (n0 & H).
  assert (U : forall n r, p_file v2 n (go_tokens l) = Some r -> r = (p, is, map syntax (go_program v2 f))).
  { intros n r Hr. rewrite E in Hr. apply (file_unique v2 n n0 _ _ _ Hr), H. lia. }
  split; [|split; [exact U|]].
  - exists n0. intros n L. assert (X : p_file v2 n (go_tokens l) = Some (p, is, map syntax (go_program v2 f))) by (rewrite E; apply H, L). split; [exact X|]. unfold read_program. rewrite X, program_marked by exact NF. reflexivity.
  - intros n P. unfold read_program. destruct (p_file v2 n (go_tokens l)) as [r|] eqn:X; [|discriminate]. rewrite (U n r X). intros H'. rewrite program_marked in H' by exact NF. congruence.
Qed.
