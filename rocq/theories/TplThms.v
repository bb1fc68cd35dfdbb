(** Executing the Go templates on any descriptor, and reading what they write. *)
From Coq Require Import String Ascii.
From Verif Require Import Base Spec GenTables NameModel NameSpec EmitModel EmitSpec EmitThms GoAst GoEmit TplText TplModel TplGo TplExec GoLex GoLexThms.
Local Open Scope list_scope.

Lemma camel_call s : call_of "CamelCase" [VFull s] = Some (VText (camel s)).
Proof. unfold call_of. cbn [String.eqb Ascii.eqb Bool.eqb]. rewrite camel_ok. reflexivity. Qed.
Lemma camelname_call s : call_of "CamelCaseName" [VName s] = Some (VText (camel s)).
Proof. unfold call_of. cbn [String.eqb Ascii.eqb Bool.eqb]. rewrite camel_ok. reflexivity. Qed.
Definition kindly (t : ftyp) : Prop := match t with TScalar k => k <> KGroup /\ k <> KEnum /\ k <> KMessage | _ => True end.
Lemma find_call fd : kindly (f_typ fd) -> call_of "FindValue" [VField fd] = Some (VText (type_text fd)).
Proof.
  intros K. unfold call_of. cbn [String.eqb Ascii.eqb Bool.eqb]. unfold type_text. destruct (FindValue fd) eqn:E; [reflexivity|]. exfalso. unfold FindValue in E. destruct (f_typ fd) as [k|s|s|? ?].
  - destruct K as (K1 & K2 & K3). destruct k; try discriminate E; congruence.
  - destruct (f_many fd); rewrite camel_ok in E; discriminate E.
  - rewrite camel_ok in E. destruct (f_many fd); discriminate E.
  - rewrite camel_ok in E. discriminate E.
Qed.
Lemma kind_call k : k <> KGroup -> call_of "GetKind" [VKind k] = Some (VText (text (entry (go_GetKind k)))).
Proof. intros H. destruct k; try reflexivity. congruence. Qed.

(** ---- Names ---- *)
Definition lowb (c : Z) : bool := (97 <=? c) && (c <=? 122).
Definition goodb (w : bytes) : bool := match w with c :: t => letterb c && negb (lowb c) && forallb wordb t | [] => false end.
Lemma good_name w : goodb w = true -> nameb w = true.
Proof.
  unfold goodb, nameb. destruct w as [|c t]; [discriminate|]. intros H. apply andb_true_iff in H. destruct H as (H & H3). apply andb_true_iff in H. destruct H as (H1 & H2). rewrite H1, H3. cbn [andb].
  apply negb_true_iff. unfold keyword. destruct (existsb (same (c :: t)) go_keywords) eqn:E; [|reflexivity]. exfalso. apply existsb_exists in E. destruct E as (k & Hk & Hs). unfold same in Hs. destruct (list_eq_dec Z.eq_dec (c :: t) k) as [<-|]; [|discriminate Hs].
  apply negb_true_iff in H2. vm_compute in Hk. repeat (destruct Hk as [Hk|Hk]; [injection Hk as Hc _; subst c; discriminate H2|]). destruct Hk.
Qed.
Lemma good_chars w : goodb w = true -> forallb wordb w = true.
Proof. intros H. apply name_chars, good_name, H. Qed.
Lemma good_suffix w x : forallb wordb x = true -> goodb w = true -> goodb (w ++ x) = true.
Proof. intros X. unfold goodb. destruct w as [|c t]; [discriminate|]. cbn [app]. intros H. apply andb_true_iff in H. destruct H as (H & H3). rewrite H, forallb_app, H3, X. reflexivity. Qed.
Lemma good_new w : forallb wordb w = true -> goodb (text "New" ++ w) = true.
Proof. intros H. change (goodb (text "New" ++ w)) with (forallb wordb (text "ew" ++ w)). rewrite forallb_app, H. reflexivity. Qed.
(** ---- Types ---- *)
Lemma t_type_name w : nameb w = true -> t_type w = [Id w].
Proof.
  destruct w as [|c w]; [discriminate|]. unfold nameb. intros H. apply andb_true_iff in H. destruct H as (H & _). apply andb_true_iff in H. destruct H as (H & _).
  assert (A : c <> 42 /\ c <> 91) by (unfold letterb in H; lia). destruct A as (A & B). cbn [t_type].
  destruct c as [|p|p]; try reflexivity. repeat (destruct p as [p|p|]; try reflexivity); congruence.
Qed.
Lemma t_ptr w : nameb w = true -> t_type (text "*" ++ w) = [op "*"; Id w].
Proof. intros H. change (t_type (text "*" ++ w)) with (op "*" :: t_type w). rewrite t_type_name by exact H. reflexivity. Qed.
(** a type: what is before the last word of it, and that word *)
Definition starts (pre : list token) (s : bool) : bool := match pre with [] => s | _ => false end.
Definition typed (t : bytes) (pre : list token) (w : bytes) : Prop :=
  nameb w = true /\ t_type t = pre ++ [Id w] /\ exists l, forall s, Lex (mklst PNone s false) t pre (mklst (PWord w) (l s) false).
Lemma typed_name w : nameb w = true -> typed w [] w.
Proof. intros H. split; [exact H|]. split; [apply t_type_name, H|]. exists (fun s => s). intros s. apply Lex_name, H. Qed.
Lemma typed_ptr w : nameb w = true -> typed (text "*" ++ w) [op "*"] w.
Proof. intros H. split; [exact H|]. split; [apply t_ptr, H|]. exists (fun _ => false). intros s. change [op "*"] with (@nil token ++ [op "*"]). eapply Lex_app; [lex_lit|]. apply (Lex_name_op 42 s false); auto. Qed.
Lemma typed_slice t pre w : typed t pre w -> typed (text "[]" ++ t) (op "[" :: op "]" :: pre) w.
Proof.
  intros (A & B & l & C). split; [exact A|]. split; [change (t_type (text "[]" ++ t)) with (op "[" :: op "]" :: t_type t); rewrite B; reflexivity|].
  exists (fun _ => l true). intros s. change (op "[" :: op "]" :: pre) with ([op "["; op "]"] ++ pre). eapply Lex_app; [lex_lit|]. apply C.
Qed.
(** ---- Library names ---- *)
Lemma dec_word k e : go_decodeLUT k = Some e -> exists w, text e = text "." ++ w /\ nameb w = true /\ t_dotted e = [op "."; Id w].
Proof. intros H. destruct k; try discriminate H; injection H as <-; (eexists; split; [reflexivity|split; reflexivity]). Qed.
Lemma enc_word k e : go_encodeLUT k = Some e -> exists w, text e = text "." ++ w /\ nameb w = true /\ t_dotted e = [op "."; Id w].
Proof. intros H. destruct k; try discriminate H; injection H as <-; (eexists; split; [reflexivity|split; reflexivity]). Qed.
Lemma kind_word k : k <> KGroup -> exists w, text (entry (go_GetKind k)) = text "polyglot." ++ w /\ nameb w = true /\ t_dotted (entry (go_GetKind k)) = [id "polyglot"; op "."; Id w].
Proof. intros H. destruct k; try congruence; (eexists; split; [reflexivity|split; reflexivity]). Qed.
Lemma kindlut_word k e : go_encodeLUT k = Some e -> exists w, text (entry (go_kindLUT k)) = text "polyglot." ++ w /\ nameb w = true /\ t_dotted (entry (go_kindLUT k)) = [id "polyglot"; op "."; Id w].
Proof. intros H. destruct k; try discriminate H; (eexists; split; [reflexivity|split; reflexivity]). Qed.

(** ---- Writing ---- *)
Definition writes (r : option bytes) (s : lst) (ts : list token) (s' : lst) : Prop := exists l, r = Some l /\ Lex s l ts s'.
Notation RUN v2 := (run get_of call_of (TT v2)).
Lemma run_S T n name v : run get_of call_of T (S n) name v =
  match find_str name T with Some l => exec_list get_of call_of (exec get_of call_of (run get_of call_of T n)) v [("$"%string, v)] l | None => None end.
Proof. reflexivity. Qed.
Lemma writes_eq r s t t' s1 s1' : writes r s t s1 -> t = t' -> s1 = s1' -> writes r s t' s1'.
Proof. intros H <- <-. exact H. Qed.
Lemma writes_some l s t s1 : Lex s l t s1 -> writes (Some l) s t s1. Proof. intros H. exists l. auto. Qed.
Lemma writes_both a b s t1 s1 t2 s2 : writes a s t1 s1 -> writes b s1 t2 s2 -> writes (both a b) s (t1 ++ t2) s2.
Proof. intros (l1 & -> & H1) (l2 & -> & H2). exists (l1 ++ l2). split; [reflexivity|]. eapply Lex_app; eassumption. Qed.
Lemma both_assoc a b c : both (both a b) c = both a (both b c).
Proof. destruct a as [a|], b as [b|], c as [c|]; cbn; rewrite <- ?app_assoc; reflexivity. Qed.
Lemma writes_nil s : writes (Some []) s [] s. Proof. apply writes_some, Lex_nil. Qed.
Lemma loop_writes {A} (body : Z -> tval -> option bytes) (f : A -> tval) (g : A -> list token) s (l : list A) : forall i,
  (forall j a, In a l -> writes (body j (f a)) s (g a) s) -> writes (loop body i (map f l)) s (flat_map g l) s.
Proof.
  induction l as [|a l IH]; intros i H; [apply writes_nil|]. cbn [map loop flat_map]. eapply writes_both; [apply H; left; reflexivity|]. apply IH. intros j b Hb. apply H. right. exact Hb.
Qed.
Lemma loop_nth_writes {A} (body : Z -> tval -> option bytes) (x : tval) (g : A -> list token) s (l : list A) : forall i,
  (forall j a, nth_error l j = Some a -> writes (body (i + Z.of_nat j) x) s (g a) s) -> writes (loop body i (repeat x (length l))) s (flat_map g l) s.
Proof.
  induction l as [|a l IH]; intros i H; [apply writes_nil|]. cbn [length repeat loop flat_map]. eapply writes_both; [specialize (H 0%nat a eq_refl); rewrite Z.add_0_r in H; exact H|].
  apply IH. intros j b Hj. specialize (H (S j) b Hj). replace (i + 1 + Z.of_nat j) with (i + Z.of_nat (S j)) by lia. exact H.
Qed.
Definition some {A} (l : list A) : bool := match l with [] => false | _ => true end.
Lemma truth_list {A} (f : A -> tval) (l : list A) : truth (VList (map f l)) = Some (some l). Proof. destruct l; reflexivity. Qed.
Lemma truth_b b : truth (VTruth b) = Some b. Proof. reflexivity. Qed.
Lemma truth_nil : truth (VText []) = Some false. Proof. reflexivity. Qed.

Definition sameb (a b : bytes) : bool := if list_eq_dec Z.eq_dec a b then true else false.
Lemma equal_text a b : equal (VText a) (VText b) = Some (sameb a b). Proof. reflexivity. Qed.
Lemma equal_kind k y : equal (VKind k) (VInt y) = Some (kind_number k =? y). Proof. reflexivity. Qed.
Lemma equal_card m : equal (VCard m) (VInt 3) = Some m. Proof. reflexivity. Qed.
(** ---- Tactics ---- *)
Local Opaque call_of truth equal loop.
Arguments sameb : simpl never.
Arguments equal : simpl never.
Ltac eqs := repeat match goal with |- context [sameb (text ?a) (text ?b)] => let r := eval vm_compute in (sameb (text a) (text b)) in change (sameb (text a) (text b)) with r end.
Arguments text : simpl never.
Arguments call_of : simpl never.
Arguments loop : simpl never.
Arguments zlen : simpl never.
Arguments camel : simpl never.
Arguments type_text : simpl never.
Arguments t_dotted : simpl never.
Arguments run : simpl never.
Arguments both : simpl never.
Arguments truth : simpl never.
Ltac known := first [assumption | reflexivity | apply good_name; known_good]
with known_good := first [assumption | reflexivity | apply good_suffix; [reflexivity|known_good] | apply good_new, good_chars; known_good | rewrite <- app_assoc; known_good].
(** execution of the nodes of a template, up to calls *)
Ltac side := first [exact I|assumption|discriminate].
Ltac step1 :=
  eqs;
  try match goal with |- context [equal (VText _) (VText _)] => rewrite !equal_text end;
  try match goal with |- context [equal (VKind _) _] => rewrite !equal_kind end;
  try match goal with |- context [equal (VCard _) _] => rewrite !equal_card end;
  try match goal with |- context [call_of _ [VFull _]] => rewrite !camel_call end;
  try match goal with |- context [call_of _ [VName _]] => rewrite !camelname_call end;
  try match goal with |- context [call_of _ [VInt (zlen _)]] => rewrite !iterable end;
  try match goal with |- context [truth (VTruth _)] => rewrite !truth_b end;
  try match goal with |- context [truth (VText [])] => rewrite !truth_nil end;
  try match goal with |- context [truth (VList (map _ _))] => rewrite !truth_list end;
  try match goal with |- context [call_of "GetKind" [VKind ?k]] => rewrite !(kind_call k) by side end;
  try match goal with |- context [call_of "GetKind" [VKind ?k]] => rewrite !(kind_call k) by side end;
  try match goal with |- context [call_of "FindValue" [VField ?k]] => rewrite !(find_call k) by side end;
  try match goal with |- context [call_of "FindValue" [VField ?k]] => rewrite !(find_call k) by side end.
Ltac ex1 := step1.
Ltac ex := cbn; repeat (progress ex1; cbn).
(** one piece of text *)
Ltac lex_one name :=
  match goal with
  | H : Lex ?s ?x _ _ |- Lex ?s ?x _ _ => exact H
  | H : forall s, Lex (mklst PNone s false) ?x _ _ |- Lex (mklst PNone _ false) ?x _ _ => exact (H _)
  | |- Lex _ [] _ _ => apply Lex_nil
  | |- Lex _ (_ ++ _) _ _ => eapply Lex_app; [lex_one name|lex_one name]
  | |- Lex (mklst (PWord ?w) _ _) (text ?s) _ _ =>
      let p := eval vm_compute in (let '(a, b) := span (list_ascii_of_string s) in (string_of_list_ascii a, string_of_list_ascii b)) in
      match p with
      | (EmptyString, _) => eapply Lex_flush; [reflexivity|name|lex_lit]
      | (?a, EmptyString) => apply Lex_more; reflexivity
      | (?a, ?b) => change (text s) with (text a ++ text b); eapply Lex_app; [apply Lex_more; reflexivity|eapply Lex_flush; [reflexivity|name|lex_lit]]
      end
  | |- Lex _ (text _) _ _ => lex_lit
  | |- Lex (mklst (PWord _) _ _) _ _ _ => apply Lex_more, name_chars; name
  | |- Lex (mklst PNone _ _) _ _ _ => apply Lex_name; name
  | |- Lex (mklst (POp _) _ _) _ _ _ => apply Lex_name_op; [auto|name]
  end.
Ltac w1 := match goal with
  | |- writes (both (both _ _) _) _ _ _ => rewrite both_assoc
  | |- writes (both (Some _) _) _ _ _ => eapply writes_both; [apply writes_some; lex_one known|]
  | |- writes (Some []) _ _ _ => apply writes_nil
  | |- writes (Some _) _ _ _ => apply writes_some; lex_one known
  end.
Ltac w := repeat w1.
Ltac prog := unfold t_func, error_func, decode_outer_func, decode_func, encode_func, new_func, encode_map_func, decode_map_func, encode_item, decode_item, declare_item, decode_other, decode_slice, decode_element, decode_message, encode_slice, encode_message, encode_value, GoEmit.check, my, encoder, goname.
Ltac names := unfold new_name, map_name, temp, size_name.
Ltac same_tokens := prog; names; cbn; rewrite ?t_ptr, ?t_type_name by known; cbn; rewrite <- ?app_assoc; reflexivity.
Ltac tpl := eapply writes_eq; [ex; w|same_tokens|reflexivity].

Lemma t_error v2 n m d : goodb (camel (m_full m)) = true ->
  writes (RUN v2 (S n) "error" (VMsg m)) (st0 d) ((if d then [semi] else []) ++ t_func v2 (error_func m)) (st0 true).
Proof. intros N. rewrite run_S. destruct v2, d; tpl. Qed.
Lemma t_outer v2 n m d : goodb (camel (m_full m)) = true ->
  writes (RUN v2 (S n) "decode" (VMsg m)) (st0 d) ((if d then [semi] else []) ++ t_func v2 (decode_outer_func v2 m)) (st0 true).
Proof. intros N. rewrite run_S. destruct v2, d; tpl. Qed.
