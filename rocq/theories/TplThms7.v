(** structs.templ, enums.templ: what they write. *)
From Coq Require Import String Ascii.
From Verif Require Import Base Spec GenTables NameModel NameSpec EmitModel EmitSpec EmitThms GoAst GoEmit TplText TplModel TplGo TplExec GoLex GoLexThms TplThms TplThms2 TplThms3.
Local Open Scope list_scope.

(** numbers *)
Lemma digits_ok fuel : forall z, 0 <= z -> (0 < fuel)%nat -> exists c t, digits fuel z = c :: t /\ digitb c = true /\ forallb digitb t = true.
Proof.
  induction fuel as [|fuel IH]; intros z Hz Hf; [lia|]. cbn [digits]. assert (D : digitb (48 + z mod 10) = true) by (unfold digitb; assert (0 <= z mod 10 < 10) by (apply Z.mod_pos_bound; lia); lia).
  destruct (Z.ltb_spec z 10); [exists (48 + z mod 10), []; auto|]. destruct fuel as [|fuel].
  - exists (48 + z mod 10), []. auto.
  - destruct (IH (z / 10)) as (c & t & E & H1 & H2); [apply Z.div_pos; lia|lia|]. rewrite E. exists c, (t ++ [48 + z mod 10]). split; [reflexivity|]. split; [exact H1|]. rewrite forallb_app, H2. cbn [forallb]. rewrite D. reflexivity.
Qed.
Lemma Lex_int z t d : 0 <= z -> Lex (mklst PNone t d) (show_int z) [] (mklst (PNum (show_int z)) t d).
Proof.
  intros Hz. unfold show_int. destruct (Z.ltb_spec z 0); [lia|]. destruct (digits_ok 70 z Hz ltac:(lia)) as (c & x & -> & H1 & H2).
  assert (M : forall w x, forallb digitb x = true -> Lex (mklst (PNum w) t d) x [] (mklst (PNum (w ++ x)) t d)).
  { intros w y. revert w. induction y as [|a y IH]; intros w Hy; [rewrite app_nil_r; reflexivity|]. cbn [forallb] in Hy. apply andb_true_iff in Hy. destruct Hy as (Ha & Hy). unfold Lex. cbn [lex]. unfold step. cbn [l_part l_semi l_due].
    unfold wordb. rewrite Ha, orb_true_r. unfold next. specialize (IH (w ++ [a]) Hy). unfold Lex in IH. rewrite IH. cbn [app]. rewrite <- app_assoc. reflexivity. }
  unfold Lex. cbn [lex]. unfold step. cbn [l_part]. unfold fresh.
  assert (E : (c =? 10) = false /\ ((c =? 32) || (c =? 9) || (c =? 13)) = false /\ letterb c = false) by (unfold digitb in H1; unfold letterb; repeat split; lia). destruct E as (-> & -> & ->). rewrite H1. cbn [l_semi l_due]. unfold next.
  specialize (M [c] x H2). unfold Lex in M. rewrite M. reflexivity.
Qed.
Lemma Lex_close z t d ts s' rest : Lex (mklst PNone true false) (41 :: rest) ts s' -> Lex (mklst (PNum (show_int z)) t d) (41 :: rest) ((if d then [semi; Lit (show_int z)] else [Lit (show_int z)]) ++ ts) s'.
Proof.
  unfold Lex. cbn [lex]. unfold step. cbn [l_part]. change (wordb 41) with false. cbn iota. unfold put. cbn [l_due closes negb]. rewrite andb_true_r. cbn [ends_line]. unfold next. destruct (fresh (mklst PNone true false) 41) as (t1 & s1). destruct (lex s1 rest) as (t2 & s2).
  intros H. injection H as <- <-. destruct d; reflexivity.
Qed.
Local Opaque call_of truth equal loop show_int.

(** constants of an enum: the index of the loop is the number *)
Fixpoint t_consts (d : bool) (e : bytes) (i : Z) (l : list evald) : list token :=
  match l with [] => [] | v :: l => (if d then [semi] else []) ++ [Id (camel (v_full v)); op "="; Id e; op "("; Lit (show_int i); op ")"] ++ t_consts true e (i + 1) l end.
Lemma consts_loop (body : Z -> tval -> option bytes) e l : forall i d, 0 <= i ->
  (forall j d v, nth_error l j = Some v -> writes (body (i + Z.of_nat j) VStruct) (st0 d) ((if d then [semi] else []) ++ [Id (camel (v_full v)); op "="; Id e; op "("; Lit (show_int (i + Z.of_nat j)); op ")"]) (st0 true)) ->
  writes (loop body i (repeat VStruct (length l))) (st0 d) (t_consts d e i l) (st0 (after d l)).
Proof.
  induction l as [|v l IH]; intros i d Hi H; [apply writes_nil|]. cbn [length repeat t_consts after]. change (loop body i (VStruct :: repeat VStruct (length l))) with (both (body i VStruct) (loop body (i + 1) (repeat VStruct (length l)))).
  rewrite app_assoc. eapply writes_both; [specialize (H 0%nat d v eq_refl); rewrite Z.add_0_r in H; exact H|]. specialize (IH (i + 1) true ltac:(lia)). assert (A : after true l = true) by (destruct l; reflexivity). rewrite A in IH. apply IH.
  intros j d' v' Hj. specialize (H (S j) d' v' Hj). replace (i + 1 + Z.of_nat j) with (i + Z.of_nat (S j)) by lia. exact H.
Qed.
Lemma consts_tokens v2 e l : forall i d, t_decls v2 (Some d) (map (fun iv => DConst (camel (v_full (snd iv))) e (fst iv)) (numbered i l)) = t_consts d e i l ++ [op ")"].
Proof. induction l as [|v l IH]; intros i d; [reflexivity|]. cbn [numbered map t_decls t_consts]. rewrite IH. destruct d; reflexivity. Qed.
Ltac const_item NV v Hj d :=
  rewrite (at_nth _ _ _ Hj); assert (GV := NV v (nth_error_In _ _ Hj)); cbn [option_map];
  match goal with |- context [show_int ?z] => generalize (Lex_int z); let Q := fresh in assert (Q : 0 <= z) by lia; intros LI0; assert (LI := fun s => LI0 s false Q); clear LI0;
    assert (LC : Lex (mklst (PNum (show_int z)) false false) (text ")
") ([Lit (show_int z)] ++ [op ")"]) (st0 true)) by (apply (Lex_close z false false); lex_lit); set (i := show_int z) in * end;
  unfold st0; destruct d; eapply writes_eq; [ex; w|reflexivity|reflexivity|ex; w|reflexivity|reflexivity].
Lemma t_enum v2 n e : goodb (camel (e_full e)) = true -> (forall v, In v (e_values e) -> goodb (camel (v_full v)) = true) ->
  writes (RUN v2 (S n) "enum" (VEnum e)) (st0 true) (t_decls v2 None (enum_decls e)) (st0 true).
Proof.
  intros N NV. rewrite run_S. 
  assert (T : t_decls v2 None (enum_decls e) = [semi; id "type"; Id (camel (e_full e)); id "uint32"; semi; id "const"; op "("] ++ t_consts false (camel (e_full e)) 0 (e_values e) ++ [op ")"]).
  { unfold enum_decls. rewrite <- (consts_tokens v2). destruct v2; reflexivity. }
  rewrite T. clear T.
  assert (LE : forall d, Lex (st0 d) (text ")
") [op ")"] (st0 true)) by (intros []; lex_lit).
  destruct v2; (eapply writes_eq; [ex; w; [eapply writes_both; [apply (consts_loop _ (camel (e_full e))); [lia|intros j d v Hj; const_item NV v Hj d]|eapply writes_both; [apply writes_some, LE|w]]]|cbn [app]; reflexivity|reflexivity]).
Qed.

(** getFunc *)
Lemma new_tokens v2 m : nameb (camel (m_full m)) = true ->
  t_func v2 (new_func v2 m) =
  [id "func"; Id (text "New" ++ camel (m_full m)); op "("; op ")"; op "*"; Id (camel (m_full m)); op "{"; id "return"; op "&"; Id (camel (m_full m)); op "{"] ++
  (if v2 then [] else flat_map (fun fd => flat_map (fun f => Id (fst f) :: op ":" :: t_expr (snd f) ++ [op ","])
     (if is_kind (kind_of (f_typ fd)) KMessage && negb (f_many fd) then [(goname fd, App (new_name (message_of fd)) [])] else [])) (m_fields m)) ++ [op "}"; op "}"].
Proof.
  intros N. unfold t_func, new_func. cbn [fn_recv fn_params fn_types fn_result fn_name fn_body combine map t_result t_sig commas]. rewrite t_ptr by exact N.
  unfold braces. cbn [t_block t_stmt map commas t_expr app]. destruct v2; [reflexivity|]. unfold new_name at 1. unfold parens. cbn [app]. rewrite <- !app_assoc. cbn [app].
  assert (E : forall (f : bytes * expr -> list token) (h : fieldd -> list (bytes * expr)) l, flat_map f (flat_map h l) = flat_map (fun a => flat_map f (h a)) l) by (intros f h l; induction l as [|a l IH]; [reflexivity|]; cbn [flat_map]; rewrite flat_map_app, IH; reflexivity).
  rewrite E. reflexivity.
Qed.
Ltac new_item F fd Hj :=
  let Nf := fresh in let Ht := fresh in destruct (F fd (nth_error_In _ _ Hj)) as (Nf & Ht); clear F Hj; unfold goname in *; destruct fd as [nm fu many t]; cbn [f_typ f_name f_full f_many] in *; unfold st0;
  destruct t as [k|e|e|k v]; [cbn in Ht; destruct Ht as (? & ? & ?); destruct k; try congruence; tpl|tpl|destruct many; cbn in Ht; tpl|let M := fresh in destruct Ht as (M & _); rewrite M; tpl].
Lemma t_new v2 n m : goodb (camel (m_full m)) = true -> Forall ffine (m_fields m) ->
  writes (RUN v2 (S n) "getFunc" (VMsg m)) (st0 true) (semi :: t_func v2 (new_func v2 m)) (st0 true).
Proof.
  intros N F. rewrite run_S. rewrite new_tokens by known. destruct v2.
  - eapply writes_eq; [ex; w|rewrite <- ?app_assoc; reflexivity|reflexivity].
  - rewrite Forall_forall in F. eapply writes_eq; [ex; w; [eapply writes_both; [apply (loop_nth_writes _ VStruct (fun fd => flat_map (fun f => Id (fst f) :: op ":" :: t_expr (snd f) ++ [op ","])
      (if is_kind (kind_of (f_typ fd)) KMessage && negb (f_many fd) then [(goname fd, App (new_name (message_of fd)) [])] else [])) (st0 false) (m_fields m)); intros j fd Hj; rewrite (at_nth _ _ _ Hj); cbn [option_map]; new_item F fd Hj|w]]| |reflexivity].
    rewrite <- ?app_assoc. reflexivity.
Qed.
(** the fields of a struct *)
Lemma fields_loop (body : Z -> tval -> option bytes) l : forall i d,
  (forall j d fd, nth_error l j = Some fd -> writes (body (i + Z.of_nat j) VStruct) (st0 d) ((if d then [semi] else []) ++ Id (goname fd) :: t_type (type_text fd)) (st0 true)) ->
  writes (loop body i (repeat VStruct (length l))) (st0 d) (t_fields d (map (fun fd => (goname fd, type_text fd)) l)) (st0 (after d l)).
Proof.
  induction l as [|v l IH]; intros i d H; [apply writes_nil|]. cbn [length repeat map t_fields after]. change (loop body i (VStruct :: repeat VStruct (length l))) with (both (body i VStruct) (loop body (i + 1) (repeat VStruct (length l)))).
  eapply writes_eq; [eapply writes_both; [specialize (H 0%nat d v eq_refl); rewrite Z.add_0_r in H; exact H|]| |].
  - specialize (IH (i + 1) true). apply IH. intros j d' v' Hj. specialize (H (S j) d' v' Hj). replace (i + 1 + Z.of_nat j) with (i + Z.of_nat (S j)) by lia. exact H.
  - rewrite <- app_assoc. reflexivity.
  - destruct l; reflexivity.
Qed.
