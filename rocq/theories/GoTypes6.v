(** Generated functions pass the type checker: the decode functions. *)
From Coq Require Import String.
From Verif Require Import Base Spec GenTables GenModel NameModel NameSpec EmitModel EmitSpec EmitThms PkgThms GoAst GoEmit GoRunSpec GoLink GoScope GoSlices GoMsgs GoMaps GoDecode GoTypes GoTypes2 GoTypes3 GoTypes4 GoTypes5.
Local Open Scope list_scope.

(** ---- uses ---- *)
Definition declares (n : bytes) (c : stmt) : bool := match c with Let m _ => same n m | Define ms _ => existsb (same n) ms | _ => false end.
Lemma uses_cons n c l : uses_in n (c :: l) = uses n c || negb (declares n c) && uses_in n l.
Proof. unfold uses_in. cbn [uses_b]. destruct c; reflexivity. Qed.
Lemma uses_nil n : uses_in n [] = false. Proof. reflexivity. Qed.
Lemma uses_app n a b : uses_in n (a ++ b) = uses_in n a || negb (existsb (declares n) a) && uses_in n b.
Proof.
  induction a as [|c a IH]; [reflexivity|]. cbn [app existsb]. rewrite !uses_cons, IH. destruct (uses n c), (declares n c), (uses_in n a), (existsb (declares n) a), (uses_in n b); reflexivity.
Qed.
Lemma declares_flat {A} n (g : A -> list stmt) l : (forall x, In x l -> existsb (declares n) (g x) = false) -> existsb (declares n) (flat_map g l) = false.
Proof. induction l as [|x l IH]; intros H; [reflexivity|]. cbn [flat_map]. rewrite existsb_app, (H x (or_introl eq_refl)). apply IH. intros y Hy. apply H. right. exact Hy. Qed.
Lemma uses_flat {A} n (g : A -> list stmt) l x : (forall x, In x l -> existsb (declares n) (g x) = false) -> In x l -> uses_in n (g x) = true -> uses_in n (flat_map g l) = true.
Proof.
  induction l as [|y l IH]; intros H Hx U; [contradiction|]. cbn [flat_map]. rewrite uses_app, (H y (or_introl eq_refl)). destruct Hx as [->|Hx]; [rewrite U; reflexivity|].
  rewrite (IH (fun z Hz => H z (or_intror Hz)) Hx U), orb_true_r. reflexivity.
Qed.
Lemma check_uses : uses n_err GoEmit.check = true. Proof. reflexivity. Qed.

Section DecodeMap.
Variables (v2 : bool) (f : filed).
Hypothesis NA : names_apart v2 f.
Notation P := (go_program v2 f).
Notation names := (go_names (go_file v2 f)).
Notation ETY := (ety v2 P).
Notation CK := (GoTypes.check v2 P).
Notation clear := (clear v2 f).
Notation C0 := (clear_nil v2 f).
Ltac own := unfold own_var; cbn [In]; auto 10.
Lemma let_ok R n t u l here G : type_of P G t = Some u -> existsb (same n) here = false -> uses_in n l = true -> check_block (CK R) l (n :: here) ((n, u) :: G) = true ->
  check_block (CK R) (Let n t :: l) here G = true.
Proof using Type.
  intros T H U C. cbn [check_block GoTypes.check]. rewrite T. cbn [option_map forallb map fst app]. unfold fresh_use. cbn [fst]. rewrite H, U, C, orb_true_r. reflexivity.
Qed.
Lemma count_ok R i n body G : ETY G n = Some [Basic RU32] -> check_block (CK R) body [] ((i, Basic RU32) :: G) = true -> CK R (Count i n body) G = Some [].
Proof using Type. intros H C. cbn [GoTypes.check]. rewrite H, C. reflexivity. Qed.
Lemma no_lower_own n : no_lower n -> n <> [] -> forall k, own_var k -> n <> k.
Proof using Type.
  clear. intros H N k K. destruct n as [|c t]; [congruence|]. specialize (H c t eq_refl). intros E. rewrite <- E in K. cbn in K.
  repeat (destruct K as [K|K]; [injection K as <- _; discriminate H|]). exact K.
Qed.
Lemma no_lower_pre n : no_lower n -> (forall c t, n = c :: t -> letter c \/ c = 95) -> ~ In n predeclared.
Proof using Type.
  clear. intros H L K. destruct n as [|c t].
  - vm_compute in K. repeat (destruct K as [K|K]; [discriminate K|]). exact K.
  - specialize (H c t eq_refl). specialize (L c t eq_refl). cbn in K. repeat (destruct K as [K|K]; [injection K as <- _; first [discriminate H|unfold letter, lower, upper in L; lia]|]). exact K.
Qed.
Lemma item_declares n k fd : existsb (declares n) (decode_item k fd) = false.
Proof using Type. clear. unfold decode_item. rewrite existsb_app. destruct (_ && _); [|destruct (is_kind _ _)]; reflexivity. Qed.
Lemma item_err k fd : uses_in n_err (decode_item k fd) = true.
Proof using Type. clear. unfold decode_item. rewrite uses_app. change (uses_in n_err [GoEmit.check]) with true. destruct (_ && _); [|destruct (is_kind _ _)]; cbn [existsb declares negb andb orb]; apply orb_true_r. Qed.
Section MapField.
Variables (m : msgd) (fd : fieldd) (kt vt : ftyp).
Hypotheses (HM : has_message f m) (Hin : In fd (m_fields m)) (Et : f_typ fd = TMap kt vt).
Hypotheses (KK : key_kind (kind_of kt) = true) (Nv : vt <> TScalar KGroup) (Nb : vt <> TScalar KBytes).
Definition map_body : list stmt := decode_item n_k (map_key fd kt) ++ decode_item n_v (map_value fd vt) ++ [Assign [Idx (Var n_x) (Var n_k)] (Var n_v)].
Lemma body_uses n : n = n_k \/ n = n_v -> uses_in n map_body = true.
Proof using Type.
  clear. intros H. unfold map_body. rewrite !uses_app, !item_declares. cbn [negb andb]. assert (U : uses_in n [Assign [Idx (Var n_x) (Var n_k)] (Var n_v)] = true) by (destruct H as [->| ->]; reflexivity).
  rewrite U, !orb_true_r. reflexivity.
Qed.
Lemma body_err : uses_in n_err map_body = true.
Proof using Type. clear. unfold map_body. rewrite uses_app, item_err. reflexivity. Qed.
Definition vtemp : bytes := text "ValueTemp".
Lemma temp_value : temp (map_value fd vt) = vtemp. Proof using Type. reflexivity. Qed.
Lemma body_temp : is_kind (kind_of vt) KEnum = true -> uses_in vtemp map_body = true.
Proof using Type.
  clear. intros H. unfold map_body. rewrite !uses_app, !item_declares. cbn [negb andb].
  assert (U : uses_in vtemp (decode_item n_v (map_value fd vt)) = true).
  { unfold decode_item. cbn [map_value f_typ]. apply kind_enum in H. rewrite H. change (String.eqb (entry (go_decodeLUT KEnum)) "" && is_kind KEnum KMessage) with false. change (is_kind KEnum KEnum) with true. cbv iota.
    cbn [app]. rewrite !uses_cons. cbn [uses uses_e existsb declares uses_l]. change (goname _) with (text "Value"). unfold temp. change (goname _) with (text "Value"). change (text "Value" ++ text "Temp") with vtemp. rewrite same_refl. cbn [orb negb andb]. rewrite ?orb_true_r. reflexivity. }
  rewrite U, !orb_true_r. reflexivity.
Qed.
Lemma tail_uses n : own_var n -> n <> n_i -> uses_in n map_body = true -> uses_in n [Count n_i (Var n_size) map_body; Return [NilLit]] = true.
Proof using Type. clear. intros _ N U. rewrite uses_cons. cbn [uses]. unfold uses_in in U. rewrite U, (same_false _ _ N). cbn [negb andb]. rewrite !orb_true_r. reflexivity. Qed.
Theorem decode_map_checks : check_func v2 P (decode_map_func fd kt vt) = true.
Proof using NA HM Hin Et KK Nv Nb.
  destruct (known_kv v2 f NA m fd kt vt HM Hin Et) as (Kk & Kv). pose proof (kt_group v2 f NA m fd kt vt HM Hin Et KK) as Ng.
  unfold check_func. cbn [decode_map_func fn_types fn_result fn_params fn_body map type_written]. fold map_body.
  rewrite (mapn_of v2 f NA m fd kt vt HM Hin Et [] C0), (u32_of v2 f NA [] C0), (error_named v2 f NA [] C0). cbn [all_types option_map length Nat.eqb combine andb].
  set (G := [(n_x, MapN (map_name fd)); (n_d, DecT); (n_size, Basic RU32)]).
  assert (CL : clear G) by (repeat (apply clear_own; [exact NA| |own]); exact C0).
  apply andb_true_iff. split.
  2: { unfold declare_item. destruct (is_kind (kind_of (f_typ (map_key fd kt))) KEnum), (is_kind (kind_of (f_typ (map_value fd vt))) KEnum); reflexivity. }
  assert (B0 : CK [ErrT] (If (Eq (Var n_size) (Num 0)) [Return [NilLit]] []) G = Some []) by reflexivity.
  cbn [app check_block]. rewrite B0. cbn [forallb map app andb].
  destruct (kt_scalar v2 f NA m fd kt vt HM Hin Et KK) as (k & q & Ek & Q & _ & Nkb & Nke & _).
  assert (EK : is_kind (kind_of (f_typ (map_key fd kt))) KEnum = false) by (cbn [map_key f_typ]; rewrite Ek; cbn [kind_of]; destruct k; try reflexivity; congruence).
  unfold declare_item at 1. rewrite EK. cbn [app].
  (* the loop *)
  assert (LOOP : forall G', clear G' -> find_name n_x G' = Some (MapN (map_name fd)) -> find_name n_d G' = Some DecT -> find_name n_size G' = Some (Basic RU32) -> find_name n_k G' = Some (tyof kt) ->
    find_name n_v G' = Some (tyof vt) -> (is_kind (kind_of vt) KEnum = true -> find_name vtemp G' = Some (Basic RU32)) -> forall here, existsb (same n_err) here = false ->
    check_block (CK [ErrT]) [Let n_err (text "error"); Count n_i (Var n_size) map_body; Return [NilLit]] here G' = true).
  { intros G' CL' X D S K V T here Hh. apply (let_ok _ _ _ ErrT); [exact (error_named v2 f NA G' CL')|exact Hh|apply tail_uses; [own|ne|apply body_err]|].
    apply block_all. constructor; [|constructor; [reflexivity|constructor]]. apply count_ok; [apply var_ty; cbn [find_name]; rewrite same_false by ne; exact S|].
    set (G2 := (n_i, Basic RU32) :: (n_err, ErrT) :: G').
    assert (CL2 : clear G2) by (repeat (apply clear_own; [exact NA| |own]); exact CL').
    assert (O : forall n t, find_name n G' = Some t -> n <> n_i -> n <> n_err -> find_name n G2 = Some t) by (intros n t H N1 N2; cbn [G2 find_name]; rewrite !same_false by assumption; exact H).
    assert (OE : find_name n_err G2 = Some ErrT) by reflexivity.
    apply block_all. unfold map_body. apply Forall_app. split; [|apply Forall_app; split; [|constructor; [|constructor]]].
    - apply (decode_item_ok v2 f NA G2 CL2 (O _ _ D ltac:(ne) ltac:(ne)) OE n_k (map_key fd kt) kt eq_refl eq_refl Kk Ng); [rewrite Ek; congruence|apply O; [exact K|ne|ne]|].
      intros H. cbn [map_key f_typ] in EK. congruence.
    - apply (decode_item_ok v2 f NA G2 CL2 (O _ _ D ltac:(ne) ltac:(ne)) OE n_v (map_value fd vt) vt eq_refl eq_refl Kv Nv Nb); [apply O; [exact V|ne|ne]|].
      intros H. rewrite temp_value. apply O; [exact (T H)|ne|ne].
    - apply (store_ok v2 f NA m fd kt vt HM Hin Et KK Nv G2 (O _ _ X ltac:(ne) ltac:(ne)) (O _ _ K ltac:(ne) ltac:(ne)) (O _ _ V ltac:(ne) ltac:(ne))). }
  set (TL := [Let n_err (text "error"); Count n_i (Var n_size) map_body; Return [NilLit]]) in *.
  assert (UT : forall n, own_var n -> n <> n_err -> n <> n_i -> uses_in n map_body = true -> uses_in n TL = true).
  { intros n O N1 N2 U. unfold TL. rewrite uses_cons. cbn [uses declares]. rewrite (same_false _ _ N1). cbn [negb andb orb]. apply tail_uses; assumption. }
  change (type_text (map_key fd kt)) with (type_text (map_key fd kt)).
  apply (let_ok _ n_k _ (tyof kt)); [exact (key_of v2 f NA m fd kt vt HM Hin Et Ng G CL)|reflexivity| |].
  { rewrite uses_app. replace (existsb (declares n_k) (declare_item n_v (map_value fd vt))) with false by (unfold declare_item; cbn [existsb declares]; destruct (is_kind (kind_of (f_typ (map_value fd vt))) KEnum); vm_compute; reflexivity). cbn [negb andb].
    rewrite UT; [apply orb_true_r|own|ne|ne|apply body_uses; auto]. }
  set (G1 := (n_k, tyof kt) :: G). assert (CL1 : clear G1) by (apply clear_own; [exact NA|exact CL|own]).
  unfold declare_item. cbn [map_value f_typ app]. fold (map_value fd vt).
  apply (let_ok _ n_v _ (tyof vt)); [exact (value_of v2 f NA m fd kt vt HM Hin Et Nv G1 CL1)|reflexivity| |].
  { rewrite uses_app. replace (existsb (declares n_v) (if is_kind (kind_of vt) KEnum then [Let (temp (map_value fd vt)) n_u32] else [])) with false by (destruct (is_kind (kind_of vt) KEnum); vm_compute; reflexivity). cbn [negb andb].
    rewrite UT; [apply orb_true_r|own|ne|ne|apply body_uses; auto]. }
  set (G2 := (n_v, tyof vt) :: G1). assert (CL2 : clear G2) by (apply clear_own; [exact NA|exact CL1|own]).
  destruct (is_kind (kind_of vt) KEnum) eqn:EV.
  - cbn [app]. rewrite temp_value. apply (let_ok _ vtemp _ (Basic RU32)); [exact (u32_of v2 f NA G2 CL2)|reflexivity| |].
    + unfold TL. rewrite uses_cons. cbn [uses declares]. rewrite (same_false vtemp n_err) by ne. cbn [negb andb orb]. rewrite uses_cons. cbn [uses]. pose proof (body_temp EV) as U. unfold uses_in in U.
      rewrite U, (same_false vtemp n_i) by ne. cbn [negb andb]. rewrite !orb_true_r. reflexivity.
    + apply LOOP; try reflexivity. apply clear_cons; [exact CL2| |intros H; vm_compute in H; repeat (destruct H as [H|H]; [discriminate H|]); exact H].
      destruct (enum_kind f vt Kv EV) as (s & ->). exact (na_value _ _ NA m fd kt s HM Hin Et).
  - cbn [app]. apply LOOP; try reflexivity; [exact CL2|discriminate].
Qed.
End MapField.
End DecodeMap.
