(** structs.templ: what "structs" writes. *)
From Coq Require Import String Ascii.
From Verif Require Import Base Spec GenTables NameModel NameSpec EmitModel EmitSpec EmitThms GoAst GoEmit TplText TplModel TplGo TplExec GoLex GoLexThms TplThms TplThms2 TplThms3 TplThms4 TplThms5 TplThms6 TplThms7 TplSpec.
Local Open Scope list_scope.

(** declarations one after the other *)
Definition opens (l : list decl) : bool := match l with DConst _ _ _ :: _ => false | _ => true end.
Lemma decls_app v2 a b : opens b = true -> forall g, t_decls v2 g (a ++ b) = t_decls v2 g a ++ t_decls v2 None b.
Proof.
  intros O. induction a as [|d a IH]; intros g.
  - cbn [app]. destruct b as [|d b]; [rewrite app_nil_r; reflexivity|]. destruct d; try discriminate O; destruct g; reflexivity.
  - cbn [app t_decls]. destruct d; rewrite IH, <- ?app_assoc; cbn [app]; rewrite <- ?app_assoc; reflexivity.
Qed.
Lemma opens_flat {A} (f : A -> list decl) (l : list A) : (forall a, In a l -> opens (f a) = true) -> opens (flat_map f l) = true.
Proof.
  induction l as [|a l IH]; intros H; [reflexivity|]. cbn [flat_map]. specialize (H a (or_introl eq_refl)) as Ha. destruct (f a); [apply IH; intros x Hx; apply H; right; exact Hx|exact Ha].
Qed.
Lemma decls_flat v2 {A} (f : A -> list decl) (l : list A) : (forall a, In a l -> opens (f a) = true) -> t_decls v2 None (flat_map f l) = flat_map (fun a => t_decls v2 None (f a)) l.
Proof.
  induction l as [|a l IH]; intros H; [reflexivity|]. cbn [flat_map]. rewrite decls_app by (apply opens_flat; intros x Hx; apply H; right; exact Hx). rewrite IH by (intros x Hx; apply H; right; exact Hx). reflexivity.
Qed.
Lemma opens_app a b : opens a = true -> opens b = true -> opens (a ++ b) = true. Proof. destruct a as [|[] a]; auto. Qed.
Lemma opens_map fd : opens (map_decls fd) = true. Proof. unfold map_decls. destruct (f_typ fd); reflexivity. Qed.
Lemma opens_struct v2 m : opens (struct_decls v2 m) = true.
Proof. unfold struct_decls. apply opens_app; [|reflexivity]. apply opens_flat. intros fd _. apply opens_map. Qed.
Lemma opens_enum e : opens (enum_decls e) = true. Proof. reflexivity. Qed.
Lemma opens_structs v2 : forall m, opens (structs (struct_decls v2) m) = true.
Proof.
  fix IH 1. intros [full entry fields enums nested]. cbn [structs]. apply opens_app; [|apply opens_struct]. induction nested as [|n nested IHn]; [reflexivity|]. cbn [flat_map]. apply opens_app; [destruct (m_entry n); [reflexivity|apply IH]|exact IHn].
Qed.
Local Opaque call_of truth equal loop show_int.

(** a map field: structs.templ 8-22 *)
Lemma map_tokens v2 fd k v : f_typ fd = TMap k v -> nameb (map_name fd) = true ->
  t_decls v2 None (map_decls fd) =
  let kt := t_type (type_text (map_key fd k)) in let vt := t_type (type_text (map_value fd v)) in
  [semi; id "type"; Id (map_name fd); id "map"; op "["] ++ kt ++ op "]" :: vt ++
  [semi; id "func"; Id (text "New" ++ map_name fd); op "("; id "size"; id "uint32"; op ")"; id "map"; op "["] ++ kt ++ op "]" :: vt ++
  [op "{"; id "return"; id "make"; op "("; id "map"; op "["] ++ kt ++ op "]" :: vt ++ [op ","; id "size"; op ")"; op "}"] ++
  (semi :: t_func v2 (encode_map_func fd k v)) ++ semi :: t_func v2 (decode_map_func fd k v).
Proof.
  intros E N. unfold map_decls. rewrite E. cbn [t_decls t_decl app]. rewrite !app_nil_r. unfold t_func at 1. cbn [fn_recv fn_params fn_types fn_result fn_name fn_body combine map t_result t_sig commas t_param fst snd].
  unfold new_name, braces, parens. cbn [t_block t_stmt map commas t_expr]. unfold parens. cbn [t_param t_type]. repeat (progress (rewrite <- ?app_assoc; cbn [app])). cbv zeta. repeat (progress (rewrite <- ?app_assoc; cbn [app])). reflexivity.
Qed.
Lemma custom_call : call_of "CustomFields" [] = Some (VText []). Proof. reflexivity. Qed.
Ltac struct_field fd Hj F :=
  let Q := fresh in assert (Q : ffine fd) by (rewrite Forall_forall in F; exact (F fd (nth_error_In _ _ Hj))); rewrite (at_nth _ _ _ Hj); cbn [option_map]; clear Hj F;
  let S1 := fresh in assert (S1 := ffine_kindly _ Q); let p := fresh "p" in let w0 := fresh "w0" in let Nt := fresh in let Et := fresh "Et" in let lt := fresh in let Lt := fresh in
  destruct (type_typed _ Q) as (p & w0 & Nt & Et & lt & Lt); let G := fresh in assert (G := proj1 Q); unfold goname in *; rewrite Et;
  match goal with d : bool |- _ => unfold st0; destruct d; (eapply writes_eq; [ex; w|repeat (progress (rewrite <- ?app_assoc; cbn [app])); rewrite ?app_nil_r; reflexivity|reflexivity]) end.
Ltac mapped b n fd Hj F :=
  let Q := fresh in assert (Q : ffine fd) by (rewrite Forall_forall in F; exact (F fd (nth_error_In _ _ Hj))); rewrite (at_nth _ _ _ Hj); cbn [option_map]; clear Hj F; unfold st0;
  destruct fd as [nm fu many t]; destruct t as [k|s|s|k v];
  [eapply writes_eq; [ex; w|reflexivity|reflexivity]|eapply writes_eq; [ex; w|reflexivity|reflexivity]|eapply writes_eq; [ex; w|reflexivity|reflexivity]|
   let K := fresh in let V := fresh in let pk := fresh "pk" in let wk := fresh "wk" in let pv := fresh "pv" in let wv := fresh "wv" in let Nk := fresh in let Ek := fresh "Ek" in let lk := fresh in let Lk := fresh in
   let Nv := fresh in let Ev := fresh "Ev" in let lv := fresh in let Lv := fresh in
   destruct (map_fine _ _ _ _ _ Q) as (K & V); destruct (type_typed _ K) as (pk & wk & Nk & Ek & lk & Lk); destruct (type_typed _ V) as (pv & wv & Nv & Ev & lv & Lv);
   let M := fresh in let G := fresh in let kk := fresh in let KK := fresh in let VV := fresh in destruct Q as (_ & (M & G & (kk & -> & KK) & VV)); cbn [f_many f_full] in M, G; subst many;
   let S1 := fresh in let S2 := fresh in assert (S1 := ffine_kindly _ K); assert (S2 := ffine_kindly _ V);
   rewrite (map_tokens _ (mkfield nm fu true (TMap (TScalar kk) v)) (TScalar kk) v eq_refl) by (unfold map_name; cbn [f_full]; known); cbv zeta; rewrite Ek, Ev; unfold map_key, map_value, map_name in *; cbn [f_full f_name f_typ] in *;
   eapply writes_eq; [ex; w; [eapply writes_both; [apply (t_encodeMap b (S n) nm fu kk v); assumption|w]; [eapply writes_both; [apply (t_decodeMap b (S n) nm fu kk v); assumption|w]]]|
     rewrite ?app_nil_r; repeat (progress (rewrite <- ?app_assoc; cbn [app])); rewrite ?app_nil_r; reflexivity|reflexivity]].
Ltac structs_ b n m N F IH :=
  let LE := fresh in assert (LE : forall d, Lex (st0 d) (text "}

    ") [op "}"] (st0 true)) by (intros []; lex_lit);
  eapply writes_eq; [ex; w;
   [eapply writes_both; [apply (loop_nth_writes _ VStruct (fun a => if m_entry a then [] else t_decls b None (structs (struct_decls b) a)) (st0 true) (m_nested m));
      let j := fresh "j" in let a := fresh "a" in let Hj := fresh "Hj" in intros j a Hj; rewrite (at_nth _ _ _ Hj); cbn [option_map]; specialize (IH a (nth_error_In _ _ Hj)); clear Hj; unfold st0; ex;
      destruct (m_entry a); cbn [negb]; [eapply writes_eq; [ex; w|reflexivity|reflexivity]|specialize (IH eq_refl); eapply writes_eq; [ex; w; [eapply writes_both; [exact IH|w]]|rewrite ?app_nil_r; reflexivity|reflexivity]] |w];
    [eapply writes_both; [apply (loop_nth_writes _ VStruct (fun fd => t_decls b None (map_decls fd)) (st0 true) (m_fields m));
      let j := fresh "j" in let fd := fresh "fd" in let Hj := fresh "Hj" in intros j fd Hj; mapped b n fd Hj F |w];
     [rewrite custom_call; cbn [show]; w; eapply writes_both; [apply (fields_loop _ (m_fields m) 0 false); let j := fresh "j" in let d := fresh "d" in let fd := fresh "fd" in let Hj := fresh "Hj" in intros j d fd Hj; struct_field fd Hj F|];
      eapply writes_both; [apply writes_some, LE|]; eapply writes_both; [apply (t_new b (S n)); assumption|w]; [
      eapply writes_both; [apply (t_error b (S n) m true); assumption|w]; [
      eapply writes_both; [apply (t_encode b n); assumption|w]; [
      eapply writes_both; [apply (t_outer b (S n) m true); assumption|w]; [
      eapply writes_both; [apply (t_internal b (S n)); assumption|w]]]]]]]] | |].
Lemma structs_eq {D} (f : msgd -> list D) m : structs f m = flat_map (fun n => if m_entry n then [] else structs f n) (m_nested m) ++ f m. Proof. destruct m; reflexivity. Qed.
Lemma structs_tokens v2 m : t_decls v2 None (structs (struct_decls v2) m) =
  flat_map (fun a => if m_entry a then [] else t_decls v2 None (structs (struct_decls v2) a)) (m_nested m) ++ flat_map (fun fd => t_decls v2 None (map_decls fd)) (m_fields m) ++
  [semi; id "type"; Id (camel (m_full m)); id "struct"; op "{"] ++ t_fields false (map (fun fd => (goname fd, type_text fd)) (m_fields m)) ++ [op "}"] ++
  (semi :: t_func v2 (new_func v2 m)) ++ (semi :: t_func v2 (error_func m)) ++ (semi :: t_func v2 (encode_func m)) ++ (semi :: t_func v2 (decode_outer_func v2 m)) ++ semi :: t_func v2 (decode_func v2 m).
Proof.
  rewrite structs_eq, decls_app by apply opens_struct. rewrite decls_flat by (intros a _; destruct (m_entry a); [reflexivity|apply opens_structs]). f_equal.
  - apply flat_map_ext. intros a. destruct (m_entry a); reflexivity.
  - unfold struct_decls. rewrite decls_app by reflexivity. rewrite decls_flat by (intros fd _; apply opens_map). f_equal. cbn [t_decls t_decl]. repeat (progress (rewrite <- ?app_assoc; cbn [app])). rewrite app_nil_r. reflexivity.
Qed.
Lemma t_structs1 v2 n m : goodb (camel (m_full m)) = true -> Forall ffine (m_fields m) ->
  (forall a, In a (m_nested m) -> m_entry a = false -> writes (RUN v2 (S (S n)) "structs" (VMsg a)) (st0 true) (t_decls v2 None (structs (struct_decls v2) a)) (st0 true)) ->
  writes (RUN v2 (S (S (S n))) "structs" (VMsg m)) (st0 true) (t_decls v2 None (structs (struct_decls v2) m)) (st0 true).
Proof.
  intros N F IH. rewrite run_S. rewrite structs_tokens. destruct v2.
  - structs_ true n m N F IH; [cbn [app]; rewrite ?app_nil_r; repeat (progress (rewrite <- ?app_assoc; cbn [app])); reflexivity|reflexivity].
  - structs_ false n m N F IH; [cbn [app]; rewrite ?app_nil_r; repeat (progress (rewrite <- ?app_assoc; cbn [app])); reflexivity|reflexivity].
Qed.
Lemma height_nested m a : In a (m_nested m) -> (height a < height m)%nat.
Proof.
  destruct m as [fu en fs es l]. cbn [m_nested height]. intros H. assert (L : (height a <= list_max (map height l))%nat); [|lia].
  assert (A := proj1 (list_max_le (map height l) (list_max (map height l))) (Nat.le_refl _)). rewrite Forall_forall in A. apply A, in_map, H.
Qed.
Definition mfine (m : msgd) : Prop := goodb (camel (m_full m)) = true /\ Forall ffine (m_fields m).
Lemma t_structs v2 h : forall m n, (height m <= h)%nat -> (forall k, inside m k -> mfine k) ->
  writes (RUN v2 (S (S (h + n))) "structs" (VMsg m)) (st0 true) (t_decls v2 None (structs (struct_decls v2) m)) (st0 true).
Proof.
  induction h as [|h IH]; intros m n Hh H; [destruct m; cbn in Hh; lia|]. destruct (H m (inside_self m)) as (H1 & H2). cbn [Nat.add]. apply t_structs1; [exact H1|exact H2|].
  intros a Ha Ea. apply IH; [assert (L := height_nested _ _ Ha); lia|]. intros k Hk. apply H. exact (inside_nested _ _ _ Ha Ea Hk).
Qed.
