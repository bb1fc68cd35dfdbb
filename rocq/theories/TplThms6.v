(** decodeMap.templ: what it writes. *)
From Coq Require Import String Ascii.
From Verif Require Import Base Spec GenTables NameModel NameSpec EmitModel EmitSpec EmitThms GoAst GoEmit TplText TplModel TplGo TplExec GoLex GoLexThms TplThms TplThms2 TplThms3.
Local Open Scope list_scope.
Local Opaque call_of truth equal loop.
Arguments go_encodeLUT : simpl nomatch.
Arguments go_decodeLUT : simpl nomatch.
Arguments kind_number : simpl nomatch.

Lemma decode_map_tokens v2 fd k v pk wk pv wv : nameb (map_name fd) = true -> is_kind k KEnum = false ->
  t_type (type_text (map_key fd (TScalar k))) = pk ++ [Id wk] -> t_type (type_text (map_value fd v)) = pv ++ [Id wv] ->
  t_func v2 (decode_map_func fd (TScalar k) v) =
  [id "func"; op "("; id "x"; Id (map_name fd); op ")"; id "decode"; op "("; id "d"; op "*"; id "polyglot"; op "."; id (if v2 then "BufferDecoder" else "Decoder"); op ","; id "size"; id "uint32"; op ")"; id "error"; op "{";
   id "if"; id "size"; op "=="; Lit [48]; op "{"; id "return"; id "nil"; op "}"; semi; id "var"; id "k"] ++ pk ++ [Id wk; semi; id "var"; id "v"] ++ pv ++ [Id wv] ++
  t_block t_stmt true (if is_kind (kind_of v) KEnum then [Let (text "ValueTemp") n_u32] else []) ++
  [semi; id "var"; id "err"; id "error"; semi; id "for"; id "i"; op ":="; id "uint32"; op "("; Lit [48]; op ")"; semi; id "i"; op "<"; id "size"; semi; id "i"; op "++"; op "{"] ++
  t_block t_stmt false (decode_item n_k (map_key fd (TScalar k))) ++ t_block t_stmt true (decode_item n_v (map_value fd v)) ++
  [semi; id "x"; op "["; id "k"; op "]"; op "="; id "v"; op "}"; semi; id "return"; id "nil"; op "}"].
Proof.
  intros N NE T1 T2. assert (C : forall n f, decode_item n f <> []) by (intros n f; unfold decode_item; intros E; apply app_eq_nil in E; destruct E as (_ & E); discriminate E).
  assert (C1 := C n_k (map_key fd (TScalar k))). unfold t_func, decode_map_func. revert C1. generalize (decode_item n_k (map_key fd (TScalar k))) (decode_item n_v (map_value fd v)). intros i1 i2 C1.
  unfold declare_item. change (f_typ (map_key fd (TScalar k))) with (TScalar k). change (f_typ (map_value fd v)) with v. cbn [kind_of]. rewrite NE. change (temp (map_value fd v)) with (text "ValueTemp").
  cbn [fn_recv fn_params fn_types fn_result fn_name fn_body combine map]. unfold t_param, braces.
  cbn [fst snd t_sig t_stmt t_block t_expr map commas app]. rewrite (t_type_name (map_name fd)) by exact N. rewrite T1, T2. cbn [t_block]. rewrite block_app. cbn [t_block t_stmt t_type].
  unfold braces. rewrite !block_app2. assert (A : after (after false i1) i2 = true) by (destruct i1; [congruence|destruct i2; reflexivity]). rewrite A. assert (A' : after false i1 = true) by (destruct i1; [congruence|reflexivity]). rewrite A'.
  destruct v2; repeat (progress (unfold braces, parens; cbn [t_block t_stmt t_expr encoder map commas app]; rewrite <- ?app_assoc)); reflexivity.
Qed.
Definition core (n : bytes) (fd : fieldd) : list stmt :=
  let k := kind_of (f_typ fd) in
  let dec := entry (go_decodeLUT k) in
  if String.eqb dec "" && is_kind k KMessage then
     [Assign [Var n] (App (new_name (message_of fd)) []); Assign [Var n_err] (Met (Var n) ".decode" [Var n_d])]
   else if is_kind k KEnum then
     [Assign [Var (temp fd); Var n_err] (Met (Var n_d) dec []); Assign [Var n] (App (type_text fd) [Var (temp fd)])]
   else [Assign [Var n; Var n_err] (Met (Var n_d) dec [])].
Lemma item_core n fd : decode_item n fd = core n fd ++ [check]. Proof. reflexivity. Qed.
Lemma enum_text fd s : f_typ fd = TEnum s -> f_many fd = false -> type_text fd = camel s.
Proof. intros E M. unfold type_text, FindValue. rewrite E, M, camel_ok. reflexivity. Qed.
Ltac enum_is s := repeat match goal with |- context [type_text ?f] => rewrite (enum_text f s eq_refl eq_refl) end.
Ltac enum_value V s := cbn in V; eapply writes_eq; [ex; enum_is s; w|enum_is s; same_tokens|reflexivity].
Lemma scalar_14 k : scalar_kind k -> kind_number k =? 14 = false.
Proof. intros (A & B & C). destruct k; try reflexivity; congruence. Qed.
Lemma t_decodeMap v2 n nm fu k v : let fd := mkfield nm fu true (TMap (TScalar k) v) in
  goodb (camel fu) = true -> scalar_kind k -> tfine false v ->
  writes (RUN v2 (S n) "decodeMap" (VField fd)) (st0 true) (semi :: t_func v2 (decode_map_func fd (TScalar k) v)) (st0 true).
Proof.
  intros fd N K V. rewrite run_S.
  assert (FK : ffine (map_key fd (TScalar k))) by (split; [reflexivity|exact K]). assert (FV : ffine (map_value fd v)) by (split; [reflexivity|destruct v; try exact V; destruct V]).
  destruct (type_typed _ FK) as (pk & wk & NK & TK & lk & LK). destruct (type_typed _ FV) as (pv & wv & NV & TV & lv & LV).
  assert (KK := ffine_kindly _ FK). assert (KV := ffine_kindly _ FV). assert (S14 := scalar_14 k K). subst fd.
  assert (EN : is_kind k KEnum = false) by (destruct K as (_ & K2 & _); destruct k; try reflexivity; congruence).
  assert (NM : nameb (camel fu ++ text "Map") = true) by known.
  rewrite (decode_map_tokens v2 (mkfield nm fu true (TMap (TScalar k) v)) k v pk wk pv wv NM EN TK TV).
  rewrite !item_core, block_app2, block_app. set (fd := mkfield nm fu true (TMap (TScalar k) v)) in *.
  assert (A : forall n f, after false (core n f) = true) by (intros n0 f; unfold core; cbv zeta; repeat match goal with |- context [if ?b then _ else _] => destruct b end; reflexivity). rewrite A.
  destruct v2; (eapply writes_eq; [ex; rewrite ?S14; ex; w;
    [eapply (writes_both _ _ _ (t_block t_stmt true (if is_kind (kind_of v) KEnum then [Let (text "ValueTemp") n_u32] else [])) (st0 true));
     [clear -V; destruct v as [vk|s|s|? ?]; [cbn in V; destruct V as (K1 & K2 & K3); destruct vk; try congruence; tpl|tpl|tpl|destruct V]|];
     w; [eapply (writes_both _ _ _ (t_block t_stmt false (core n_k (map_key fd (TScalar k)))) (st0 true));
     [clear -K KK; destruct K as (K1 & K2 & K3); unfold core; destruct k; try congruence; tpl|];
     w; [eapply (writes_both _ _ _ (t_block t_stmt true (core n_v (map_value fd v))) (st0 true));
     [clear -V KV; unfold core; destruct v as [vk|s|s|? ?]; [cbn in V; destruct V as (K1 & K2 & K3); destruct vk; try congruence; tpl|enum_value V s|cbn in V; tpl|destruct V]|];
     w]]]| |reflexivity]).
  all: unfold map_name; cbn [f_full]; rewrite <- ?app_assoc; cbn [app]; rewrite <- ?app_assoc; cbn [app]; rewrite <- ?app_assoc; reflexivity.
Qed.
