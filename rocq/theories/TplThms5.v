(** encodeMap.templ, decodeMap.templ, getFunc: what they write. *)
From Coq Require Import String Ascii.
From Verif Require Import Base Spec GenTables NameModel NameSpec EmitModel EmitSpec EmitThms GoAst GoEmit TplText TplModel TplGo TplExec GoLex GoLexThms TplThms TplThms2 TplThms3.
Local Open Scope list_scope.
Local Opaque call_of truth equal loop.
Arguments go_encodeLUT : simpl nomatch.
Arguments go_decodeLUT : simpl nomatch.
Arguments kind_number : simpl nomatch.

Lemma encode_map_tokens v2 fd k v wk wv : nameb (map_name fd) = true -> t_dotted (entry (go_GetKind (kind_of k))) = [id "polyglot"; op "."; Id wk] -> t_dotted (entry (go_GetKind (kind_of v))) = [id "polyglot"; op "."; Id wv] ->
  t_func v2 (encode_map_func fd k v) =
  [id "func"; op "("; id "x"; Id (map_name fd); op ")"; id "Encode"; op "("; id "b"; op "*"; id "polyglot"; op "."; id "Buffer"; op ")"; op "{"; id "if"; id "x"; op "=="; id "nil"; op "{";
   id "polyglot"; op "."; id "Encoder"; op "("; id "b"; op ")"; op "."; id "Map"; op "("; Lit [48]; op ","; id "polyglot"; op "."; Id wk; op ","; id "polyglot"; op "."; Id wv; op ")"; op "}"; id "else"; op "{";
   id "polyglot"; op "."; id "Encoder"; op "("; id "b"; op ")"; op "."; id "Map"; op "("; id "uint32"; op "("; id "len"; op "("; id "x"; op ")"; op ")"; op ","; id "polyglot"; op "."; Id wk; op ","; id "polyglot"; op "."; Id wv; op ")"; semi;
   id "for"; id "k"; op ","; id "v"; op ":="; id "range"; id "x"; op "{"] ++ t_stmt (encode_item n_k k) ++ semi :: t_stmt (encode_item n_v v) ++ [op "}"; op "}"; op "}"].
Proof.
  intros N D1 D2. unfold t_func, encode_map_func. generalize (encode_item n_k k) (encode_item n_v v). intros i1 i2. cbn [fn_recv fn_params fn_types fn_result fn_name fn_body combine map]. unfold t_param, braces.
  cbn [fst snd t_sig t_stmt t_block t_expr map commas encoder]. rewrite t_type_name by exact N.
  repeat (progress (unfold braces, parens; cbn [t_block t_stmt t_expr encoder map commas app]; rewrite <- ?app_assoc)). rewrite D1, D2. cbn [app]. rewrite <- ?app_assoc. reflexivity.
Qed.
Lemma t_encodeMap v2 n nm fu k v : let fd := mkfield nm fu true (TMap (TScalar k) v) in
  goodb (camel fu) = true -> scalar_kind k -> tfine false v ->
  writes (RUN v2 (S n) "encodeMap" (VField fd)) (st0 true) (semi :: t_func v2 (encode_map_func fd (TScalar k) v)) (st0 true).
Proof.
  intros fd N K V. rewrite run_S. assert (Q1 := proj1 K). assert (Q2 := fine_kind _ _ V). subst fd.
  destruct (kind_word _ Q1) as (wk & E1 & N1 & D1); destruct (kind_word _ Q2) as (wv & E2 & N2 & D2).
  destruct v2; (eapply writes_eq; [ex; rewrite E1, E2; w; [ eapply (writes_both _ _ _ (t_stmt (encode_item n_k (TScalar k))) (st0 true));
    [clear E1 E2 D1 D2 N1 N2 wk wv; destruct K as (K1 & K2 & K3); destruct k; try congruence; tpl|];
    eapply (writes_both _ _ _ (semi :: t_stmt (encode_item n_v v)) (st0 true));
    [clear E1 E2 D1 D2 N1 N2 wk wv; destruct v as [vk|s|s|? ?]; [cbn in V; destruct V as (K1 & K2 & K3); destruct vk; try congruence; tpl|tpl|tpl|destruct V]|]; w ] | |reflexivity]).
  all: rewrite (encode_map_tokens _ _ _ _ wk wv) by (unfold map_name; cbn [f_full kind_of]; first [known|assumption]); unfold map_name; cbn [f_full app]; rewrite <- ?app_assoc; cbn [app]; reflexivity.
Qed.
