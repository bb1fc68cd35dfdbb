(** decode.templ, decodeMap.templ: what they write. *)
From Coq Require Import String Ascii.
From Verif Require Import Base Spec GenTables NameModel NameSpec EmitModel EmitSpec EmitThms GoAst GoEmit RsGenModel RsAst RsEmit RsTplText TplModel TplGo TplExec GoLex GoLexThms RsLex RsLexThms RsTpl RsTplThms.
From Verif Require TplThms TplThms2.
Import TplThms (some, truth_list, truth_b, truth_nil, sameb, equal_text, equal_kind, equal_card, both_assoc).
Import TplThms2 (groups_cases).
Local Open Scope list_scope.

(** a kind with a decoder and an encoder *)
Record scalar_words (k : pkind) (dw ew kw : bytes) : Prop := {
  sw_dec : text (entry (rs_decodeLUT k)) = text "." ++ dw; sw_decn : wname dw = true; sw_decd : r_dotted (entry (rs_decodeLUT k)) = [op "."; Id dw];
  sw_enc : text (entry (rs_encodeLUT k)) = text "." ++ ew; sw_encn : wname ew = true; sw_encd : r_dotted (entry (rs_encodeLUT k)) = [op "."; Id ew];
  sw_kind : text (entry (rs_getKind k)) = text "Kind::" ++ kw; sw_kindn : wname kw = true; sw_kindc : r_const (entry (rs_getKind k)) = [id "Kind"; op "::"; Id kw];
  sw_lut : entry (rs_kindLUT k) = entry (rs_getKind k)
}.
Lemma scalar_has k : scalar_kind k \/ k = KEnum -> exists dw ew kw, scalar_words k dw ew kw.
Proof. intros H. destruct k; try (exfalso; destruct H as [(H1 & H2 & H3)|H]; congruence); (do 3 eexists; split; reflexivity). Qed.
Lemma scalar_not k : scalar_kind k -> (kind_number k =? 11) = false /\ (kind_number k =? 14) = false /\ is_kind k KMessage = false /\ is_kind k KEnum = false.
Proof. intros (H1 & H2 & H3). destruct k; try congruence; auto. Qed.
Lemma same_dot x : sameb (text "." ++ x) (text "") = false. Proof. reflexivity. Qed.
Lemma half_scalar n k : scalar_kind k -> r_stmt (rs_decode_half n (TScalar k)) = [id "let"; Id n; op "="; id "b"] ++ r_dotted (entry (rs_decodeLUT k)) ++ [op "("; op ")"; op "?"; op ";"].
Proof. intros (H1 & H2 & H3). destruct k; try congruence; reflexivity. Qed.
Lemma msg_kind : text (entry (rs_getKind KMessage)) = text "Kind::Any" /\ r_const (entry (rs_getKind KMessage)) = [id "Kind"; op "::"; id "Any"]. Proof. split; reflexivity. Qed.
Lemma name_suffix w x : wname w = true -> forallb wordb x = true -> wname (w ++ x) = true.
Proof. unfold wname. destruct w as [|c t]; [discriminate|]. cbn [app]. intros H X. apply andb_true_iff in H. destruct H as (H1 & H2). rewrite H1, forallb_app, H2, X. reflexivity. Qed.

Lemma half_enum n s : r_stmt (rs_decode_half n (TEnum s)) =
  [id "let"; Id n; op "="] ++ r_type (rs_type_of false (TEnum s)) ++ [op "::"; id "try_from"; op "("; id "b"; op "."; id "decode_u32"; op "("; op ")"; op "?"; op ")"; op "."; id "ok"; op "("; op ")"; op "."; id "ok_or"; op "(";
   id "DecodingError"; op "::"; id "InvalidMap"; op ")"; op "?"; op ";"].
Proof. reflexivity. Qed.
Lemma half_msg n s : r_stmt (rs_decode_half n (TMsg s)) =
  [id "let"; Id n; op "="; Id (camel s); op "::"; id "decode"; op "("; id "b"; op ")"; op "?"; op "."; id "ok_or"; op "("; id "DecodingError"; op "::"; id "InvalidMap"; op ")"; op "?"; op ";"].
Proof. reflexivity. Qed.
Arguments rs_decode_half : simpl never.
Lemma r_stmt_fn n t a : r_stmt (SFn n t a) = [id "fn"; Id n; op "("; id "b"; op ":"] ++ t_reader ++ [op ")"; op "->"] ++ t_answer (r_type t) ++ r_block a. Proof. reflexivity. Qed.
Lemma r_stmt_times e a : r_stmt (STimes e a) = [id "for"; id "_"; id "in"; Lit (show_int 0); op ".."] ++ r_expr e ++ r_block a. Proof. reflexivity. Qed.
Lemma map_tokens fd k v : f_typ fd = TMap k v -> flat_map r_stmt (rs_decode_map fd) =
  [id "fn"; Id (fn_name fd); op "("; id "b"; op ":"] ++ t_reader ++ [op ")"; op "->"] ++ t_answer (id "HashMap" :: angles (r_type (rs_type_of false k) ++ op "," :: r_type (rs_type_of false v))) ++
  [op "{"; id "if"; id "b"; op "."; id "decode_none"; op "("; op ")"; op "{"; id "return"; id "Ok"; op "("; id "None"; op ")"; op ";"; op "}";
   id "let"; id "size"; op "="; id "b"; op "."; id "decode_map"; op "("] ++ r_const (entry (rs_getKind (kind_of k))) ++ op "," :: r_const (entry (rs_getKind (kind_of v))) ++
  [op ")"; op "."; id "ok"; op "("; op ")"; op "."; id "ok_or"; op "("; id "DecodingError"; op "::"; id "InvalidU32"; op ")"; op "?"; op ";";
   id "let"; id "mut"; id "map"; op "="; id "HashMap"; op "::"; id "new"; op "("; op ")"; op ";"; id "for"; id "_"; id "in"; Lit (show_int 0); op ".."; id "size"; op "{"] ++
  r_stmt (rs_decode_half (text "k") k) ++ r_stmt (rs_decode_half (text "v") v) ++
  [id "map"; op "."; id "insert"; op "("; id "k"; op ","; id "v"; op ")"; op ";"; op "}"; id "Ok"; op "("; id "Some"; op "("; id "map"; op ")"; op ")"; op "}"].
Proof.
  intros E. unfold rs_decode_map. rewrite E. cbn [flat_map]. rewrite app_nil_r, r_stmt_fn. f_equal. f_equal. f_equal. f_equal. unfold r_block. cbn [flat_map]. rewrite r_stmt_times. unfold r_block. cbn [flat_map].
  set (h1 := r_stmt (rs_decode_half (text "k") k)). set (h2 := r_stmt (rs_decode_half (text "v") v)). set (c1 := entry (rs_getKind (kind_of k))). set (c2 := entry (rs_getKind (kind_of v))).
  cbn [r_stmt r_expr if_none ok some_ ok_or v_b v_k v_v map commas flat_map]. lits. norm. reflexivity.
Qed.
Local Opaque rs_call_of truth equal loop.
Ltac closing := repeat match goal with H : r_type _ = _ |- _ => rewrite H | H : r_const _ = _ |- _ => rewrite H | H : r_dotted _ = _ |- _ => rewrite H end.
Lemma t_map p n fd : ffine fd -> is_map fd = true -> writes (RUN p (S n) "decodeMap" (VField fd)) RNone (flat_map r_stmt (rs_decode_map fd)) RNone.
Proof.
  intros F M. rewrite run_S. destruct fd as [nm fu many t]. unfold is_map in M. cbn [f_typ] in M. destruct t as [k|s|s|k v]; try discriminate M. clear M.
  destruct (map_fine _ _ _ _ _ F) as (FK & FV). destruct (typed_ffine _ FK) as (_ & (pk & sk & wk & LK & CK & EK)). destruct (typed_ffine _ FV) as (_ & (pv & sv & wv & LV & CV & EV)).
  fold (type_of (map_key (mkfield nm fu many (TMap k v)) k)) in LK. fold (type_of (map_value (mkfield nm fu many (TMap k v)) v)) in LV.
  destruct F as (G & ((k' & E & K) & V)). cbn [f_typ rsname f_name] in *. unfold rsname in G. cbn [f_name] in G. subst k. destruct (scalar_has k' (or_introl K)) as (dw & ew & kw & W). destruct (scalar_not k' K) as (N1 & N2 & N3 & N4).
  assert (D1 := sw_dec _ _ _ _ W). assert (D2 := sw_decn _ _ _ _ W). assert (D3 := sw_decd _ _ _ _ W). assert (D4 := sw_kind _ _ _ _ W). assert (D5 := sw_kindn _ _ _ _ W). assert (D6 := sw_kindc _ _ _ _ W).
  assert (KG : k' <> KGroup) by apply K.
  destruct v as [kv|sv'|sv'|? ?]; [| | |destruct V].
  - cbn [tfine] in V. destruct (scalar_has kv (or_introl V)) as (dw' & ew' & kw' & W'). destruct (scalar_not kv V) as (N1' & N2' & N3' & N4').
    assert (D1' := sw_dec _ _ _ _ W'). assert (D2' := sw_decn _ _ _ _ W'). assert (D3' := sw_decd _ _ _ _ W'). assert (D4' := sw_kind _ _ _ _ W'). assert (D5' := sw_kindn _ _ _ _ W'). assert (D6' := sw_kindc _ _ _ _ W').
    assert (KG' : kv <> KGroup) by apply V.
    eapply writes_eq; [ex; w| |reflexivity].
    erewrite map_tokens by reflexivity. rewrite !half_scalar by assumption. unfold rs_type_of_field in EK, EV. cbn [map_key map_value f_many f_typ] in EK, EV. rewrite EK, EV, D3, D3'. cbn [kind_of]. rewrite D6, D6'. unfold fn_name, rsname, angles, t_answer. cbn [f_name]. lits. norm. reflexivity.
  - cbn [tfine] in V. eapply writes_eq; [ex; w| |reflexivity].
    erewrite map_tokens by reflexivity. rewrite half_scalar, half_enum by assumption. unfold rs_type_of_field in EK, EV. cbn [map_key map_value f_many f_typ] in EK, EV. rewrite EK, EV, D3. cbn [kind_of]. rewrite D6. unfold fn_name, rsname, angles, t_answer. cbn [f_name]. lits. norm. reflexivity.
  - cbn [tfine] in V. eapply writes_eq; [ex; w| |reflexivity].
    erewrite map_tokens by reflexivity. rewrite half_scalar, half_msg by assumption. unfold rs_type_of_field in EK, EV. cbn [map_key map_value f_many f_typ] in EK, EV. rewrite EK, EV, D3. cbn [kind_of]. rewrite D6. unfold fn_name, rsname, angles, t_answer. cbn [f_name]. lits. norm. reflexivity.
Qed.
