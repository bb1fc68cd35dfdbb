(** encode.templ, encodeMap.templ: what they write. *)
From Coq Require Import String Ascii.
From Verif Require Import Base Spec GenTables NameModel NameSpec EmitModel EmitSpec EmitThms GoAst GoEmit TplText TplModel TplGo TplExec GoLex GoLexThms TplThms TplThms2.
Local Open Scope list_scope.

Definition value_text (fd : fieldd) : bytes := sprintf_value (entry (go_encodeLUT (kind_of (f_typ fd)))) (kind_of (f_typ fd)) (f_name fd).
Lemma encoding_groups fs : Forall ffine fs -> forall ms ss vs,
  encoding_fields fs ms ss vs = let g := get_fields go_encodeLUT fs in Some (ms ++ g_messages g, ss ++ g_slices g, vs ++ map value_text (g_values g)).
Proof.
  induction 1 as [|fd fs (H1 & H) F IH]; intros ms ss os; [cbn; rewrite !app_nil_r; reflexivity|]. cbn [encoding_fields get_fields].
  destruct (f_many fd && negb (is_map fd)); [rewrite IH; cbn zeta; cbn [g_messages g_slices g_values]; rewrite <- app_assoc; reflexivity|].
  destruct (go_encodeLUT (kind_of (f_typ fd))) eqn:E; [rewrite IH; cbn zeta; cbn [g_messages g_slices g_values map]; rewrite <- app_assoc; unfold value_text; rewrite E; reflexivity|].
  assert (K : kind_of (f_typ fd) = KMessage).
  { destruct (f_typ fd) as [k| | |]; try reflexivity; [|discriminate E]. destruct H as (K1 & K2 & K3). destruct k; try discriminate E; congruence. }
  rewrite K, IH. cbn zeta. cbn [g_messages g_slices g_values]. rewrite <- app_assoc. reflexivity.
Qed.
Lemma encoding_call fs : Forall ffine fs -> call_of "GetEncodingFields" [VFieldList fs] =
  Some (VRec [("MessageFields"%string, VList (map VField (g_messages (get_fields go_encodeLUT fs)))); ("SliceFields"%string, VList (map VField (g_slices (get_fields go_encodeLUT fs))));
              ("Values"%string, VList (map (fun fd => VText (value_text fd)) (g_values (get_fields go_encodeLUT fs))))]).
Proof. intros F. unfold call_of. cbn [String.eqb Ascii.eqb Bool.eqb]. rewrite encoding_groups by exact F. cbn zeta. cbn [option_map app]. rewrite map_map. reflexivity. Qed.
Lemma luts k : go_encodeLUT k = go_decodeLUT k. Proof. destruct k; reflexivity. Qed.
Lemma enclut_call k : call_of "GetLUTEncoder" [VKind k] = Some (VText (text (entry (go_encodeLUT k)))). Proof. reflexivity. Qed.
Lemma kindlut_call k : call_of "GetKindLUT" [VKind k] = Some (VText (text (entry (go_kindLUT k)))). Proof. reflexivity. Qed.
Lemma custom_enc : call_of "CustomEncode" [] = Some (VText []). Proof. reflexivity. Qed.
Ltac ex1 ::= step2;
  try match goal with |- context [call_of "GetLUTEncoder" [VKind _]] => rewrite !enclut_call end; try match goal with |- context [call_of "GetKindLUT" [VKind _]] => rewrite !kindlut_call end;
  try match goal with |- context [call_of "CustomEncode" _] => rewrite !custom_enc end.

(** blocks *)
Definition after {A} (d : bool) (l : list A) : bool := match l with [] => d | _ => true end.
Lemma block_app2 d l1 l2 : t_block t_stmt d (l1 ++ l2) = t_block t_stmt d l1 ++ t_block t_stmt (after d l1) l2.
Proof. destruct l1 as [|c l1]; [reflexivity|]. cbn [app t_block after]. rewrite block_app, <- !app_assoc. reflexivity. Qed.
Lemma loop_block {A} (body : Z -> tval -> option bytes) (f : A -> tval) (g : A -> list stmt) (l : list A) : forall i d,
  (forall j d a, In a l -> g a <> [] /\ writes (body j (f a)) (st0 d) (t_block t_stmt d (g a)) (st0 true)) -> writes (loop body i (map f l)) (st0 d) (t_block t_stmt d (flat_map g l)) (st0 (after d l)).
Proof.
  induction l as [|a l IH]; intros i d H; [apply writes_nil|]. cbn [map loop flat_map after]. rewrite block_app2.
  destruct (H i d a (or_introl eq_refl)) as (N & Wa). eapply writes_both; [exact Wa|]. assert (E : after d (g a) = true) by (destruct (g a); [congruence|reflexivity]). rewrite E.
  specialize (IH (i + 1) true). assert (E2 : after true l = true) by (destruct l; reflexivity). rewrite E2 in IH. apply IH. intros j d' b Hb. apply H. right. exact Hb.
Qed.

Local Opaque call_of truth equal loop.
(** encodeSlices and encodeMessages, after the newline they start with *)
Lemma t_slices v2 n x ss s d y : Forall ffine ss -> (forall fd, In fd ss -> f_many fd = true /\ is_map fd = false) -> Lex s (text "
    ") [] (st0 d) ->
  writes (RUN v2 (S n) "encodeSlices" (VRec [("MessageFields"%string, x); ("SliceFields"%string, VList (map VField ss)); y])) s (t_block t_stmt d (flat_map encode_slice ss)) (st0 (after d ss)).
Proof.
  intros F M L. rewrite run_S. rewrite Forall_forall in F. eapply writes_eq.
  - destruct v2; ex; (eapply writes_both; [apply writes_some; exact L|]); (eapply writes_both; [|w]); apply (loop_block _ VField encode_slice); intros j d' fd Hfd;
      specialize (F _ Hfd); destruct (M _ Hfd) as (M1 & M2); destruct F as (Nf & Ht); destruct fd as [nm fu many t]; unfold goname, is_map in *; cbn in M1, M2, Ht, Nf; subst many; clear Hfd;
      (destruct t as [k|e|e|k v]; [destruct Ht as (K1 & K2 & K3); destruct k; try congruence| | |discriminate M2]); (split; [discriminate|]); destruct d'; tpl.
  - rewrite app_nil_r. reflexivity.
  - reflexivity.
Qed.

Lemma t_messages v2 n x y ms s d : Forall ffine ms -> Lex s (text "
    ") [] (st0 d) ->
  writes (RUN v2 (S n) "encodeMessages" (VRec [("MessageFields"%string, VList (map VField ms)); x; y])) s (t_block t_stmt d (flat_map encode_message ms)) (st0 (after d ms)).
Proof.
  intros F L. rewrite run_S. rewrite Forall_forall in F. eapply writes_eq.
  - destruct v2; ex; (eapply writes_both; [apply writes_some; exact L|]); (eapply writes_both; [|w]); apply (loop_block _ VField encode_message); intros j d' fd Hfd;
      specialize (F _ Hfd); destruct F as (Nf & _); destruct fd as [nm fu many t]; unfold goname in *; cbn in Nf; clear Hfd; (split; [discriminate|]); destruct d'; tpl.
  - rewrite app_nil_r. reflexivity.
  - reflexivity.
Qed.
(** the chain of calls *)
Definition item_tokens (fd : fieldd) : list token := t_dotted (fst (encode_value fd)) ++ parens (t_expr (snd (encode_value fd))).
Lemma chain_tokens l : forall e, t_expr (fold_left (fun e v => Met e (fst v) [snd v]) (map encode_value l) e) = t_expr e ++ flat_map item_tokens l.
Proof.
  induction l as [|fd l IH]; intros e; [cbn; rewrite app_nil_r; reflexivity|]. cbn [map fold_left flat_map]. rewrite IH. cbn [t_expr map commas]. unfold item_tokens. rewrite <- !app_assoc. reflexivity.
Qed.
Definition encode_body (m : msgd) : list stmt := let g := get_fields go_encodeLUT (m_fields m) in
  (match g_values g with [] => [] | _ => [Do (encode_values (map encode_value (g_values g)))] end) ++ flat_map encode_slice (g_slices g) ++ flat_map encode_message (g_messages g).
Lemma encode_tokens v2 m : nameb (camel (m_full m)) = true -> 
  t_func v2 (encode_func m) =
  [id "func"; op "("; id "x"; op "*"; Id (camel (m_full m)); op ")"; id "Encode"; op "("; id "b"; op "*"; id "polyglot"; op "."; id "Buffer"; op ")"; op "{"; id "if"; id "x"; op "=="; id "nil"; op "{";
   id "polyglot"; op "."; id "Encoder"; op "("; id "b"; op ")"; op "."; id "Nil"; op "("; op ")"; op "}"; id "else"; op "{"] ++ t_block t_stmt false (encode_body m) ++ [op "}"; op "}"].
Proof.
  intros N. unfold t_func, encode_func. cbn zeta. fold (encode_body m). cbn [fn_recv fn_params fn_types fn_result fn_name fn_body combine map]. unfold t_param, braces. cbn [fst snd t_sig]. rewrite t_ptr by exact N.
  destruct (encode_body m) as [|c l]; cbn [app t_block t_stmt]; [reflexivity|]. cbn. rewrite <- !app_assoc. cbn. rewrite <- !app_assoc. reflexivity.
Qed.
Lemma in_groups lut fs : Forall ffine fs -> let g := get_fields lut fs in Forall ffine (g_slices g) /\ Forall ffine (g_messages g) /\ (forall fd, In fd (g_slices g) -> f_many fd = true /\ is_map fd = false).
Proof.
  intros F g. rewrite Forall_forall in F. assert (C := groups_cases lut fs). cbn zeta in C. split; [|split].
  - apply Forall_forall. intros fd H. apply (C fd) in H. apply F, H.
  - apply Forall_forall. intros fd H. apply (C fd) in H. apply F, H.
  - intros fd H. apply (C fd) in H. apply H.
Qed.
