(** encode.templ, encodeMap.templ: what they write. *)
From Coq Require Import String Ascii.
From Verif Require Import Base Spec GenTables NameModel NameSpec EmitModel EmitSpec EmitThms GoAst GoEmit TplText TplModel TplGo TplExec GoLex GoLexThms TplThms TplThms2 TplThms3.
Local Open Scope list_scope.
Local Opaque call_of truth equal loop.

Definition ended : lst := mklst PNone true false.
Lemma value_item fd : ffine fd -> f_many fd && negb (is_map fd) = false -> go_encodeLUT (kind_of (f_typ fd)) <> None -> Lex ended (value_text fd) (item_tokens fd) ended.
Proof.
  intros F M L. rewrite luts in L. destruct (value_kinds fd F M L) as (Mf & Ht). destruct F as (Nf & _). unfold value_text, item_tokens, encode_value, my. change (camel (f_name fd)) with (goname fd). destruct fd as [nm fu many t]. cbn in Mf, Ht. clear M L. subst many. unfold goname in *.
  cbn [f_name f_typ] in *. unfold sprintf_value, ended. destruct Ht as [(k & -> & (K1 & K2 & K3))|(s & -> & K)].
  - destruct k; try congruence; cbn [kind_of is_kind entry go_encodeLUT fst snd t_expr]; (eapply Lex_eq; [lex_one known|reflexivity|reflexivity]).
  - cbn [kind_of is_kind entry go_encodeLUT fst snd t_expr]; (eapply Lex_eq; [lex_one known|reflexivity|reflexivity]).
Qed.
Lemma t_encode v2 n m : goodb (camel (m_full m)) = true -> Forall ffine (m_fields m) ->
  writes (RUN v2 (S (S n)) "encode" (VMsg m)) (st0 true) (semi :: t_func v2 (encode_func m)) (st0 true).
Proof.
  intros N F. rewrite run_S. rewrite encode_tokens by known. unfold encode_body. cbn zeta. destruct (in_groups go_encodeLUT _ F) as (F1 & F2 & F3).
  assert (G : exists g, g = get_fields go_encodeLUT (m_fields m)) by (eexists; reflexivity). destruct G as (g & G). 
  assert (V : forall i, writes (loop (fun _ x => both (show x) (Some [])) i (map (fun fd => VText (value_text fd)) (g_values g))) ended (flat_map item_tokens (g_values g)) ended).
  { intros i. apply loop_writes. intros _ fd Hfd. cbn [show]. rewrite <- (app_nil_r (item_tokens fd)). eapply writes_both; [|apply writes_nil]. apply writes_some. subst g. apply groups_cases in Hfd. rewrite Forall_forall in F. apply value_item; [apply F|..]; apply Hfd. }
  assert (EC := encoding_call _ F). rewrite <- G in *. clear G F.
  rewrite !block_app2.
  set (vals := match g_values g with [] => [] | _ => [Do (encode_values (map encode_value (g_values g)))] end).
  assert (A1 : after false vals = some (g_values g)) by (unfold vals; destruct (g_values g); reflexivity).
  assert (A2 : forall d, after d (flat_map encode_slice (g_slices g)) = after d (g_slices g)).
  { intros d. destruct (g_slices g) as [|fd l]; [reflexivity|]. cbn [flat_map]. unfold encode_slice. destruct (String.eqb (entry (go_encodeLUT (kind_of (f_typ fd)))) "" && is_kind (kind_of (f_typ fd)) KMessage); reflexivity. }
  rewrite A1, A2.
  set (sv := if some (g_values g) then ended else st0 false).
  assert (LV : Lex sv (text "
    ") [] (st0 (some (g_values g)))) by (unfold sv; destruct (some (g_values g)); lex_lit).
  set (sl := if some (g_slices g) then st0 true else sv).
  assert (LS : Lex sl (text "
    ") [] (st0 (after (some (g_values g)) (g_slices g)))).
  { unfold sl. destruct (g_slices g); [exact LV|]. cbn [some after]. lex_lit. }
  set (sm := if some (g_messages g) then st0 true else sl).
  assert (LE : Lex sm (text "}
}
") [op "}"; op "}"] (st0 true)).
  { unfold sm, sl, sv. destruct (some (g_messages g)), (some (g_slices g)), (some (g_values g)); lex_lit. }
  assert (SV : writes (if some (g_values g) then both (Some (text "polyglot.Encoder(b)")) (both (loop (fun _ x => both (show x) (Some [])) 0 (map (fun fd => VText (value_text fd)) (g_values g))) (Some [])) else Some []) (st0 false) (t_block t_stmt false vals) sv).
  { unfold sv, vals. destruct (g_values g) as [|v0 vs]; cbn [some]; [apply writes_nil|]. eapply writes_eq; [eapply writes_both; [apply writes_some; lex_one known|]; eapply writes_both; [apply V|apply writes_nil]| |reflexivity].
    cbn [t_block t_stmt]. unfold encode_values. rewrite chain_tokens. cbn [app]. rewrite !app_nil_r. reflexivity. }
  assert (SL : forall x y v2, writes (if some (g_slices g) then both (RUN v2 (S n) "encodeSlices" (VRec [("MessageFields"%string, x); ("SliceFields"%string, VList (map VField (g_slices g))); y])) (Some []) else Some []) sv (t_block t_stmt (some (g_values g)) (flat_map encode_slice (g_slices g))) sl).
  { intros x y b. destruct (some (g_slices g)) eqn:E.
    - eapply writes_eq; [eapply writes_both; [apply t_slices; [exact F1|exact F3|exact LV]|apply writes_nil]|apply app_nil_r|]. unfold sl. destruct (g_slices g); [discriminate E|reflexivity].
    - unfold sl. destruct (g_slices g); [apply writes_nil|discriminate E]. }
  assert (SM : forall x y v2, writes (if some (g_messages g) then both (RUN v2 (S n) "encodeMessages" (VRec [("MessageFields"%string, VList (map VField (g_messages g))); x; y])) (Some []) else Some []) sl (t_block t_stmt (after (some (g_values g)) (g_slices g)) (flat_map encode_message (g_messages g))) sm).
  { intros x y b. destruct (some (g_messages g)) eqn:E.
    - eapply writes_eq; [eapply writes_both; [apply t_messages; [exact F2|exact LS]|apply writes_nil]|apply app_nil_r|]. unfold sm. destruct (g_messages g); [discriminate E|reflexivity].
    - unfold sm. destruct (g_messages g); [apply writes_nil|discriminate E]. }
  destruct v2.
  - eapply writes_eq; [ex; rewrite EC; ex; w; (eapply writes_both; [exact SV|]); (eapply writes_both; [exact (SL _ _ true)|]); (eapply writes_both; [exact (SM _ _ true)|]); eapply writes_both; [apply writes_some; exact LE|apply writes_nil]| |reflexivity].
    rewrite <- ?app_assoc. cbn [app]. rewrite <- ?app_assoc. cbn [app]. reflexivity.
  - eapply writes_eq; [ex; rewrite EC; ex; w; (eapply writes_both; [exact SV|]); (eapply writes_both; [exact (SL _ _ false)|]); (eapply writes_both; [exact (SM _ _ false)|]); eapply writes_both; [apply writes_some; exact LE|apply writes_nil]| |reflexivity].
    rewrite <- ?app_assoc. cbn [app]. rewrite <- ?app_assoc. cbn [app]. reflexivity.
Qed.
