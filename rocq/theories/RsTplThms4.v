(** encode.templ: what it writes. *)
From Coq Require Import String Ascii.
From Verif Require Import Base Spec GenTables NameModel NameSpec EmitModel EmitSpec EmitThms GoAst GoEmit RsGenModel RsAst RsEmit RsTplText TplModel TplGo TplExec GoLex GoLexThms RsLex RsLexThms RsTpl RsTplThms RsTplThms2 RsTplThms3.
From Verif Require TplThms TplThms2.
Import TplThms (some, truth_list, truth_b, truth_nil, sameb, equal_text, equal_kind, equal_card, both_assoc).
Import TplThms2 (groups_cases).
Local Open Scope list_scope.

(** ---- Values ---- *)
Definition value_tokens (fd : fieldd) : list token := r_dotted (entry (rs_encodeLUT (kind_of (f_typ fd)))) ++ parens (r_expr (rs_encode_arg fd)) ++ [op "?"].
Lemma values_tokens fs : forall e, r_expr (fold_left rs_encode_value fs e) = r_expr e ++ flat_map value_tokens fs.
Proof.
  induction fs as [|fd fs IH]; intros e; [cbn; rewrite app_nil_r; reflexivity|]. cbn [fold_left flat_map]. rewrite IH. unfold rs_encode_value, value_tokens. cbn [r_expr map commas]. norm. reflexivity.
Qed.
Lemma value_read fd s w : ffine fd -> is_map fd = false -> (forall e, f_typ fd <> TMsg e) -> closable s w -> RLex s (value_text fd ++ text "?") (w ++ value_tokens fd) RNone.
Proof.
  intros (N & F) M NM C. destruct fd as [nm fu many t]. unfold is_map in M. cbn [f_typ] in *. unfold value_text, value_tokens, rs_sprintf_value, rs_encode_arg, mine, rsname. unfold rsname in N. cbn [f_typ f_name] in *. cbn zeta.
  assert (P : exists k, kind_of t = k /\ (scalar_kind k \/ k = KEnum)). { exists (kind_of t). split; [reflexivity|]. destruct t as [k|e|e|k v]; cbn; [left; exact F|right; reflexivity|exfalso; exact (NM e eq_refl)|discriminate M]. }
  destruct P as (k & -> & K). clear F M NM t. destruct (scalar_has k K) as (dw & ew & kw & W). assert (A1 := sw_enc _ _ _ _ W). assert (A2 := sw_encn _ _ _ _ W). assert (A3 := sw_encd _ _ _ _ W). rewrite A1, A3. clear W A1 A3.
  assert (L : RLex s (text "." ++ ew) (w ++ [op "."]) (RWord ew)).
  { eapply RLex_app; [|apply RLex_name_op; [auto|exact A2]]. rewrite <- (app_nil_r w). apply RLex_close; [exact C|reflexivity|rlex_lit]. }
  destruct (is_kind k KEnum); [|destruct (is_string k || is_bytes k)]; rewrite <- ?app_assoc; rewrite app_assoc; (eapply RLex_eq; [eapply RLex_app; [exact L|rlex_one known]| |reflexivity]); cbn [r_expr]; lits; norm; reflexivity.
Qed.
Arguments rs_encode_slice : simpl never.
Arguments rs_encode_message : simpl never.
Arguments value_text : simpl never.
Local Opaque rs_call_of truth equal loop.
Definition enc_groups (fs : list fieldd) : tval :=
  VRec [("MessageFields"%string, VList (map VField (g_messages (get_fields rs_encodeLUT fs)))); ("SliceFields"%string, VList (map VField (g_slices (get_fields rs_encodeLUT fs))));
        ("Values"%string, VList (map (fun fd => VText (value_text fd)) (g_values (get_fields rs_encodeLUT fs))))].
Lemma t_encodeSlices p n fs : Forall ffine fs ->
  writes (RUN p (S n) "encodeSlices" (enc_groups fs)) RNone (flat_map (fun fd => flat_map r_stmt (rs_encode_slice fd)) (g_slices (get_fields rs_encodeLUT fs))) RNone.
Proof.
  intros F. rewrite run_S. assert (FS := fun fd => in_slices rs_encodeLUT fs fd F). unfold enc_groups. set (g := get_fields rs_encodeLUT fs) in *. clearbody g.
  eapply writes_eq; [ex; w; mid; [|w]| |].
  - apply (loop_writes _ VField (fun fd => flat_map r_stmt (rs_encode_slice fd))). intros j fd Hfd. destruct (FS _ Hfd) as (Q & M1 & M2). clear Hfd FS F.
    destruct Q as (Nf & Ht). shape fd. subst many. destruct t as [k|e|e|k v]; [| | |discriminate M2]; cbn [tfine] in Ht.
    + destruct (scalar_not k Ht) as (N1 & N2 & N3 & N4). words_of k (or_introl Ht : scalar_kind k \/ k = KEnum). assert (KG : k <> KGroup) by apply Ht. assert (ST : (kind_number k =? 9) = is_string k) by (destruct k; reflexivity).
      match goal with H : entry (rs_kindLUT k) = _, H2 : text (entry (rs_getKind k)) = _ |- _ => assert (KL : text (entry (rs_kindLUT k)) = text "Kind::" ++ kw) by (rewrite H; exact H2) end.
      destruct (is_string k) eqn:IS; (eapply writes_eq; [ex; rewrite ?ST; ex; w| |reflexivity]);
        (unfold rs_encode_slice, mine, rsname; cbn [f_typ f_name kind_of]; cbn zeta; rewrite N3, andb_false_r, IS; match goal with H : entry (rs_kindLUT k) = _ |- _ => rewrite H end;
         cbn [flat_map r_stmt r_expr r_pat map commas v_b]; closing; lits; norm; reflexivity).
    + eapply writes_eq; [ex; w| |reflexivity]. cbn. lits. norm. reflexivity.
    + eapply writes_eq; [ex; w| |reflexivity]. cbn. lits. norm. reflexivity.
  - rewrite app_nil_r. reflexivity.
  - reflexivity.
Qed.
Lemma t_encodeMessages p n fs : Forall ffine fs ->
  writes (RUN p (S n) "encodeMessages" (enc_groups fs)) RNone (flat_map (fun fd => flat_map r_stmt (rs_encode_message fd)) (g_messages (get_fields rs_encodeLUT fs))) RNone.
Proof.
  intros F. rewrite run_S. assert (FM := fun fd => in_messages rs_encodeLUT fs fd (proj2 enc_lut) F). unfold enc_groups. set (g := get_fields rs_encodeLUT fs) in *. clearbody g.
  eapply writes_eq; [ex; w; mid; [|w]| |].
  - apply (loop_writes _ VField (fun fd => flat_map r_stmt (rs_encode_message fd))). intros j fd Hfd. destruct (FM _ Hfd) as (Q & M). clear Hfd FM F.
    destruct M as [(e & E & M1 & M2)|M].
    + destruct Q as (Nf & Ht). shape fd. subst t many. eapply writes_eq; [ex; w| |reflexivity]. cbn. lits. norm. reflexivity.
    + destruct Q as (Nf & Ht). shape fd. destruct t as [| | |kk v]; try discriminate M. clear M. destruct Ht as ((k & -> & K) & V).
      destruct (scalar_not k K) as (N1 & N2 & N3 & N4). assert (KG : k <> KGroup) by apply K. assert (ST : (kind_number k =? 9) = is_string k) by (destruct k; reflexivity).
      words_of k (or_introl K : scalar_kind k \/ k = KEnum).
      destruct v as [kv|ev|ev|? ?]; [| | |destruct V]; cbn [tfine] in V.
      * destruct (scalar_not kv V) as (N1' & N2' & N3' & N4'). assert (KG' : kv <> KGroup) by apply V. words_of kv (or_introl V : scalar_kind kv \/ kv = KEnum).
        destruct (is_string k) eqn:IS; (eapply writes_eq; [ex; rewrite ?ST; ex; w| |reflexivity]);
        (unfold rs_encode_message, rs_encode_key, rs_encode_item, mine, rsname; cbn [f_typ f_name kind_of]; cbn zeta; rewrite ?N3, ?N4, ?N3', ?N4', ?andb_false_r, ?IS;
         cbn [flat_map r_stmt r_expr r_pat map commas v_b v_k v_v]; closing; lits; norm; reflexivity).
      * destruct (is_string k) eqn:IS; (eapply writes_eq; [ex; rewrite ?ST; ex; w| |reflexivity]);
        (unfold rs_encode_message, rs_encode_key, rs_encode_item, mine, rsname; cbn [f_typ f_name kind_of]; cbn zeta; rewrite ?N3, ?N4, ?andb_false_r, ?IS;
         cbn [flat_map r_stmt r_expr r_pat map commas v_b v_k v_v is_kind andb entry rs_getKind get_kind]; closing; lits; norm; reflexivity).
      * destruct (is_string k) eqn:IS; (eapply writes_eq; [ex; rewrite ?ST; ex; w| |reflexivity]);
        (unfold rs_encode_message, rs_encode_key, rs_encode_item, mine, rsname; cbn [f_typ f_name kind_of]; cbn zeta; rewrite ?N3, ?N4, ?andb_false_r, ?IS;
         cbn [flat_map r_stmt r_expr r_pat map commas v_b v_k v_v]; closing; lits; norm; reflexivity).
  - rewrite app_nil_r. reflexivity.
  - reflexivity.
Qed.
Lemma encode_tokens m : let g := get_fields rs_encodeLUT (m_fields m) in
  r_decl (DEncode (camel (m_full m)) (rs_encode_body m)) =
  [id "impl"; id "Encode"; id "for"; Id (camel (m_full m)); op "{"] ++ t_encode_sig ++ [op "{"] ++
  (match g_values g with [] => [] | fs => id "b" :: flat_map value_tokens fs ++ [op ";"] end) ++
  flat_map (fun fd => flat_map r_stmt (rs_encode_slice fd)) (g_slices g) ++ flat_map (fun fd => flat_map r_stmt (rs_encode_message fd)) (g_messages g) ++
  [id "Ok"; op "("; id "b"; op ")"; op "}"; op "}"].
Proof.
  intros g. unfold r_decl, r_block, rs_encode_body. cbn zeta. fold g. rewrite !flat_map_app, !flat_map_flat.
  assert (E : flat_map r_stmt (rs_encode_values (g_values g)) = match g_values g with [] => [] | fs => id "b" :: flat_map value_tokens fs ++ [op ";"] end).
  { unfold rs_encode_values. destruct (g_values g) as [|fd fs]; [reflexivity|]. cbn [flat_map r_stmt]. rewrite values_tokens, app_nil_r. reflexivity. }
  rewrite E. set (V := match g_values g with [] => [] | _ => _ end). norm. reflexivity.
Qed.
Lemma t_encode p n m : wname (camel (m_full m)) = true -> Forall ffine (m_fields m) ->
  writes (RUN p (S (S n)) "encode" (VMsg m)) RNone (r_decl (DEncode (camel (m_full m)) (rs_encode_body m))) RNone.
Proof.
  intros N F. rewrite run_S, encode_tokens. cbn zeta.
  assert (FV := fun fd => in_values rs_encodeLUT (m_fields m) fd (proj1 enc_lut) F). assert (TS := t_encodeSlices p n _ F). assert (TM := t_encodeMessages p n _ F).
  assert (EC := encoding_call p _ F). fold (enc_groups (m_fields m)) in EC. 
  eapply writes_eq; [ex; rewrite EC; ex; w; mid; [|mid; [|mid; [|w]]]| |].
  - instantiate (1 := match g_values (get_fields rs_encodeLUT (m_fields m)) with [] => [] | fs => id "b" :: flat_map value_tokens fs ++ [op ";"] end).
    destruct (g_values (get_fields rs_encodeLUT (m_fields m))) as [|f0 fs] eqn:EV; [apply writes_nil|]. cbn [some].
    eapply writes_eq; [eapply writes_both; [apply writes_some; apply (RLex_name (text "b")); reflexivity|]; mid;
      [apply (loop_from _ (fun fd => VText (value_text fd)) value_tokens) with (w := [id "b"]); [|apply closable_word|discriminate]|w]| |reflexivity].
    + intros j fd s w Hfd C. destruct (FV _ Hfd) as (Q & M & T). cbn [show]. rewrite <- (app_nil_r (w ++ value_tokens fd)), <- both_assoc. eapply writes_both; [|apply writes_nil]. apply writes_some, value_read; [exact Q| | |exact C].
      all: unfold is_map; destruct T as [(k & -> & _)|(e & -> & _)]; try reflexivity; intros; discriminate.
    + norm. reflexivity.
  - instantiate (1 := flat_map (fun fd => flat_map r_stmt (rs_encode_slice fd)) (g_slices (get_fields rs_encodeLUT (m_fields m)))).
    destruct (g_slices (get_fields rs_encodeLUT (m_fields m))) eqn:ES; [apply writes_nil|]. cbn [some]. rewrite <- (app_nil_r (flat_map _ (_ :: _))). eapply writes_both; [exact TS|apply writes_nil].
  - instantiate (1 := flat_map (fun fd => flat_map r_stmt (rs_encode_message fd)) (g_messages (get_fields rs_encodeLUT (m_fields m)))).
    destruct (g_messages (get_fields rs_encodeLUT (m_fields m))) eqn:ES; [apply writes_nil|]. cbn [some]. rewrite <- (app_nil_r (flat_map _ (_ :: _))). eapply writes_both; [exact TM|apply writes_nil].
  - unfold t_encode_sig, t_life, t_writer, t_dyn_error. lits. norm. reflexivity.
  - reflexivity.
Qed.
