(** decode.templ: what it writes. *)
From Coq Require Import String Ascii.
From Verif Require Import Base Spec GenTables NameModel NameSpec EmitModel EmitSpec EmitThms GoAst GoEmit RsGenModel RsAst RsEmit RsTplText TplModel TplGo TplExec GoLex GoLexThms RsLex RsLexThms RsTpl RsTplThms RsTplThms2.
From Verif Require TplThms TplThms2.
Import TplThms (some, truth_list, truth_b, truth_nil, sameb, equal_text, equal_kind, equal_card, both_assoc).
Import TplThms2 (groups_cases).
Local Open Scope list_scope.

Lemma flat_map_map {A B C} (f : B -> list C) (g : A -> B) l : flat_map f (map g l) = flat_map (fun a => f (g a)) l.
Proof. induction l as [|a l IH]; [reflexivity|]. cbn [map flat_map]. rewrite IH. reflexivity. Qed.
Lemma flat_map_flat {A B C} (f : B -> list C) (g : A -> list B) l : flat_map f (flat_map g l) = flat_map (fun a => flat_map f (g a)) l.
Proof. induction l as [|a l IH]; [reflexivity|]. cbn [flat_map]. rewrite flat_map_app, IH. reflexivity. Qed.
(** which fields are in which group *)
Lemma in_values lut fs fd : (lut KMessage = None) -> Forall ffine fs -> In fd (g_values (get_fields lut fs)) ->
  ffine fd /\ f_many fd = false /\ ((exists k, f_typ fd = TScalar k /\ scalar_kind k) \/ exists s, f_typ fd = TEnum s /\ wname (camel s) = true).
Proof.
  intros HL F H. apply groups_cases in H. destruct H as (H & M & L). rewrite Forall_forall in F. assert (Q := F _ H). split; [exact Q|]. destruct Q as (_ & Q). unfold is_map in M. destruct (f_typ fd) as [k|s|s|k v]; cbn [kind_of] in L.
  - rewrite andb_true_r in M. split; [exact M|]. left. exists k. split; [reflexivity|exact Q].
  - rewrite andb_true_r in M. split; [exact M|]. right. exists s. split; [reflexivity|exact Q].
  - congruence.
  - congruence.
Qed.
Lemma in_slices lut fs fd : Forall ffine fs -> In fd (g_slices (get_fields lut fs)) -> ffine fd /\ f_many fd = true /\ is_map fd = false.
Proof. intros F H. apply groups_cases in H. rewrite Forall_forall in F. split; [apply F, H|apply H]. Qed.
Lemma in_messages lut fs fd : (forall k, scalar_kind k \/ k = KEnum -> lut k <> None) -> Forall ffine fs -> In fd (g_messages (get_fields lut fs)) ->
  ffine fd /\ ((exists s, f_typ fd = TMsg s /\ f_many fd = false /\ wname (camel s) = true) \/ is_map fd = true).
Proof.
  intros HL F H. apply groups_cases in H. destruct H as (H & M & L). rewrite Forall_forall in F. assert (Q := F _ H). split; [exact Q|]. destruct Q as (_ & Q). unfold is_map in *. destruct (f_typ fd) as [k|s|s|k v]; cbn [kind_of] in L.
  - exfalso. exact (HL k (or_introl Q) L).
  - exfalso. exact (HL KEnum (or_intror eq_refl) L).
  - left. rewrite andb_true_r in M. exists s. auto.
  - right. reflexivity.
Qed.
Lemma dec_lut : rs_decodeLUT KMessage = None /\ forall k, scalar_kind k \/ k = KEnum -> rs_decodeLUT k <> None.
Proof. split; [reflexivity|]. intros k [(H1 & H2 & H3)|H]; destruct k; try congruence; discriminate. Qed.
Lemma enc_lut : rs_encodeLUT KMessage = None /\ forall k, scalar_kind k \/ k = KEnum -> rs_encodeLUT k <> None.
Proof. split; [reflexivity|]. intros k [(H1 & H2 & H3)|H]; destruct k; try congruence; discriminate. Qed.

(** tokens *)
Definition field_tokens (f : bytes * rexpr) : list token := Id (fst f) :: op ":" :: r_expr (snd f) ++ [op ","].
Lemma decode_tokens m : let g := get_fields rs_decodeLUT (m_fields m) in
  r_decl (DDecode (camel (m_full m)) (rs_decode_body m)) =
  [id "impl"; id "Decode"; id "for"; Id (camel (m_full m)); op "{"] ++ t_decode_sig (camel (m_full m)) ++
  [op "{"; id "if"; id "b"; op "."; id "decode_none"; op "("; op ")"; op "{"; id "return"; id "Ok"; op "("; id "None"; op ")"; op ";"; op "}";
   id "if"; id "let"; id "Ok"; op "("; id "error"; op ")"; op "="; id "b"; op "."; id "decode_error"; op "("; op ")"; op "{"; id "return"; id "Err"; op "("; id "error"; op ")"; op ";"; op "}"] ++
  flat_map (fun fd => r_stmt (rs_decode_slice fd)) (g_slices g) ++ flat_map (fun fd => flat_map r_stmt (rs_decode_map fd)) (g_messages g) ++
  [id "Ok"; op "("; id "Some"; op "("; Id (camel (m_full m)); op "{"] ++
  flat_map (fun fd => field_tokens (rs_decode_other fd)) (g_values g) ++ flat_map (fun fd => field_tokens (rs_init_slice fd)) (g_slices g) ++ flat_map (fun fd => field_tokens (rs_init_message fd)) (g_messages g) ++
  [op "}"; op ")"; op ")"; op "}"; op "}"].
Proof.
  intros g. unfold r_decl, r_block, rs_decode_body. cbn zeta. fold g. rewrite !flat_map_app, flat_map_map, flat_map_flat.
  set (A := flat_map (fun fd => r_stmt (rs_decode_slice fd)) (g_slices g)). set (B := flat_map (fun fd => flat_map r_stmt (rs_decode_map fd)) (g_messages g)).
  assert (E : flat_map r_stmt [STail (ok (some_ (EStruct (camel (m_full m)) (map rs_decode_other (g_values g) ++ map rs_init_slice (g_slices g) ++ map rs_init_message (g_messages g)))))] =
    [id "Ok"; op "("; id "Some"; op "("; Id (camel (m_full m)); op "{"] ++
  flat_map (fun fd => field_tokens (rs_decode_other fd)) (g_values g) ++ flat_map (fun fd => field_tokens (rs_init_slice fd)) (g_slices g) ++ flat_map (fun fd => field_tokens (rs_init_message fd)) (g_messages g) ++ [op "}"; op ")"; op ")"]).
  { cbn [flat_map r_stmt ok some_ r_expr map commas]. fold field_tokens. change (fun f : bytes * rexpr => Id (fst f) :: op ":" :: r_expr (snd f) ++ [op ","]) with field_tokens. rewrite !flat_map_app, !flat_map_map. unfold parens. norm. reflexivity. }
  rewrite E. cbn [flat_map r_stmt if_none ok r_expr v_b map commas]. lits. norm. reflexivity.
Qed.
Arguments rs_decode_slice : simpl never.
Arguments rs_decode_map : simpl never.
Arguments field_tokens : simpl never.
Lemma slice_tokens fd : r_stmt (rs_decode_slice fd) =
  [id "fn"; Id (fn_name fd); op "("; id "b"; op ":"] ++ t_reader ++ [op ")"; op "->"] ++ t_answer (r_type (rs_type_of_field fd)) ++
  [op "{"; id "let"; Id (size_var fd); op "="; id "b"; op "."; id "decode_array"; op "("] ++ r_const (entry (rs_getKind (kind_of (f_typ fd)))) ++
  [op ")"; op "?"; op ";"; id "let"; id "mut"; id "temp"; op "="; id "Vec"; op "::"; id "with_capacity"; op "("; Id (size_var fd); op ")"; op ";"; id "for"; id "_"; id "in"; Lit (show_int 0); op ".."; Id (size_var fd); op "{";
   id "temp"; op "."; id "push"; op "("] ++
  (if is_kind (kind_of (f_typ fd)) KMessage then [Id (message_of fd); op "::"; id "decode"; op "("; id "b"; op ")"; op "?"; op "."; id "ok_or"; op "("; id "DecodingError"; op "::"; id "InvalidArray"; op ")"; op "?"]
   else id "b" :: r_dotted (entry (rs_decodeLUT (kind_of (f_typ fd)))) ++ [op "("; op ")"; op "?"]) ++
  [op ")"; op ";"; op "}"; id "Ok"; op "("; id "Some"; op "("; id "temp"; op ")"; op ")"; op "}"].
Proof.
  unfold rs_decode_slice. cbn zeta. rewrite r_stmt_fn. f_equal. f_equal. f_equal. f_equal. unfold r_block. cbn [flat_map]. rewrite r_stmt_times. unfold r_block. cbn [flat_map].
  generalize (entry (rs_decodeLUT (kind_of (f_typ fd)))) (entry (rs_getKind (kind_of (f_typ fd)))). intros e kd. destruct (is_kind (kind_of (f_typ fd)) KMessage); cbn [r_stmt r_expr ok some_ ok_or decode_or v_b map commas flat_map]; lits; norm; reflexivity.
Qed.
Local Opaque rs_call_of truth equal loop.
Ltac shape fd := destruct fd as [nm fu many t]; unfold rsname, fn_name, size_var, message_of, is_map in *; cbn [f_typ f_name f_full f_many] in *.
Ltac words_of k H := let dw := fresh "dw" in let ew := fresh "ew" in let kw := fresh "kw" in let W := fresh "W" in destruct (scalar_has k H) as (dw & ew & kw & W);
  let A := fresh in assert (A := sw_dec _ _ _ _ W); let A := fresh in assert (A := sw_decn _ _ _ _ W); let A := fresh in assert (A := sw_decd _ _ _ _ W);
  let A := fresh in assert (A := sw_enc _ _ _ _ W); let A := fresh in assert (A := sw_encn _ _ _ _ W); let A := fresh in assert (A := sw_encd _ _ _ _ W);
  let A := fresh in assert (A := sw_kind _ _ _ _ W); let A := fresh in assert (A := sw_kindn _ _ _ _ W); let A := fresh in assert (A := sw_kindc _ _ _ _ W); let A := fresh in assert (A := sw_lut _ _ _ _ W); clear W.
Ltac mid := eapply (writes_both _ _ _ _ RNone).
Lemma t_decode p n m : wname (camel (m_full m)) = true -> Forall ffine (m_fields m) ->
  writes (RUN p (S (S n)) "decode" (VMsg m)) RNone (r_decl (DDecode (camel (m_full m)) (rs_decode_body m))) RNone.
Proof.
  intros N F. rewrite run_S. rewrite decode_tokens. cbn zeta.
  assert (G : exists g, g = get_fields rs_decodeLUT (m_fields m)) by (eexists; reflexivity). destruct G as (g & G).
  assert (FV := fun fd => in_values rs_decodeLUT (m_fields m) fd (proj1 dec_lut) F). assert (FS := fun fd => in_slices rs_decodeLUT (m_fields m) fd F). assert (FM := fun fd => in_messages rs_decodeLUT (m_fields m) fd (proj2 dec_lut) F).
  assert (EC := decoding_call p _ F). rewrite <- G in *. clear G F.
  eapply writes_eq; [ex; rewrite EC; ex; w; mid; [|mid; [|w; mid; [|mid; [|mid; [|w]]]]]| |].
  - apply (loop_writes _ VField (fun fd => r_stmt (rs_decode_slice fd))). intros j fd Hfd. destruct (FS _ Hfd) as (Q & M1 & M2). clear Hfd FV FS FM EC.
    rewrite slice_tokens. destruct (typed_ffine _ Q) as (_ & (pre & s & tw & LT & CT & ET)). rewrite ET. fold (type_of fd) in LT. clear ET. assert (FC := find_call p fd Q). destruct Q as (Nf & Ht). shape fd. subst many.
    destruct t as [k|e|e|k v]; [| | |discriminate M2]; cbn [tfine] in Ht.
    + destruct (scalar_not k Ht) as (N1 & N2 & N3 & N4). words_of k (or_introl Ht : scalar_kind k \/ k = KEnum). assert (KG : k <> KGroup) by apply Ht. eapply writes_eq; [ex; rewrite FC; ex; w| |reflexivity].
      cbn [kind_of]. rewrite N3. closing. unfold t_answer. lits. norm. reflexivity.
    + eapply writes_eq; [ex; rewrite FC; ex; w| |reflexivity]. cbn [kind_of is_kind entry rs_getKind get_kind rs_decodeLUT rs_kindLUT]. unfold t_answer. lits. norm. reflexivity.
    + eapply writes_eq; [ex; rewrite FC; ex; w| |reflexivity]. cbn [kind_of is_kind entry rs_getKind get_kind rs_decodeLUT rs_kindLUT]. unfold t_answer. lits. norm. reflexivity.
  - apply (loop_writes _ VField (fun fd => flat_map r_stmt (rs_decode_map fd))). intros j fd Hfd. destruct (FM _ Hfd) as (Q & M). clear Hfd FV FS FM EC.
    destruct M as [(e & E & M1 & M2)|M].
    + shape fd. subst t. ex. apply writes_nil.
    + assert (T := t_map p n fd Q M). shape fd. destruct t as [| | |k v]; try discriminate M. clear M. ex.
      eapply writes_eq; [rewrite ?both_assoc; eapply writes_both; [exact T|w]| |reflexivity]. rewrite ?app_nil_r. reflexivity.
  - apply (loop_writes _ VField (fun fd => field_tokens (rs_decode_other fd))). intros j fd Hfd. destruct (FV _ Hfd) as (Q & M & C). clear Hfd FV FS FM EC.
    destruct (typed_ffine _ Q) as (_ & (pre & s & tw & LT & CT & ET)). fold (type_of fd) in LT. assert (FC := find_call p fd Q). unfold rs_type_of_field in ET. destruct Q as (Nf & Ht). destruct C as [(k & E & K)|(e & E & We)]; shape fd; subst t many.
    + destruct (scalar_not k K) as (N1 & N2 & N3 & N4). words_of k (or_introl K : scalar_kind k \/ k = KEnum). eapply writes_eq; [ex; w| |reflexivity]. unfold field_tokens, rs_decode_other. cbn zeta. cbn [f_typ kind_of fst snd]. rewrite N4. cbn [r_expr]. closing. unfold rsname. cbn [f_name]. lits. norm. reflexivity.
    + eapply writes_eq; [ex; rewrite FC; ex; w| |reflexivity]. unfold field_tokens, rs_decode_other, rsname. cbn [f_name f_typ kind_of is_kind fst snd try_or ok_or r_expr v_b map commas].
      change (r_type (rs_type_of false (TEnum e))) with [Id (camel e)] in ET. lits. norm. match goal with |- context [Id (camel e) :: ?x] => change (Id (camel e) :: x) with ([Id (camel e)] ++ x) end. rewrite ET. norm. reflexivity.
  - apply (loop_writes _ VField (fun fd => field_tokens (rs_init_slice fd))). intros j fd Hfd. destruct (FS _ Hfd) as (Q & M1 & M2). clear Hfd FV FS FM EC. destruct Q as (Nf & Ht). shape fd.
    eapply writes_eq; [ex; w| |reflexivity]. unfold field_tokens, rs_init_slice, local_or, fn_name, rsname. cbn [f_name fst snd ok_or r_expr v_b map commas]. lits. norm. reflexivity.
  - apply (loop_writes _ VField (fun fd => field_tokens (rs_init_message fd))). intros j fd Hfd. destruct (FM _ Hfd) as (Q & M). clear Hfd FV FS FM EC. destruct Q as (Nf & Ht). destruct M as [(e & E & M1 & M2)|M].
    + shape fd. subst t many. eapply writes_eq; [ex; w| |reflexivity]. unfold field_tokens, rs_init_message, decode_or, message_of, is_map, rsname. cbn [f_typ f_name fst snd ok_or r_expr v_b map commas]. lits. norm. reflexivity.
    + shape fd. destruct t as [| | |k v]; try discriminate M. eapply writes_eq; [ex; w| |reflexivity]. unfold field_tokens, rs_init_message, local_or, fn_name, is_map, rsname. cbn [f_typ f_name fst snd ok_or r_expr v_b map commas]. lits. norm. reflexivity.
  - unfold t_decode_sig, t_answer, t_reader. lits. norm. reflexivity.
  - reflexivity.
Qed.
