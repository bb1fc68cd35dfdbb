(** encode.templ of the TypeScript generator: what it writes. *)
From Coq Require Import String Ascii.
From Verif Require Import Base Spec GenTables NameModel NameSpec NameThms3 EmitModel EmitSpec EmitThms TsGenModel TsGenSpec TsGenThms GoAst GoEmit TsTplText TplModel TplGo TplExec GoLex GoLexThms TsLex TsLexThms TsTpl TsTplThms TsTplThms2 TsTplThms3.
From Verif Require TplThms.
Import TplThms (some, truth_list, truth_b, truth_nil, sameb, equal_text, equal_kind, equal_card, both_assoc).
Local Open Scope list_scope.

Definition encode_tokens (m : msgd) : list token :=
  [nl; id "encode"; op "("; id "buf"; op ":"; id "Uint8Array"; op ")"; op ":"; id "Uint8Array"; op "{"] ++ let_ (text "encoded") [id "buf"] ++
  flat_map j_estmt (estmts (m_fields m)) ++ [nl; id "return"; id "encoded"; nl; op "}"].
(** fn(encoded, this.name as number) *)
Lemma value_read fd : ffine fd -> f_many fd = false -> ((exists k, f_typ fd = TScalar k /\ scalar_kind k) \/ exists s, f_typ fd = TEnum s /\ wname (camel s) = true) ->
  exists ts, JLex (JNone false) (value_text fd) ts (JNone false) /\ j_estmt (evalue fd) = nl :: id "encoded" :: op "=" :: ts.
Proof.
  intros (Nf & _) M C. unfold value_text, evalue. cbn [j_estmt]. assert (J := jn_word _ Nf). rewrite jname_jn. set (w := jn (f_name fd)) in *. clearbody w. unfold encoded_is, enc_of. destruct C as [(k & E & K)|(e & E & We)]; rewrite E.
  - destruct (scalar_not k K) as (N1 & N2 & N3 & N4). words_of k (or_introl K : scalar_kind k \/ k = KEnum). assert (EE : is_enum (TScalar k) = false) by (destruct k; try reflexivity; discriminate N4). rewrite EE. cbn [kind_of TsGenModel.kind_of]. rewrite N4. lits. closing.
    eexists. split; [jlex_one assumption|]. norm. reflexivity.
  - change (is_enum (TEnum e)) with true. cbn [kind_of TsGenModel.kind_of is_kind]. lits. eexists. split; [jlex_one assumption|]. norm. reflexivity.
Qed.
Lemma slice_words k : scalar_kind k -> match ts_kindLUT k with Some x => j_kind x | None => [] end = j_kind (entry (ts_kindLUT k)) /\ match ts_encodeLUT k with Some e => [id e] | None => [] end = [Id (text (entry (ts_encodeLUT k)))].
Proof. intros (H1 & H2 & H3). destruct k; try congruence; split; reflexivity. Qed.
Local Opaque ts_call_of truth equal loop.
Lemma t_encodeSlices o n fs vs ms : Forall ffine fs ->
  writes (RUN o (S n) "encodeSlices" (VRec [("MessageFields"%string, ms); ("SliceFields"%string, VList (map VField (filter is_repeated fs))); ("Values"%string, vs)])) (JNone true) (flat_map (fun fd => j_estmt (eslice fd)) (filter is_repeated fs)) (JNone true).
Proof.
  intros F. rewrite run_S. assert (FS := fun fd => in_repeated fs fd F). clear F. set (ss := filter is_repeated fs) in *. clearbody ss.
  eapply writes_eq; [ex; w; mid; [|w]|cbn [app]; rewrite app_nil_r; reflexivity|reflexivity].
  apply (loop_writes _ VField (fun fd => j_estmt (eslice fd))). intros j fd Hfd. destruct (FS _ Hfd) as ((Nf & Ht) & M1 & M2). clear Hfd FS. shape fd. subst many. unfold eslice. cbn [f_typ]. 
  destruct t as [k|e|e|k v]; [| | |discriminate M2]; cbn [tfine] in Ht; cbn [j_estmt]; unfold mine; jnames; named o nm Nf.
  - destruct (scalar_not k Ht) as (N1 & N2 & N3 & N4). destruct (slice_words k Ht) as (SW1 & SW2). words_of k (or_introl Ht : scalar_kind k \/ k = KEnum).
    eapply writes_eq; [ex; w| |reflexivity]. unfold enc_of. cbn [TsGenModel.kind_of kind_of]. rewrite SW1, SW2. unfold encoded_is, for_each. jfin.
  - eapply writes_eq; [ex; w| |reflexivity]. unfold encoded_is, for_each. jfin.
  - eapply writes_eq; [ex; w| |reflexivity]. unfold encoded_is, for_each. jfin.
Qed.
Lemma t_encodeMessages o n fs vs ss : Forall ffine fs ->
  writes (RUN o (S n) "encodeMessages" (VRec [("MessageFields"%string, VList (map VField (filter is_single_message fs))); ("SliceFields"%string, ss); ("Values"%string, vs)])) (JNone true) (flat_map (fun fd => j_estmt (emessage fd)) (filter is_single_message fs)) (JNone true).
Proof.
  intros F. rewrite run_S. assert (FM := fun fd => in_single_message fs fd F). clear F. set (ms := filter is_single_message fs) in *. clearbody ms.
  eapply writes_eq; [ex; w; mid; [|w]|cbn [app]; rewrite app_nil_r; reflexivity|reflexivity].
  apply (loop_writes _ VField (fun fd => j_estmt (emessage fd))). intros j fd Hfd. destruct (FM _ Hfd) as ((Nf & Ht) & M). clear Hfd FM. unfold emessage. destruct M as [(e & E & M1 & M2)|M].
  - shape fd. subst t many. cbn [j_estmt]. unfold mine; jnames; named o nm Nf. eapply writes_eq; [ex; w| |reflexivity]. unfold encoded_is. jfin.
  - shape fd. destruct t as [| | |k v]; try discriminate M. clear M. destruct Ht as ((k' & E & K) & V). subst k. cbn [j_estmt]. unfold mine; jnames; named o nm Nf.
    destruct (scalar_not k' K) as (N1 & N2 & N3 & N4). words_of k' (or_introl K : scalar_kind k' \/ k' = KEnum). assert (KG : k' <> KGroup) by apply K.
    destruct v as [kv|sv'|sv'|? ?]; [| | |destruct V]; cbn [tfine] in V.
    + destruct (scalar_not kv V) as (N1' & N2' & N3' & N4'). words_of kv (or_introl V : scalar_kind kv \/ kv = KEnum). assert (KG' : kv <> KGroup) by apply V.
      eapply writes_eq; [ex; w| |reflexivity]. unfold for_each, encoded_is. cbn [eitem j_eitem]. unfold encoded_is. jfin.
    + eapply writes_eq; [ex; w| |reflexivity]. unfold for_each, encoded_is. cbn [eitem j_eitem]. unfold encoded_is. jfin.
    + eapply writes_eq; [ex; w| |reflexivity]. unfold for_each, encoded_is. cbn [eitem j_eitem]. unfold encoded_is. jfin.
Qed.

Lemma t_encode o n m : wname (camel (m_full m)) = true -> Forall ffine (m_fields m) ->
  writes (RUN o (S (S n)) "encode" (VMsg m)) (JNone true) (encode_tokens m) (JNone true).
Proof.
  intros N F. rewrite run_S. assert (FV := fun fd => in_single_value (m_fields m) fd F). assert (EC := encoding_call o _ F).
  set (G := map (fun fd => VText (value_text fd)) (filter is_single_value (m_fields m))) in *.
  assert (TS := t_encodeSlices o n (m_fields m) (VList G) (VList (map VField (filter is_single_message (m_fields m)))) F). assert (TM := t_encodeMessages o n (m_fields m) (VList G) (VList (map VField (filter is_repeated (m_fields m)))) F).
  assert (ET : exists T, T = encode_tokens m) by (eexists; reflexivity). destruct ET as (T & ET). rewrite <- ET. ex. rewrite EC. ex.
  match goal with |- context [loop ?body 0 G] => destruct (loop_breaks body (fun fd => VText (value_text fd)) (fun fd => j_estmt (evalue fd)) (filter is_single_value (m_fields m)) 0 true) as (b & LV) end.
  { intros j b0 fd Hfd. destruct (FV fd Hfd) as (Q & M & C). destruct (value_read fd Q M C) as (ts & L & E). rewrite E. cbn [show]. destruct b0; (eapply writes_eq; [ex; w|norm; rewrite ?app_nil_r; reflexivity|reflexivity]). }
  fold G in LV. subst T. unfold encode_tokens, estmts. rewrite !flat_map_app, !flat_map_map.
  destruct b.
  all: (eapply writes_eq; [w; eapply writes_both; [exact LV|]; w; mid; [|mid; [|w]]| |]).
  1, 5: instantiate (1 := flat_map (fun fd => j_estmt (eslice fd)) (filter is_repeated (m_fields m))); destruct (filter is_repeated (m_fields m)) eqn:ES; [apply writes_nil|]; cbn [some]; rewrite <- (app_nil_r (flat_map _ (_ :: _))); eapply writes_both; [exact TS|apply writes_nil].
  1, 4: instantiate (1 := flat_map (fun fd => j_estmt (emessage fd)) (filter is_single_message (m_fields m))); destruct (filter is_single_message (m_fields m)) eqn:ES; [apply writes_nil|]; cbn [some]; rewrite <- (app_nil_r (flat_map _ (_ :: _))); eapply writes_both; [exact TM|apply writes_nil].
  all: try reflexivity.
  all: unfold let_; jfin.
Qed.
