(** decode.templ of the TypeScript generator: what it writes. *)
From Coq Require Import String Ascii.
From Verif Require Import Base Spec GenTables NameModel NameSpec NameThms3 EmitModel EmitSpec EmitThms TsGenModel TsGenSpec TsGenThms GoAst GoEmit TsTplText TplModel TplGo TplExec GoLex GoLexThms TsLex TsLexThms TsTpl TsTplThms TsTplThms2.
From Verif Require TplThms.
Import TplThms (some, truth_list, truth_b, truth_nil, sameb, equal_text, equal_kind, equal_card, both_assoc).
Local Open Scope list_scope.

(** which fields are in which group *)
Lemma in_single_value fs fd : Forall ffine fs -> In fd (filter is_single_value fs) ->
  ffine fd /\ f_many fd = false /\ ((exists k, f_typ fd = TScalar k /\ scalar_kind k) \/ exists s, f_typ fd = TEnum s /\ wname (camel s) = true).
Proof.
  intros F H. apply filter_In in H. destruct H as (H & C). rewrite Forall_forall in F. assert (Q := F _ H). split; [exact Q|]. destruct Q as (_ & Q). unfold is_single_value, is_repeated, TsGenModel.is_map in C.
  destruct (f_typ fd) as [k|s|s|k v]; cbn [negb andb] in C; rewrite ?andb_true_r, ?andb_false_r in C; try discriminate C; apply negb_true_iff in C; (split; [exact C|]); [left|right]; eauto.
Qed.
Lemma in_repeated fs fd : Forall ffine fs -> In fd (filter is_repeated fs) -> ffine fd /\ f_many fd = true /\ is_map fd = false.
Proof.
  intros F H. apply filter_In in H. destruct H as (H & C). rewrite Forall_forall in F. split; [apply F, H|]. unfold is_repeated in C. apply andb_true_iff in C. destruct C as (C1 & C2). apply negb_true_iff in C2. auto.
Qed.
Lemma in_single_message fs fd : Forall ffine fs -> In fd (filter is_single_message fs) ->
  ffine fd /\ ((exists s, f_typ fd = TMsg s /\ f_many fd = false /\ wname (camel s) = true) \/ is_map fd = true).
Proof.
  intros F H. apply filter_In in H. destruct H as (H & C). rewrite Forall_forall in F. assert (Q := F _ H). split; [exact Q|]. destruct Q as (_ & Q). unfold is_single_message, is_repeated, TsGenModel.is_map in C. unfold is_map.
  destruct (f_typ fd) as [k|s|s|k v]; cbn [negb andb] in C; rewrite ?andb_true_r, ?andb_false_r in C; try discriminate C; [|right; reflexivity]. apply negb_true_iff in C. left. eauto.
Qed.
(** the method *)
Definition decode_tokens (m : msgd) : list token :=
  [nl; id "static"; id "decode"; op "("; id "buf"; op ":"; id "Uint8Array"; op ")"; op ":"; op "{"; id "buf"; op ":"; id "Uint8Array"; op ","; id "value"; op ":"; Id (camel (m_full m)); op "}"; op "{"] ++
  let_ (text "decoded") [id "buf"] ++ flat_map j_dstmt (dstmts (m_fields m)) ++
  [nl; id "return"; op "{"; id "buf"; op ":"; id "decoded"; op ","; id "value"; op ":"; id "new"; Id (camel (m_full m)); op "("] ++
  flat_map (fun f => [nl; Id (temp f); op "."; id "value"; op ","]) (dargs (m_fields m)) ++ [nl; op ")"; op "}"; nl; op "}"].
Local Opaque ts_call_of truth equal loop.
Lemma t_decode o n m : wname (camel (m_full m)) = true -> Forall ffine (m_fields m) ->
  writes (RUN o (S (S n)) "decode" (VMsg m)) (JNone true) (decode_tokens m) (JNone true).
Proof.
  intros N F. rewrite run_S. unfold decode_tokens, dstmts, dargs. rewrite !flat_map_app, !flat_map_map.
  assert (FV := fun fd => in_single_value (m_fields m) fd F). assert (FS := fun fd => in_repeated (m_fields m) fd F). assert (FM := fun fd => in_single_message (m_fields m) fd F).
  assert (EC := decoding_call o _ F). clear F. set (vs := filter is_single_value (m_fields m)) in *. set (ss := filter is_repeated (m_fields m)) in *. set (ms := filter is_single_message (m_fields m)) in *. clearbody vs ss ms.
  eapply writes_eq; [ex; rewrite EC; ex; w; mid; [|w; mid; [|w; mid; [|w; mid; [|w; mid; [|w; mid; [|w]]]]]]| |].
  - apply (loop_writes _ VField (fun fd => j_dstmt (dslice fd))). intros j fd Hfd. destruct (FS _ Hfd) as (Q & M1 & M2). clear Hfd FV FS FM EC.
    assert (FC := find_call o fd Q). destruct (typed_ffine _ Q) as (pre & s & tw & LT & CT & ET). destruct Q as (Nf & Ht). unfold dslice. cbn [j_dstmt]. unfold j_reads, temp. rewrite ET.
    shape fd. subst many. jnames. named o nm Nf.
    destruct t as [k|e|e|k v]; [| | |discriminate M2]; cbn [tfine] in Ht.
    + destruct (scalar_not k Ht) as (N1 & N2 & N3 & N4). words_of k (or_introl Ht : scalar_kind k \/ k = KEnum). assert (KG : k <> KGroup) by apply Ht.
      eapply writes_eq; [ex; rewrite FC; ex; w| |reflexivity]. cbn [ditem j_ditem]. unfold let_, decoded_is. jfin.
    + eapply writes_eq; [ex; rewrite FC; ex; w| |reflexivity]. cbn [ditem j_ditem]. unfold let_, decoded_is. jfin.
    + assert (TR : TrimSuffix (field_type (mkfield nm fu true (TMsg e))) (text "[]") = js_type (TMsg e)) by apply (trim_many (js_type (TMsg e))). assert (JW := js_word (TMsg e) Ht).
      eapply writes_eq; [ex; rewrite FC; ex; w| |reflexivity]. cbn [ditem j_ditem]. unfold let_, decoded_is. change (j_type (TMsg e)) with [Id (js_type (TMsg e))]. jfin.
  - apply (loop_writes _ VField (fun fd => j_dstmt (dmessage fd))). intros j fd Hfd. destruct (FM _ Hfd) as (Q & M). clear Hfd FV FS FM EC.
    assert (FC := find_call o fd Q). destruct (typed_ffine _ Q) as (pre & s & tw & LT & CT & ET). destruct M as [(e & E & M1 & M2)|M].
    + destruct Q as (Nf & Ht). shape fd. subst t many. cbn [dmessage f_typ j_dstmt]. unfold temp, let_, decoded_is. rewrite ET. jnames. named o nm Nf.
      eapply writes_eq; [ex; rewrite FC; ex; w|jfin|reflexivity].
    + assert (T := t_map o n fd Q M). shape fd. destruct t as [| | |k v]; try discriminate M. clear M.
      eapply writes_eq; [ex; rewrite FC; ex; w; mid; [exact T|w]|norm; rewrite ?app_nil_r; reflexivity|reflexivity].
  - apply (loop_writes _ VField (fun fd => j_dstmt (dother fd))). intros j fd Hfd. destruct (FV _ Hfd) as (Q & M & C). clear Hfd FV FS FM EC.
    assert (FC := find_call o fd Q). destruct (typed_ffine _ Q) as (pre & s & tw & LT & CT & ET). destruct Q as (Nf & Ht). unfold dother. destruct C as [(k & E & K)|(e & E & We)]; shape fd; subst t many.
    + destruct (scalar_not k K) as (N1 & N2 & N3 & N4). words_of k (or_introl K : scalar_kind k \/ k = KEnum). assert (EE : is_enum (TScalar k) = false) by (destruct k; try reflexivity; discriminate N4). rewrite EE. cbn [j_dstmt]. unfold temp, let_, decoded_is. jnames. named o nm Nf.
      eapply writes_eq; [ex; rewrite FC; ex; w|jfin|reflexivity].
    + change (is_enum (TEnum e)) with true. cbn [j_dstmt]. unfold temp, let_, decoded_is. rewrite ET. jnames. named o nm Nf.
      eapply writes_eq; [ex; rewrite FC; ex; w|jfin|reflexivity].
  - apply (loop_writes _ VField (fun fd => [nl; Id (temp fd); op "."; id "value"; op ","])). intros j fd Hfd. destruct (FV _ Hfd) as ((Nf & _) & _). clear Hfd FV FS FM EC. shape fd. unfold temp. jnames. named o nm Nf.
    eapply writes_eq; [ex; w|jfin|reflexivity].
  - apply (loop_writes _ VField (fun fd => [nl; Id (temp fd); op "."; id "value"; op ","])). intros j fd Hfd. destruct (FS _ Hfd) as ((Nf & _) & _). clear Hfd FV FS FM EC. shape fd. unfold temp. jnames. named o nm Nf.
    eapply writes_eq; [ex; w|jfin|reflexivity].
  - apply (loop_writes _ VField (fun fd => [nl; Id (temp fd); op "."; id "value"; op ","])). intros j fd Hfd. destruct (FM _ Hfd) as ((Nf & _) & _). clear Hfd FV FS FM EC. shape fd. unfold temp. jnames. named o nm Nf.
    eapply writes_eq; [ex; w|jfin|reflexivity].
  - unfold let_. jfin.
  - reflexivity.
Qed.
