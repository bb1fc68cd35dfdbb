(** headers.templ, imports.templ, messages.templ, head.templ, body.templ of the TypeScript generator: the whole file. *)
From Coq Require Import String Ascii.
From Verif Require Import Base Spec GenTables NameModel NameSpec NameThms3 EmitModel EmitSpec EmitThms TplSpec TsGenModel TsGenSpec TsGenThms GoAst GoEmit TsTplText TplModel TplGo TplExec GoLex GoLexThms TsLex TsLexThms TsTpl TsTplThms TsTplThms2 TsTplThms3 TsTplThms4 TsTplThms5.
From Verif Require TplThms.
Import TplThms (some, truth_list, truth_b, truth_nil, sameb, equal_text, equal_kind, equal_card, both_assoc).
Local Open Scope list_scope.

Definition js_lineb (l : bytes) : bool := forallb (fun c => negb ((c =? 10) || (c =? 13))) l.
Lemma JLex_comment b l : js_lineb l = true -> JLex (JComment b) l [] (JComment b).
Proof.
  induction l as [|c l IH]; intros H; [reflexivity|]. cbn [js_lineb forallb] in H. apply andb_true_iff in H. destruct H as (H1 & H2). apply negb_true_iff in H1. specialize (IH H2). unfold JLex in *. cbn [js_lex js_step]. rewrite H1, IH. reflexivity.
Qed.
(** ---- The names that are imported ---- *)
Lemma in_insert k l x : In x (insert_key k l) -> x = k \/ In x l.
Proof.
  induction l as [|m l IH]; cbn [insert_key]; [intros [<-|[]]; auto|]. destruct (String.eqb k m); [auto|]. destruct (before_str k m); cbn [In]; [intuition|]. intros [<-|H]; [auto|]. destruct (IH H); auto.
Qed.
Lemma in_keys d x : In x (keys d) -> In x d.
Proof. induction d as [|k d IH]; cbn [keys fold_right]; [auto|]. intros H. apply in_insert in H. destruct H as [->|H]; [left; reflexivity|right; apply IH, H]. Qed.
Definition wstr (s : string) : Prop := wname (text s) = true.
Lemma word_dec k : scalar_kind k \/ k = KEnum -> wstr (entry (ts_decodeLUT k)). Proof. intros H. destruct k; try (exfalso; destruct H as [(H1 & H2 & H3)|H]; congruence); reflexivity. Qed.
Lemma word_enc k : scalar_kind k \/ k = KEnum -> wstr (entry (ts_encodeLUT k)). Proof. intros H. destruct k; try (exfalso; destruct H as [(H1 & H2 & H3)|H]; congruence); reflexivity. Qed.
Lemma word_kind k s : In s (from_kind k) -> wstr s.
Proof. unfold from_kind. destruct (String.eqb k ""); [intros []|intros [<-|[]]; reflexivity]. Qed.
Lemma word_ditem t s : tfine t -> In s (item_names (ditem t)) -> wstr s.
Proof. destruct t as [k|e|e|k v]; cbn; intros H; [intros [<-|[]]; apply (word_dec k), or_introl, H|intros [<-|[]]; reflexivity|intros []|destruct H]. Qed.
Lemma word_eitem t s : tfine t -> In s (item_names (eitem t)) -> wstr s.
Proof. destruct t as [k|e|e|k v]; cbn; intros H; [intros [<-|[]]; apply (word_enc k), or_introl, H|intros [<-|[]]; reflexivity|intros []|destruct H]. Qed.
Lemma names_words m s : Forall ffine (m_fields m) -> In s (decl_names (tclass m)) -> wstr s.
Proof.
  intros F. unfold tclass. cbn [decl_names]. unfold estmts, dstmts. rewrite !flat_map_app, !flat_map_map, !in_app_iff, !in_flat_map.
  intros [[(fd & Hfd & H)|[(fd & Hfd & H)|(fd & Hfd & H)]]|[(fd & Hfd & H)|[(fd & Hfd & H)|(fd & Hfd & H)]]].
  - destruct (in_single_value _ _ F Hfd) as (_ & _ & [(k & E & K)|(e & E & K)]); unfold evalue, enc_of in H; cbn [enames] in H; rewrite E in H; destruct H as [<-|[]]; [apply (word_enc k), or_introl, K|reflexivity].
  - destruct (in_repeated _ _ F Hfd) as ((_ & Q) & _ & M). unfold is_map in M. unfold eslice in H. destruct (f_typ fd) as [k|e|e|k v]; [| | |discriminate M]; cbn [enames] in H.
    + destruct H as [<-|H]; [reflexivity|]. apply in_app_iff in H. destruct H as [H|H].
      * unfold option_kind in H. destruct (ts_kindLUT _); [exact (word_kind _ _ H)|destruct H].
      * unfold option_names in H. unfold enc_of in H. cbn [TsGenModel.kind_of] in H. assert (W := word_enc k (or_introl Q)). destruct (ts_encodeLUT k); [destruct H as [<-|[]]; exact W|destruct H].
    + destruct H as [<-|H]; [reflexivity|]. apply in_app_iff in H. destruct H as [H|H].
      * unfold option_kind in H. destruct (ts_kindLUT _); [exact (word_kind _ _ H)|destruct H].
      * destruct H as [<-|[]]; reflexivity.
    + destruct H as [<-|H]; [reflexivity|]. exact (word_kind _ _ H).
  - destruct (in_single_message _ _ F Hfd) as ((_ & Q) & _). unfold emessage in H. destruct (f_typ fd) as [k|e|e|k v]; [destruct H..|]. destruct Q as ((k' & -> & K) & V). cbn [enames] in H.
    destruct H as [<-|H]; [reflexivity|]. rewrite !in_app_iff in H. destruct H as [H|[H|[H|H]]]; [exact (word_kind _ _ H)..|exact (word_eitem (TScalar k') _ K H)|exact (word_eitem v _ V H)].
  - destruct (in_repeated _ _ F Hfd) as ((_ & Q) & _ & M). unfold is_map in M. unfold dslice in H. cbn [dnames] in H. destruct H as [<-|H]; [reflexivity|]. apply (word_ditem (f_typ fd)); [|exact H]. destruct (f_typ fd); [exact Q..|discriminate M].
  - destruct (in_single_message _ _ F Hfd) as ((_ & Q) & _). unfold dmessage in H. destruct (f_typ fd) as [k|e|e|k v]; [destruct H..|]. destruct Q as ((k' & -> & K) & V). cbn [dnames] in H.
    destruct H as [<-|H]; [reflexivity|]. rewrite !in_app_iff in H. destruct H as [H|H]; [exact (word_ditem (TScalar k') _ K H)|exact (word_ditem v _ V H)].
  - destruct (in_single_value _ _ F Hfd) as (_ & _ & [(k & E & K)|(e & E & K)]); unfold dother, dec_of in H; cbn [dnames] in H; rewrite E in H; destruct H as [<-|[]]; [apply (word_dec k), or_introl, K|reflexivity].
Qed.
Lemma body_words f s : (forall m, has_message f m -> Forall ffine (m_fields m)) -> In s (flat_map decl_names (tbody f)) -> wstr s.
Proof.
  intros H. unfold tbody, body, messages. rewrite flat_single, flat_map_app, enum_names. cbn [app]. rewrite flat_map_flat, in_flat_map. intros (m & Hm & Hs). rewrite flat_single, flat_map_app, enum_names in Hs. cbn [app] in Hs.
  assert (G : forall k, inside m k -> Forall ffine (m_fields k)) by (intros k Hk; apply H; exists m; auto). clear H Hm f. revert G Hs.
  assert (X : forall h k, (TplSpec.height k <= h)%nat -> (forall j, inside k j -> Forall ffine (m_fields j)) -> In s (flat_map decl_names (structs (fun m => [tclass m]) k)) -> wstr s).
  2: { intros G Hs. exact (X (TplSpec.height m) m (Nat.le_refl _) G Hs). }
  induction h as [|h IH]; intros k Hh G Hs; [destruct k; cbn in Hh; lia|]. rewrite TplThms8.structs_eq, flat_map_app, flat_map_flat, in_app_iff in Hs. destruct Hs as [Hs|Hs].
  - apply in_flat_map in Hs. destruct Hs as (a & Ha & Hs). destruct (m_entry a) eqn:Ea; [destruct Hs|]. apply (IH a); [assert (L := TplThms8.height_nested _ _ Ha); lia| |exact Hs]. intros j Hj. apply G. exact (inside_nested _ _ _ Ha Ea Hj).
  - cbn [flat_map] in Hs. rewrite app_nil_r in Hs. exact (names_words k s (G k (inside_self k)) Hs).
Qed.
Local Opaque ts_call_of truth equal loop show_int.
Lemma keys_writes (body : string -> tval -> option bytes) (l : list string) :
  (forall k, In k l -> writes (body k VStruct) (JNone false) [id k; op ","] (JNone false)) -> writes (loop_keys body (map (fun k => (k, VStruct)) l)) (JNone false) (flat_map (fun k => [id k; op ","]) l) (JNone false).
Proof.
  induction l as [|k l IH]; intros H; [apply writes_nil|]. cbn [map loop_keys flat_map]. eapply writes_both; [apply H; left; reflexivity|]. apply IH. intros x Hx. apply H. right. exact Hx.
Qed.
Arguments loop_keys : simpl never.
Definition hdata (s : tsource) (d : deps) : tval := ts_head_data true s d.
Lemma t_headers o n s d : js_lineb (ts_version s) = true -> js_lineb (ts_path s) = true -> writes (RUN o (S n) "headers" (ts_head_data true s d)) (JNone false) [] (JNone true).
Proof.
  intros V P. rewrite run_S. unfold ts_head_data. eapply writes_eq; [ex; w; [eapply writes_both; [apply writes_some, JLex_comment, V|]; w; eapply writes_both; [apply writes_some, JLex_comment, P|]; w]|reflexivity|reflexivity].
Qed.
(** a version that ends in a newline: the rest of the comment is no comment *)
Definition ts_spill : list token := [nl; op ","; id "DO"; id "NOT"; id "EDIT"; op "."].
Lemma t_headers_bad o n s d v : ts_version s = v ++ [10] -> js_lineb v = true -> js_lineb (ts_path s) = true -> writes (RUN o (S n) "headers" (ts_head_data true s d)) (JNone false) ts_spill (JNone true).
Proof.
  intros E V P. rewrite run_S. unfold ts_head_data. rewrite E.
  assert (L : JLex (JComment true) (v ++ [10]) [] (JNone true)) by (change (@nil token) with (@nil token ++ []); eapply JLex_app; [apply JLex_comment, V|reflexivity]).
  eapply writes_eq; [ex; w; eapply writes_both; [apply writes_some, JLex_comment, P|]; w|reflexivity|reflexivity].
Qed.
Lemma t_imports o h n s d : (forall k, In k d -> wstr k) -> writes (RUN o (S n) "imports" (ts_head_data h s d)) (JNone true) (j_import (keys d)) (JNone true).
Proof.
  intros W. rewrite run_S. unfold ts_head_data, j_import. eapply writes_eq; [ex; w; eapply (writes_both _ _ _ _ (JNone false)); [apply keys_writes; intros k Hk; assert (K := W k (in_keys _ _ Hk)); unfold wstr in K|w]| |].
  - eapply writes_eq; [ex; w|jfin|reflexivity].
  - jfin.
  - reflexivity.
Qed.
(** ---- body.templ ---- *)
Definition enums_tokens (l : list enumd) : list token := flat_map (fun e => j_decl (ts_enum e)) l.
Definition class_list (m : msgd) : list tsdecl := structs (fun m => [tclass m]) m.
Lemma t_enums o n s : (forall e, In e (d_enums (ts_source_file s)) -> ts_efine e) ->
  writes (RUN o (S (S n)) "enums" (ts_body_data s)) (JNone true) (enums_tokens (d_enums (ts_source_file s))) (JNone true).
Proof.
  intros H. rewrite run_S. unfold ts_body_data. eapply writes_eq; [ex; w; mid; [|w]|cbn [app]; rewrite app_nil_r; reflexivity|reflexivity].
  apply (loop_nth_writes _ VStruct (fun e => j_decl (ts_enum e))). intros j e Hj. rewrite (at_nth _ _ _ Hj). cbn [option_map]. assert (T := t_enum o n e (H e (nth_error_In _ _ Hj))).
  eapply writes_eq; [ex; w; mid; [exact T|w]|norm; rewrite ?app_nil_r; reflexivity|reflexivity].
Qed.
Lemma t_messages o n s : (forall m, In m (d_msgs (ts_source_file s)) -> forall e, In e (m_enums m) -> ts_efine e) ->
  (forall m, In m (d_msgs (ts_source_file s)) -> writes (RUN o (S (S n)) "structs" (VMsg m)) (JNone true) (flat_map j_decl (class_list m)) (JNone true)) ->
  writes (RUN o (S (S (S n))) "messages" (ts_body_data s)) (JNone true) (flat_map (fun m => enums_tokens (m_enums m) ++ flat_map j_decl (class_list m)) (d_msgs (ts_source_file s))) (JNone true).
Proof.
  intros HE HM. rewrite run_S. unfold ts_body_data. eapply writes_eq; [ex; w; mid; [|w]| |].
  - apply (loop_nth_writes _ VStruct (fun m => enums_tokens (m_enums m) ++ flat_map j_decl (class_list m))). intros j m Hj. rewrite (at_nth _ _ _ Hj). cbn [option_map]. assert (H1 := HE m (nth_error_In _ _ Hj)). assert (H2 := HM m (nth_error_In _ _ Hj)).
    eapply writes_eq; [ex; w; mid; [|w; mid; [exact H2|w]]| |].
    + apply (loop_nth_writes _ VStruct (fun e => j_decl (ts_enum e))). intros j' e Hj'. rewrite (at_nth _ _ _ Hj'). cbn [option_map]. assert (T := t_enum o (S n) e (H1 e (nth_error_In _ _ Hj'))).
      eapply writes_eq; [ex; w; mid; [exact T|w]|norm; rewrite ?app_nil_r; reflexivity|reflexivity].
    + unfold enums_tokens. norm. rewrite ?app_nil_r. reflexivity.
    + reflexivity.
  - rewrite app_nil_r. norm. reflexivity.
  - reflexivity.
Qed.
Lemma body_tokens f : flat_map j_decl (tbody f) = enums_tokens (d_enums f) ++ flat_map (fun m => enums_tokens (m_enums m) ++ flat_map j_decl (class_list m)) (d_msgs f).
Proof.
  unfold tbody, body, messages. rewrite flat_map_app, !flat_map_flat. f_equal.
  - apply flat_map_ext. intros e. cbn [flat_map]. apply app_nil_r.
  - apply flat_map_ext. intros m. rewrite flat_map_app, flat_map_flat. f_equal. apply flat_map_ext. intros e. cbn [flat_map]. apply app_nil_r.
Qed.
Section Whole.
Variables (o : Z -> Z) (n : nat) (s : tsource).
Hypothesis HE : forall e, In e (d_enums (ts_source_file s)) -> ts_efine e.
Hypothesis HEM : forall m, In m (d_msgs (ts_source_file s)) -> forall e, In e (m_enums m) -> ts_efine e.
Hypothesis HM : forall m, In m (d_msgs (ts_source_file s)) -> writes (RUN o (S (S n)) "structs" (VMsg m)) (JNone true) (flat_map j_decl (class_list m)) (JNone true).
Lemma t_body : writes (RUN o (S (S (S (S n)))) "body.templ" (ts_body_data s)) (JNone true) (flat_map j_decl (tbody (ts_source_file s))) (JNone true).
Proof using HE HEM HM.
  rewrite run_S, body_tokens. assert (EN := t_enums o (S n) s HE). assert (MS := t_messages o n s HEM HM). clear HM HEM HE.
  eapply writes_eq; [cbn; mid; [exact EN|w; mid; [exact MS|w]]|norm; rewrite ?app_nil_r; reflexivity|reflexivity].
Qed.
End Whole.
Lemma t_head o n s d hs : (forall k, In k d -> wstr k) -> writes (RUN o (S n) "headers" (ts_head_data true s d)) (JNone false) hs (JNone true) ->
  writes (RUN o (S (S n)) "head.templ" (ts_head_data true s d)) (JNone false) (hs ++ j_import (keys d)) (JNone true).
Proof.
  intros W HH. rewrite run_S. assert (I := t_imports o true n s d W). eapply writes_eq; [cbn; mid; [exact HH|w; mid; [exact I|w]]|norm; rewrite ?app_nil_r; reflexivity|reflexivity].
Qed.
