(** Files with the names of TsTplSpec: their text. *)
From Coq Require Import String Ascii.
From Verif Require Import Base Spec GenTables NameModel NameSpec NameThms3 EmitModel EmitSpec EmitThms TplSpec RsTplSpec TsTplSpec TsGenModel TsGenSpec TsGenThms GoAst GoEmit TsTplText TplModel TplGo TplExec GoLex GoLexThms TsLex TsLexThms TsTpl TsTplThms TsTplThms2 TsTplThms3 TsTplThms4 TsTplThms5 TsTplThms6.
From Verif Require RsLexThms RsTplThms7.
Import RsTplThms7 (ident_word, camel_word).
Local Open Scope list_scope.

Lemma type_fine t : rs_type_ok t -> tfine t.
Proof. destruct t as [k|s|s|k v]; cbn; auto using camel_word. Qed.
Lemma field_fine fd : rs_field_ok fd -> ffine fd.
Proof.
  intros (N & H). split; [apply ident_word, N|]. destruct (f_typ fd) as [k|s|s|k v]; [apply type_fine, H..|]. destruct H as (H1 & H2). split; [exact H1|apply type_fine, H2].
Qed.
Lemma enum_fine e : rs_enum_ok e -> ts_efine e.
Proof. intros (H1 & H2). split; [apply camel_word, H1|]. intros v Hv. apply ident_word, H2, Hv. Qed.
Lemma fields_fine f : ts_nameable f -> forall m, has_message f m -> Forall ffine (m_fields m).
Proof. intros F m H. apply Forall_forall. intros fd Hfd. apply field_fine, (rn_fields _ F m fd H Hfd). Qed.
Lemma messages_fine o f n : ts_nameable f -> forall m, In m (d_msgs f) ->
  writes (RUN o (S (S (depth f + n))) "structs" (VMsg m)) (JNone true) (flat_map j_decl (class_list m)) (JNone true).
Proof.
  intros F m Hm. apply t_structs.
  - unfold depth. assert (A := proj1 (list_max_le (map height (d_msgs f)) (list_max (map height (d_msgs f)))) (Nat.le_refl _)). rewrite Forall_forall in A. apply A, in_map, Hm.
  - intros k Hk. assert (H : has_message f k) by (exists m; auto). split; [apply camel_word, (rn_messages _ F k H)|]. exact (fields_fine f F k H).
Qed.
Lemma nameable_good f : ts_nameable f -> fgood f.
Proof.
  intros F x (m & Hm & Hx). assert (Q := rn_fields _ F m x Hm Hx). destruct Q as (_ & Q).
  assert (T : forall t, rs_type_ok t -> type_wf t /\ type_ok t /\ forall a b, t <> TMap a b).
  { intros [k|s|s|k v]; cbn; intros H; [|repeat split; discriminate..|destruct H]. destruct H as (H1 & H2 & H3). repeat split; try assumption. discriminate. }
  unfold good. destruct (f_typ x) as [k|s|s|k v]; [split; apply (T _ Q)..|]. destruct Q as ((k' & -> & K) & V). destruct (T (TScalar k') K) as (A1 & A2 & A3), (T v V) as (B1 & B2 & B3). cbn. cbn in A1, A2. auto.
Qed.
Lemma line_lineb l : js_line l -> js_lineb l = true.
Proof. intros H. apply forallb_forall. intros c Hc. destruct (H c Hc) as (H1 & H2 & _). apply negb_true_iff, orb_false_iff. split; apply Z.eqb_neq; assumption. Qed.
Lemma text_headed o s fuel d0 hs : ts_nameable (ts_source_file s) -> (forall n, In n d0 -> importable n) -> (depth (ts_source_file s) + 4 <= fuel)%nat ->
  (forall n d, writes (RUN o (S n) "headers" (ts_head_data true s d)) (JNone false) hs (JNone true)) ->
  exists d B l, ExecuteTemplate (ts_source_file s) d0 = Ok (mktsfile d B, d) /\ ts_file_text o true fuel s d = Some l /\
    js_tokens l = hs ++ j_import (keys d) ++ flat_map j_decl B.
Proof.
  intros F I D HH. destruct (run_file _ d0 (nameable_good _ F)) as (d & E & ID). exists d, (tbody (ts_source_file s)).
  assert (X : exists n, fuel = S (S (S (S (depth (ts_source_file s) + n))))) by (exists (fuel - 4 - depth (ts_source_file s))%nat; lia). destruct X as (n & ->).
  assert (W : forall k, In k d -> wstr k). { intros k Hk. apply ID in Hk. destruct Hk as [Hk|Hk]; [exact (body_words _ k (fields_fine _ F) Hk)|]. apply ident_word, I, Hk. }
  destruct (t_body o (depth (ts_source_file s) + n) s) as (b & EB & LB).
  { intros e He. apply enum_fine, (rn_enums _ F e He). }
  { intros m Hm e He. apply enum_fine, (rn_nested _ F m e Hm He). }
  { apply messages_fine, F. }
  destruct (t_head o (S (S (depth (ts_source_file s) + n))) s d hs W (HH _ _)) as (h & EH & LH).
  exists (h ++ b). split; [exact E|]. unfold ts_file_text. rewrite ts_parsed_ok, EB, EH. split; [reflexivity|]. unfold js_tokens.
  assert (Y := JLex_app _ _ _ _ _ _ _ (JLex_app _ _ _ _ _ _ _ LH LB) (eq_refl : JLex (JNone true) [10] [] (JNone true))). unfold JLex in Y. rewrite Y. cbn [fst]. rewrite app_nil_r, <- app_assoc. reflexivity.
Qed.
Lemma text_header o s fuel d0 : ts_nameable (ts_source_file s) -> (forall n, In n d0 -> importable n) -> js_line (ts_version s) -> js_line (ts_path s) -> (depth (ts_source_file s) + 4 <= fuel)%nat ->
  exists d B l, ExecuteTemplate (ts_source_file s) d0 = Ok (mktsfile d B, d) /\ ts_file_text o true fuel s d = Some l /\ js_tokens l = j_import (keys d) ++ flat_map j_decl B.
Proof. intros F I V P D. apply (text_headed o s fuel d0 []); [exact F|exact I|exact D|]. intros n d. apply t_headers; apply line_lineb; assumption. Qed.
Lemma text_spilled o s fuel d0 v : ts_nameable (ts_source_file s) -> (forall n, In n d0 -> importable n) -> ts_version s = v ++ [10] -> js_line v -> js_line (ts_path s) -> (depth (ts_source_file s) + 4 <= fuel)%nat ->
  exists d B l, ExecuteTemplate (ts_source_file s) d0 = Ok (mktsfile d B, d) /\ ts_file_text o true fuel s d = Some l /\ js_tokens l = ts_spill ++ j_import (keys d) ++ flat_map j_decl B.
Proof. intros F I E V P D. apply (text_headed o s fuel d0 ts_spill); [exact F|exact I|exact D|]. intros n d. apply (t_headers_bad _ _ _ _ v); [exact E|apply line_lineb; assumption..]. Qed.
