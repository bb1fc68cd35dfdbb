(** Generated functions pass the type checker. *)
From Coq Require Import String.
From Verif Require Import Base Spec GenTables GenModel NameModel NameSpec EmitModel EmitSpec EmitThms PkgThms GoAst GoEmit GoRunSpec GoLink GoScope GoSlices GoMsgs GoMaps GoDecode GoTypes GoTypes2.
From Verif Require GoCalls.
Local Open Scope list_scope.

Lemma is_ty_refl t : is_ty t t = true.
Proof. unfold is_ty. destruct (ty_eq_dec t t); [reflexivity|contradiction]. Qed.
Lemma assignable_refl P t : assignable P t t = true.
Proof. unfold assignable. rewrite is_ty_refl. reflexivity. Qed.

Section Checks.
Variables (v2 : bool) (f : filed).
Hypothesis NA : names_apart v2 f.
Notation P := (go_program v2 f).
Notation names := (go_names (go_file v2 f)).
Notation ETY := (ety v2 P).
Notation CK := (GoTypes.check v2 P).
Notation clear := (clear v2 f).

Lemma names_local G n : clear G -> In n names -> local G n = false. Proof using Type. intros C H. apply C. auto. Qed.
(** ---- calls ---- *)
Lemma new_sig G s : clear G -> known_type f (TMsg s) -> app_sig P G (new_name (camel s)) [] = Some [PtrT (camel s)].
Proof using NA.
  intros C (m & Hm & <-). destruct (msg_names v2 f NA m Hm) as (M1 & M2 & M3 & M4). unfold app_sig. rewrite (names_local G _ C M3), M4.
  assert (F : find_func None (new_name (camel (m_full m))) P = Some (new_func v2 m)).
  { apply (find_func_in v2 f (na_once _ _ NA) (new_func v2 m)). apply (in_P_msg v2 f m); [exact Hm|]. unfold struct_decls. apply in_or_app. right. cbn [In]. auto. }
  rewrite F. unfold call_sig. cbn [new_func fn_types fn_result map all_types assign_all type_written]. rewrite (star_of v2 f NA [] (m_full m) (clear_nil v2 f) (known_star f m Hm)). reflexivity.
Qed.
Lemma own_in m g : has_message f m -> In (DFunc g) [DFunc (new_func v2 m); DFunc (error_func m); DFunc (encode_func m); DFunc (decode_outer_func v2 m); DFunc (decode_func v2 m)] -> find_func (fn_recv g) (fn_name g) P = Some g.
Proof using NA.
  intros Hm H. apply (find_func_in v2 f (na_once _ _ NA)). apply (in_P_msg v2 f m); [exact Hm|]. unfold struct_decls. apply in_or_app. right. right. exact H.
Qed.
Lemma map_in m fd g : has_message f m -> In fd (m_fields m) -> In (DFunc g) (map_decls fd) -> find_func (fn_recv g) (fn_name g) P = Some g.
Proof using NA. intros Hm Hf H. apply (find_func_in v2 f (na_once _ _ NA)). exact (in_P_map v2 f m fd _ Hm Hf H). Qed.
Lemma encode_sig s : known_type f (TMsg s) -> method_sig v2 P (PtrT (camel s)) ".Encode" [BufT] = Some [].
Proof using NA.
  intros (m & Hm & <-). unfold method_sig. pose proof (own_in m (encode_func m) Hm ltac:(cbn [In]; auto)) as F. change (fn_recv (encode_func m)) with (Some (camel (m_full m))) in F. change (fn_name (encode_func m)) with (text ".Encode") in F. rewrite F.
  unfold call_sig. cbn [encode_func fn_types fn_result map all_types type_written]. rewrite (star_of v2 f NA [] (m_full m) (clear_nil v2 f) (known_star f m Hm)). cbn [all_types option_map assign_all]. rewrite !assignable_refl. reflexivity.
Qed.
Lemma decode_sig s : known_type f (TMsg s) -> method_sig v2 P (PtrT (camel s)) ".decode" [DecT] = Some [ErrT].
Proof using NA.
  intros (m & Hm & <-). unfold method_sig. pose proof (own_in m (decode_func v2 m) Hm ltac:(cbn [In]; auto 6)) as F. change (fn_recv (decode_func v2 m)) with (Some (camel (m_full m))) in F. change (fn_name (decode_func v2 m)) with (text ".decode") in F. rewrite F.
  unfold call_sig. cbn [decode_func fn_types fn_result map all_types type_written]. rewrite (star_of v2 f NA [] (m_full m) (clear_nil v2 f) (known_star f m Hm)), (error_named v2 f NA [] (clear_nil v2 f)). cbn [all_types option_map assign_all]. rewrite !assignable_refl. reflexivity.
Qed.
Section MapField.
Variables (m : msgd) (fd : fieldd) (kt vt : ftyp).
Hypotheses (HM : has_message f m) (Hin : In fd (m_fields m)) (Et : f_typ fd = TMap kt vt).
Hypotheses (Nk : kt <> TScalar KGroup) (Nv : vt <> TScalar KGroup).
Lemma known_kv : known_type f kt /\ known_type f vt.
Proof using NA HM Hin Et. pose proof (na_known _ _ NA m fd HM Hin) as K. unfold field_known in K. rewrite Et in K. apply K. Qed.
Lemma key_of G : clear G -> type_of P G (type_text (map_key fd kt)) = Some (tyof kt).
Proof using NA HM Hin Et Nk. intros C. apply (one_of v2 f NA G (map_key fd kt) C); [reflexivity|apply known_kv|exact Nk]. Qed.
Lemma value_of G : clear G -> type_of P G (type_text (map_value fd vt)) = Some (tyof vt).
Proof using NA HM Hin Et Nv. intros C. apply (one_of v2 f NA G (map_value fd vt) C); [reflexivity|apply known_kv|exact Nv]. Qed.
Lemma mapn_find : find_type P (map_name fd) = Some (TyMap (type_text (map_key fd kt)) (type_text (map_value fd vt))).
Proof using NA HM Hin Et. apply (map_type v2 f NA m fd kt vt HM Hin Et). Qed.
Lemma newmap_sig G : local G (new_name (map_name fd)) = false -> app_sig P G (new_name (map_name fd)) [Basic RU32] = Some [MapL (tyof kt) (tyof vt)].
Proof using NA HM Hin Et Nk Nv.
  intros C. destruct (map_type v2 f NA m fd kt vt HM Hin Et) as (_ & _ & M3 & M4). unfold app_sig. rewrite C, M4.
  pose proof (fun g => map_in m fd g HM Hin) as F. unfold map_decls in F. rewrite Et in F. specialize (F _ (or_intror (or_introl eq_refl))). cbn [fn_recv fn_name] in F. rewrite F.
  unfold call_sig. cbn [fn_types fn_result map all_types type_written]. rewrite (u32_of v2 f NA [] (clear_nil v2 f)), (key_of [] (clear_nil v2 f)), (value_of [] (clear_nil v2 f)). cbn [all_types option_map assign_all]. rewrite !assignable_refl. reflexivity.
Qed.
Lemma mapn_of G : clear G -> type_of P G (map_name fd) = Some (MapN (map_name fd)).
Proof using NA HM Hin Et. intros C. apply (map_of v2 f NA G m fd kt vt C HM Hin Et). Qed.
Lemma encode_map_sig : method_sig v2 P (MapN (map_name fd)) ".Encode" [BufT] = Some [].
Proof using NA HM Hin Et.
  pose proof (map_in m fd (encode_map_func fd kt vt) HM Hin ltac:(unfold map_decls; rewrite Et; cbn [In]; auto)) as F. cbn [encode_map_func fn_recv fn_name] in F.
  unfold method_sig. rewrite F. unfold call_sig. cbn [encode_map_func fn_types fn_result map all_types type_written]. rewrite (mapn_of [] (clear_nil v2 f)). cbn [all_types option_map assign_all]. rewrite !assignable_refl. reflexivity.
Qed.
Lemma decode_map_sig : method_sig v2 P (MapN (map_name fd)) ".decode" [DecT; Basic RU32] = Some [ErrT].
Proof using NA HM Hin Et.
  pose proof (map_in m fd (decode_map_func fd kt vt) HM Hin ltac:(unfold map_decls; rewrite Et; cbn [In]; auto)) as F. cbn [decode_map_func fn_recv fn_name] in F.
  unfold method_sig. rewrite F. unfold call_sig. cbn [decode_map_func fn_types fn_result map all_types type_written]. rewrite (mapn_of [] (clear_nil v2 f)), (u32_of v2 f NA [] (clear_nil v2 f)), (error_named v2 f NA [] (clear_nil v2 f)).
  cbn [all_types option_map assign_all]. rewrite !assignable_refl. reflexivity.
Qed.
End MapField.
(** ---- expressions ---- *)
Lemma len_sig G t : clear G -> match t with SliceT _ | MapN _ | MapL _ _ => True | _ => False end -> app_sig P G n_len [t] = Some [IntT].
Proof using NA.
  intros C H. assert (L : In n_len predeclared) by (unfold predeclared; apply in_or_app; right; right; left; reflexivity). unfold app_sig. rewrite (C _ (or_intror L)).
  destruct (not_declared v2 f _ (predeclared_not v2 f NA _ L)) as (-> & -> & ->). change (same n_len (text "len")) with true. destruct t; try destruct H; reflexivity.
Qed.
Lemma u32_sig G t : clear G -> integer t = true -> app_sig P G n_u32 [t] = Some [Basic RU32].
Proof using NA.
  intros C H. assert (L : In n_u32 predeclared) by (vm_compute; auto 20). unfold app_sig. rewrite (C _ (or_intror L)).
  destruct (not_declared v2 f _ (predeclared_not v2 f NA _ L)) as (-> & -> & ->). change (same n_u32 (text "len")) with false. change (same n_u32 (text "uint32")) with true. rewrite H. reflexivity.
Qed.
Lemma enum_sig G s t : clear G -> known_type f (TEnum s) -> integer t = true -> app_sig P G (camel s) [t] = Some [EnumT (camel s)].
Proof using NA.
  intros C H I. destruct (enum_type v2 f NA s H) as (M1 & M2). unfold app_sig. rewrite (names_local G _ C M1), M2, I. reflexivity.
Qed.
Lemma ty1_of (ev : expr -> option (list ty)) e t : ev e = Some [t] -> ty1 ev e = Some t.
Proof using Type. intros H. unfold ty1. rewrite H. reflexivity. Qed.
Lemma var_ty G n t : find_name n G = Some t -> ETY G (Var n) = Some [t].
Proof using Type. intros H. cbn [ety]. rewrite H. reflexivity. Qed.
Lemma app1 G g e t : ETY G e = Some [t] -> ETY G (App g [e]) = app_sig P G g [t].
Proof using Type. intros H. cbn [ety tys]. rewrite (ty1_of _ _ _ H). reflexivity. Qed.
Lemma app0 G g : ETY G (App g []) = app_sig P G g []. Proof using Type. reflexivity. Qed.
Lemma met0 G e t g : ETY G e = Some [t] -> ETY G (Met e g []) = method_sig v2 P t g [].
Proof using Type. intros H. cbn [ety tys]. rewrite (ty1_of _ _ _ H). reflexivity. Qed.
Lemma met1 G e t g a u : ETY G e = Some [t] -> ETY G a = Some [u] -> ETY G (Met e g [a]) = method_sig v2 P t g [u].
Proof using Type. intros H A. cbn [ety tys]. rewrite (ty1_of _ _ _ H), (ty1_of _ _ _ A). reflexivity. Qed.
Lemma met2 G e t g a u a2 u2 : ETY G e = Some [t] -> ETY G a = Some [u] -> ETY G a2 = Some [u2] -> ETY G (Met e g [a; a2]) = method_sig v2 P t g [u; u2].
Proof using Type. intros H A A2. cbn [ety tys]. rewrite (ty1_of _ _ _ H), (ty1_of _ _ _ A), (ty1_of _ _ _ A2). reflexivity. Qed.
Lemma met3 G e t g a u a2 u2 a3 u3 : ETY G e = Some [t] -> ETY G a = Some [u] -> ETY G a2 = Some [u2] -> ETY G a3 = Some [u3] -> ETY G (Met e g [a; a2; a3]) = method_sig v2 P t g [u; u2; u3].
Proof using Type. intros H A A2 A3. cbn [ety tys]. rewrite (ty1_of _ _ _ H), (ty1_of _ _ _ A), (ty1_of _ _ _ A2), (ty1_of _ _ _ A3). reflexivity. Qed.
Lemma encoder_ty G : find_name n_b G = Some BufT -> ETY G encoder = Some [EncT].
Proof using Type. intros H. unfold encoder. cbn [ety]. rewrite (ty1_of _ _ _ (var_ty _ _ _ H)). reflexivity. Qed.
Lemma const_ty G n z : assoc n go_kinds = Some z -> ETY G (Const n) = Some [KindT].
Proof using Type. intros H. cbn [ety]. rewrite H. reflexivity. Qed.
Lemma kind_const G k z : kind_number (go_GetKind k) = Some z -> ETY G (Const (entry (go_GetKind k))) = Some [KindT].
Proof using Type. intros H. unfold kind_number in H. destruct (go_GetKind k) as [s|]; [|discriminate H]. exact (const_ty G s z H). Qed.
Lemma enc_scalar k q : scalar_type k = Some q -> encoder_sig P (entry (go_encodeLUT k)) [Basic q] = Some [EncT].
Proof using Type. destruct k; intros E; try discriminate E; injection E as <-; reflexivity. Qed.
Lemma dec_scalar k q : scalar_type k = Some q -> k <> KBytes -> decoder_sig v2 P (entry (go_decodeLUT k)) [] = Some [Basic q; ErrT].
Proof using Type. destruct k; intros E N; try discriminate E; try congruence; injection E as <-; reflexivity. Qed.
(** ---- statements ---- *)
Lemma block_plain R l : forall here G r, Forall (fun c => CK R c G = Some []) l -> check_block (CK R) (l ++ r) here G = check_block (CK R) r here G.
Proof using Type. induction l as [|c l IH]; intros here G r H; [reflexivity|]. inversion H; subst. cbn [app check_block]. rewrite H2. cbn [forallb map app andb]. apply IH, H3. Qed.
Lemma block_all R l here G : Forall (fun c => CK R c G = Some []) l -> check_block (CK R) l here G = true.
Proof using Type. intros H. rewrite <- (app_nil_r l). rewrite block_plain by exact H. reflexivity. Qed.
Lemma do_ok R G e ts : ETY G e = Some ts -> is_call e = true -> CK R (Do e) G = Some [].
Proof using Type. intros H I. cbn [GoTypes.check]. rewrite H, I. reflexivity. Qed.
Lemma check_ok G : find_name n_err G = Some ErrT -> CK [ErrT] GoEmit.check G = Some [].
Proof using Type. intros H. unfold GoEmit.check. cbn [GoTypes.check check_block ety tys]. unfold ty1. cbn [ety]. rewrite H. reflexivity. Qed.
End Checks.
