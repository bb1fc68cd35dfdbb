(** Generated functions pass the type checker: Error, New, Decode, and the functions of maps. *)
From Coq Require Import String.
From Verif Require Import Base Spec GenTables GenModel NameModel NameSpec EmitModel EmitSpec EmitThms PkgThms GoAst GoEmit GoRunSpec GoLink GoScope GoSlices GoMsgs GoMaps GoDecode GoTypes GoTypes2 GoTypes3 GoTypes4.
Local Open Scope list_scope.

Section More.
Variables (v2 : bool) (f : filed).
Hypothesis NA : names_apart v2 f.
Notation P := (go_program v2 f).
Notation names := (go_names (go_file v2 f)).
Notation ETY := (ety v2 P).
Notation CK := (GoTypes.check v2 P).
Notation clear := (clear v2 f).
Notation C0 := (clear_nil v2 f).
Ltac own := unfold own_var; cbn [In]; auto 10.
Ltac other := rewrite same_false by ne.

Theorem error_checks m : has_message f m -> check_func v2 P (error_func m) = true.
Proof using NA.
  intros HM. unfold check_func. cbn [error_func fn_types fn_result fn_params fn_body map type_written].
  rewrite (star_of v2 f NA [] (m_full m) C0 (known_star f m HM)), (error_named v2 f NA [] C0). cbn [all_types option_map length Nat.eqb combine andb]. rewrite andb_true_r.
  apply block_all. constructor; [|constructor]. eapply do_ok; [|reflexivity].
  rewrite (met1 v2 f _ _ EncT _ _ ErrT); [reflexivity|apply encoder_ty; reflexivity|apply var_ty; reflexivity].
Qed.
Lemma return_ok R G es ts : tys (ETY G) es = Some ts -> assign_all P ts R = true -> CK R (Return es) G = Some [].
Proof using Type. intros H A. cbn [GoTypes.check]. rewrite H, A. reflexivity. Qed.
Lemma tys1 G e t : ETY G e = Some [t] -> tys (ETY G) [e] = Some [t].
Proof using Type. intros H. cbn [tys]. rewrite (ty1_of _ _ _ H). reflexivity. Qed.
Lemma return_nil G : CK [ErrT] (Return [NilLit]) G = Some [].
Proof using Type. reflexivity. Qed.
(** the message fields New creates *)
Definition created (fs : list fieldd) : list (bytes * expr) :=
  flat_map (fun fd => if is_kind (kind_of (f_typ fd)) KMessage && negb (f_many fd) then [(goname fd, App (new_name (message_of fd)) [])] else []) fs.
Lemma created_names fs n : existsb (fun g => same n (fst g)) (created fs) = true -> In n (map goname fs).
Proof using Type.
  clear. intros H. apply existsb_exists in H. destruct H as ((k, e) & H & E). apply same_true in E. cbn [fst] in E. subst k. unfold created in H. apply in_flat_map in H. destruct H as (fd & Hf & H).
  destruct (is_kind (kind_of (f_typ fd)) KMessage && negb (f_many fd)); [|destruct H]. destruct H as [H|[]]. injection H as <- _. apply List.in_map. exact Hf.
Qed.
Lemma created_ok m G : clear G -> has_message f m -> (forall fd, In fd (m_fields m) -> sort f fd) -> forall fs, incl fs (m_fields m) -> NoDup (map goname fs) ->
  literal P (ETY G) (map (fun fd => (goname fd, type_text fd)) (m_fields m)) (created fs) = true.
Proof using NA.
  intros CL HM SO. induction fs as [|fd fs IH]; intros Hi N; [reflexivity|]. cbn [map] in N. inversion N as [|? ? N1 N2]; subst.
  assert (Hf : In fd (m_fields m)) by (apply Hi; left; reflexivity). specialize (IH (fun g Hg => Hi g (or_intror Hg)) N2).
  unfold created. cbn [flat_map]. fold (created fs). destruct (is_kind (kind_of (f_typ fd)) KMessage && negb (f_many fd)) eqn:E; [|exact IH].
  apply andb_true_iff in E. destruct E as (E & M). apply negb_true_iff in M. apply kind_message in E. cbn [app literal]. rewrite (field_text v2 f NA m fd HM Hf).
  pose proof (SO fd Hf) as So. rewrite (field_of_ty v2 f NA [] m fd C0 HM Hf (sort_good f fd So)).
  assert (T : exists s, f_typ fd = TMsg s /\ known_type f (TMsg s)). { destruct So as [M' I' K Q Kn|k q M' E' Q K1 K2 K3|s M' E' Kn|s M' E' Kn|kt vt M' E' Kk Kv Kd X1 X2]; try congruence. eauto. }
  destruct T as (s & Et & Kn). unfold message_of. rewrite Et. rewrite (ty1_of (ETY G) (App (new_name (camel s)) []) (PtrT (camel s))).
  - unfold fty. rewrite Et, M. cbn [tyof]. rewrite assignable_refl. cbn [andb]. destruct (existsb (fun g => same (goname fd) (fst g)) (created fs)) eqn:X; [apply created_names in X; contradiction|]. exact IH.
  - rewrite app0. apply (new_sig v2 f NA G s CL Kn).
Qed.
Theorem new_checks m : has_message f m -> (forall fd, In fd (m_fields m) -> sort f fd) -> check_func v2 P (new_func v2 m) = true.
Proof using NA.
  intros HM SO. unfold check_func. cbn [new_func fn_types fn_result fn_params fn_body map type_written]. fold (created (m_fields m)).
  rewrite (star_of v2 f NA [] (m_full m) C0 (known_star f m HM)). cbn [all_types option_map length Nat.eqb combine andb ends]. rewrite andb_true_r.
  apply block_all. constructor; [|constructor]. apply (return_ok _ _ _ [PtrT (camel (m_full m))]); [|cbn [assign_all]; rewrite assignable_refl; reflexivity].
  apply tys1. cbn [ety]. destruct (msg_names v2 f NA m HM) as (M1 & M2 & _). unfold struct_named. rewrite M2. cbn [local existsb].
  assert (B : forall b : bool, literal P (ETY []) (map (fun fd => (goname fd, type_text fd)) (m_fields m)) (if b then [] else created (m_fields m)) = true).
  { intros [|]; [reflexivity|]. apply (created_ok m [] C0 HM SO (m_fields m) (fun _ H => H) (na_fields _ _ NA m HM)). }
  rewrite B. reflexivity.
Qed.
Lemma nil_return R G e t here r : ETY G e = Some [t] -> match t with PtrT _ => True | _ => False end -> forall x u, ETY G x = Some [u] -> assign_all P [u] R = true ->
  check_block (CK R) (If (Eq e NilLit) [Return [x]] [] :: r) here G = check_block (CK R) r here G.
Proof using Type.
  intros He T x u Hx A. cbn [check_block GoTypes.check]. assert (E : ETY G (Eq e NilLit) = Some [Basic RBool]) by (cbn [ety]; rewrite (ty1_of _ _ _ He); unfold ty1; cbn [ety]; destruct t; try destruct T; reflexivity).
  rewrite E, (tys1 G x u Hx), A. reflexivity.
Qed.
Lemma err_var : existsb (fun d => match d with DVar n => same (if v2 then text "ErrDecodeNil" else text "NilDecode") n | _ => false end) P = true.
Proof using Type. unfold go_program. cbn [existsb]. rewrite same_refl. reflexivity. Qed.
Theorem outer_checks m : has_message f m -> check_func v2 P (decode_outer_func v2 m) = true.
Proof using NA.
  intros HM. pose proof err_var as EV. unfold check_func. cbn [decode_outer_func fn_types fn_result fn_params fn_body map type_written].
  rewrite (star_of v2 f NA [] (m_full m) C0 (known_star f m HM)), (error_named v2 f NA [] C0), (bytes_of v2 f NA [] C0). cbn [all_types option_map length Nat.eqb combine andb].
  set (G := [(n_x, PtrT (camel (m_full m))); (n_b, Basic RBytes)]).
  assert (HN : ETY G (Var (if v2 then text "ErrDecodeNil" else text "NilDecode")) = Some [ErrT]).
  { clear NA. cbn [ety]. rewrite EV. destruct v2; reflexivity. }
  apply andb_true_iff. split; [|clear; destruct v2; reflexivity].
  rewrite (nil_return [ErrT] G (Var n_x) (PtrT (camel (m_full m))) _ _ eq_refl I _ ErrT HN eq_refl).
  pose proof (decode_sig v2 f NA (m_full m) (known_star f m HM)) as DS.
  assert (LIB : forall s, s = (if v2 then "Decoder" else "GetDecoder")%string -> ETY G (Lib s (Var n_b)) = Some [DecT]).
  { intros s ->. clear. cbn [ety]. unfold ty1. cbn. destruct v2; reflexivity. }
  assert (V2 : v2 = true -> CK [ErrT] (Return [Met (Var n_x) ".decode" [Lib "Decoder" (Var n_b)]]) G = Some []).
  { intros V. apply (return_ok _ _ _ [ErrT]); [|reflexivity]. apply tys1. rewrite (met1 v2 f G _ (PtrT (camel (m_full m))) _ _ DecT); [exact DS|reflexivity|]. apply LIB. rewrite V. reflexivity. }
  assert (V1 : v2 = false -> check_block (CK [ErrT]) [Define [n_d] (Lib "GetDecoder" (Var n_b)); Defer (Met (Var n_d) ".Return" []); Return [Met (Var n_x) ".decode" [Var n_d]]] [n_x; n_b] G = true).
  { intros V. cbn [check_block]. assert (D : CK [ErrT] (Define [n_d] (Lib "GetDecoder" (Var n_b))) G = Some [(n_d, DecT)]) by (cbn [GoTypes.check]; rewrite LIB by (rewrite V; reflexivity); reflexivity).
    rewrite D. cbn [forallb].
    assert (FU : fresh_use [n_x; n_b] [Defer (Met (Var n_d) ".Return" []); Return [Met (Var n_x) ".decode" [Var n_d]]] (n_d, DecT) = true) by (vm_compute; reflexivity).
    rewrite FU. cbn [map fst app andb]. set (G' := (n_d, DecT) :: G).
    assert (D' : ETY G' (Met (Var n_d) ".Return" []) = Some []) by (rewrite (met0 v2 f G' _ DecT) by reflexivity; unfold method_sig, decoder_sig; rewrite V; reflexivity).
    assert (D2 : CK [ErrT] (Defer (Met (Var n_d) ".Return" [])) G' = Some []) by (cbn [GoTypes.check]; rewrite D'; reflexivity).
    rewrite D2. cbn [forallb map app andb]. rewrite (return_ok _ _ _ [ErrT]); [reflexivity| |reflexivity]. apply tys1. rewrite (met1 v2 f G' _ (PtrT (camel (m_full m))) _ _ DecT); [exact DS|reflexivity|reflexivity]. }
  assert (B : forall b : bool, (b = true -> v2 = true) -> (b = false -> v2 = false) -> check_block (CK [ErrT]) (if b then [Return [Met (Var n_x) ".decode" [Lib "Decoder" (Var n_b)]]]
      else [Define [n_d] (Lib "GetDecoder" (Var n_b)); Defer (Met (Var n_d) ".Return" []); Return [Met (Var n_x) ".decode" [Var n_d]]]) [n_x; n_b] G = true).
  { intros [|] H1 H2; [apply block_all; constructor; [apply V2; auto|constructor]|apply V1; auto]. }
  apply (B v2); auto.
Qed.

Section MapField.
Variables (m : msgd) (fd : fieldd) (kt vt : ftyp).
Hypotheses (HM : has_message f m) (Hin : In fd (m_fields m)) (Et : f_typ fd = TMap kt vt).
Hypotheses (KK : key_kind (kind_of kt) = true) (Nv : vt <> TScalar KGroup) (Nb : vt <> TScalar KBytes).
Lemma kt_scalar : exists k q, kt = TScalar k /\ scalar_type k = Some q /\ q <> RBytes /\ k <> KBytes /\ k <> KEnum /\ k <> KGroup /\ k <> KMessage.
Proof using NA HM Hin Et KK.
  destruct (known_kv v2 f NA m fd kt vt HM Hin Et) as (K & _). destruct kt as [k|s|s|? ?]; cbn [kind_of] in KK; try discriminate KK. exists k.
  destruct k; try discriminate KK; eexists; repeat split; discriminate.
Qed.
Lemma kt_group : kt <> TScalar KGroup.
Proof using NA HM Hin Et KK. destruct kt_scalar as (k & q & -> & _ & _ & _ & _ & N & _). congruence. Qed.
Lemma kt_key : key_type (tyof kt) = true.
Proof using NA HM Hin Et KK. destruct kt_scalar as (k & q & -> & Q & N & _). cbn [tyof]. rewrite Q. destruct q; try reflexivity; try congruence; destruct k; discriminate Q. Qed.
Theorem maptype_checks : check_decl v2 P (DType (map_name fd) (TyMap (type_text (map_key fd kt)) (type_text (map_value fd vt)))) = true.
Proof using NA HM Hin Et KK Nv.
  cbn [check_decl]. rewrite (key_of v2 f NA m fd kt vt HM Hin Et kt_group [] C0), (value_of v2 f NA m fd kt vt HM Hin Et Nv [] C0). exact kt_key.
Qed.
Theorem newmap_checks : check_func v2 P (mkfunc None (new_name (map_name fd)) [n_size] [XText n_u32] (Some (XMap (type_text (map_key fd kt)) (type_text (map_value fd vt))))
    [Return [MakeM (type_text (map_key fd kt)) (type_text (map_value fd vt)) (Var n_size)]] false) = true.
Proof using NA HM Hin Et KK Nv.
  unfold check_func. cbn [fn_types fn_result fn_params fn_body map type_written].
  rewrite (u32_of v2 f NA [] C0), (key_of v2 f NA m fd kt vt HM Hin Et kt_group [] C0), (value_of v2 f NA m fd kt vt HM Hin Et Nv [] C0).
  cbn [all_types option_map length Nat.eqb combine andb ends]. rewrite andb_true_r. set (G := [(n_size, Basic RU32)]). assert (CL : clear G) by (apply clear_own; [exact NA|exact C0|own]).
  apply block_all. constructor; [|constructor]. apply (return_ok _ _ _ [MapL (tyof kt) (tyof vt)]); [|cbn [assign_all]; rewrite assignable_refl; reflexivity].
  apply tys1. cbn [ety]. rewrite (key_of v2 f NA m fd kt vt HM Hin Et kt_group G CL), (value_of v2 f NA m fd kt vt HM Hin Et Nv G CL). unfold ty1. cbn [ety G find_name]. rewrite same_refl. cbn [integer andb]. rewrite kt_key. reflexivity.
Qed.
Lemma vt_kind : exists z, kind_number (go_GetKind (kind_of vt)) = Some z.
Proof using NA HM Hin Et Nv.
  destruct (known_kv v2 f NA m fd kt vt HM Hin Et) as (_ & K). clear Nb. destruct vt as [k|s|s|? ?]; [|eexists; reflexivity|eexists; reflexivity|destruct K].
  destruct K as (K1 & K2). destruct k; try (eexists; reflexivity); congruence.
Qed.
Lemma kt_kind : exists z, kind_number (go_GetKind (kind_of kt)) = Some z.
Proof using KK. clear -KK. destruct (kind_of kt); try discriminate KK; eexists; reflexivity. Qed.
Lemma item_ok R G n t : clear G -> known_type f t -> t <> TScalar KGroup -> find_name n_b G = Some BufT -> find_name n G = Some (tyof t) -> CK R (encode_item n t) G = Some [].
Proof using NA.
  intros CL K N B Hn. unfold encode_item. destruct t as [k|s|s|? ?]; [| | |destruct K].
  - destruct K as (K1 & K2). destruct (scalar_type k) as [q|] eqn:Q; [|destruct (scalar_none k Q); congruence]. cbn [kind_of tyof] in *. rewrite Q in Hn.
    assert (X : String.eqb (entry (go_encodeLUT k)) "" && is_kind k KMessage = false) by (destruct k; try reflexivity; congruence). rewrite X.
    assert (Y : is_kind k KEnum = false) by (destruct k; try reflexivity; congruence). rewrite Y.
    eapply do_ok; [|reflexivity]. rewrite (met1 v2 f _ _ EncT _ _ (Basic q) (encoder_ty v2 f _ B) (var_ty v2 f _ _ _ Hn)). apply method_enc, Q.
  - cbn [kind_of tyof] in *. change (String.eqb (entry (go_encodeLUT KEnum)) "" && is_kind KEnum KMessage) with false. change (is_kind KEnum KEnum) with true. cbv iota.
    eapply do_ok; [|reflexivity]. rewrite (met1 v2 f _ _ EncT _ _ (Basic RU32) (encoder_ty v2 f _ B)); [reflexivity|]. rewrite (app1 v2 f G n_u32 _ _ (var_ty v2 f _ _ _ Hn)). apply (u32_sig v2 f NA G _ CL). reflexivity.
  - cbn [kind_of tyof] in *. change (String.eqb (entry (go_encodeLUT KMessage)) "" && is_kind KMessage KMessage) with true. cbv iota.
    eapply do_ok; [|reflexivity]. rewrite (met1 v2 f _ _ _ _ _ BufT (var_ty v2 f _ _ _ Hn) (var_ty v2 f _ _ _ B)). apply (encode_sig v2 f NA s K).
Qed.
Lemma item_uses n t : uses n (encode_item n t) = true.
Proof using Type.
  clear. unfold encode_item. destruct (_ && _); [|destruct (is_kind _ _)]; cbn [uses uses_e existsb encoder]; rewrite same_refl; rewrite ?orb_true_r; reflexivity.
Qed.
Theorem encode_map_checks : check_func v2 P (encode_map_func fd kt vt) = true.
Proof using NA HM Hin Et KK Nv.
  destruct (known_kv v2 f NA m fd kt vt HM Hin Et) as (Kk & Kv). destruct vt_kind as (zv & Zv). destruct kt_kind as (zk & Zk).
  unfold check_func. cbn [encode_map_func fn_types fn_result fn_params fn_body map type_written]. rewrite (mapn_of v2 f NA m fd kt vt HM Hin Et [] C0). cbn [all_types option_map length Nat.eqb combine andb]. rewrite andb_true_r.
  set (G := [(n_x, MapN (map_name fd)); (n_b, BufT)]). assert (CL : clear G) by (apply clear_own; [exact NA|apply clear_own; [exact NA|exact C0|]|]; own).
  assert (B : find_name n_b G = Some BufT) by reflexivity. assert (X : find_name n_x G = Some (MapN (map_name fd))) by reflexivity.
  apply (nil_check v2 f [] G n_x (MapN (map_name fd)) _ _ _ X I); apply block_all; constructor; try constructor; try constructor.
  - eapply do_ok; [|reflexivity]. rewrite (met3 v2 f G _ EncT _ (Num 0) NumT _ KindT _ KindT (encoder_ty v2 f G B) eq_refl (kind_const v2 f G _ zk Zk) (kind_const v2 f G _ zv Zv)). reflexivity.
  - eapply do_ok; [|reflexivity]. rewrite (met3 v2 f G _ EncT _ _ (Basic RU32) _ KindT _ KindT (encoder_ty v2 f G B)); [reflexivity| |exact (kind_const v2 f G _ zk Zk)|exact (kind_const v2 f G _ zv Zv)].
    rewrite (app1 v2 f G n_u32 _ IntT); [apply (u32_sig v2 f NA G _ CL); reflexivity|]. rewrite (app1 v2 f G n_len _ _ (var_ty v2 f _ _ _ X)). apply (len_sig v2 f NA G _ CL). exact I.
  - cbn [GoTypes.check]. rewrite (var_ty v2 f _ _ _ X), (mapn_find v2 f NA m fd kt vt HM Hin Et), (key_of v2 f NA m fd kt vt HM Hin Et kt_group [] C0), (value_of v2 f NA m fd kt vt HM Hin Et Nv [] C0).
    change (named n_k (tyof kt)) with [(n_k, tyof kt)]. change (named n_v (tyof vt)) with [(n_v, tyof vt)]. cbn [app forallb]. unfold fresh_use. cbn [fst existsb negb andb].
    set (B' := [encode_item n_k kt; encode_item n_v vt]).
    assert (U1 : uses_in n_k B' = true) by (unfold uses_in, B'; cbn [uses_b]; rewrite item_uses; reflexivity).
    assert (U2 : uses_in n_v B' = true).
    { unfold uses_in, B'. cbn [uses_b]. rewrite (item_uses n_v vt). unfold encode_item at 2. destruct (_ && _); [|destruct (is_kind (kind_of kt) KEnum)]; rewrite ?orb_true_r; reflexivity. }
    rewrite U1, U2, !orb_true_r. cbn [andb].
    assert (CL' : clear ((n_v, tyof vt) :: (n_k, tyof kt) :: G)) by (apply clear_own; [exact NA|apply clear_own; [exact NA|exact CL|]|]; own).
    rewrite block_all; [reflexivity|]. repeat constructor; apply item_ok; auto; try reflexivity; apply kt_group.
Qed.
(** decodeMap.templ: the variables are k, v, perhaps ValueTemp, err, i *)
Section Body.
Variable G : GoTypes.scope.
Hypotheses (CL : clear G) (Hx : find_name n_x G = Some (MapN (map_name fd))) (Hd : find_name n_d G = Some DecT)
  (Hk : find_name n_k G = Some (tyof kt)) (Hv : find_name n_v G = Some (tyof vt)) (He : find_name n_err G = Some ErrT)
  (Ht : is_kind (kind_of vt) KEnum = true -> find_name (temp (map_value fd vt)) G = Some (Basic RU32)).
Lemma assign2 R l1 l2 e t1 t2 : place v2 P G l1 = Some t1 -> place v2 P G l2 = Some t2 -> ETY G e = Some [t1; t2] -> CK R (Assign [l1; l2] e) G = Some [].
Proof using Type. intros A B E. cbn [GoTypes.check map]. rewrite A, B, E. cbn [all_types option_map assign_all]. rewrite !assignable_refl. reflexivity. Qed.
Lemma assign1 R l e t v : place v2 P G l = Some t -> ETY G e = Some [v] -> assignable P v t = true -> CK R (Assign [l] e) G = Some [].
Proof using Type. intros A E B. cbn [GoTypes.check map]. rewrite A, E. cbn [all_types option_map assign_all]. rewrite B. reflexivity. Qed.
Lemma decode_item_ok n fd' t : f_typ fd' = t -> f_many fd' = false -> known_type f t -> t <> TScalar KGroup -> t <> TScalar KBytes -> find_name n G = Some (tyof t) ->
  (is_kind (kind_of t) KEnum = true -> find_name (temp fd') G = Some (Basic RU32)) -> Forall (fun c => CK [ErrT] c G = Some []) (decode_item n fd').
Proof using NA CL Hd He.
  intros E M K N Nb' Hn Tm. unfold decode_item. rewrite E. apply Forall_app. split; [|constructor; [apply check_ok, He|constructor]].
  assert (PE : place v2 P G (Var n_err) = Some ErrT) by exact He. assert (PN : place v2 P G (Var n) = Some (tyof t)) by exact Hn.
  destruct t as [k|s|s|? ?]; [| | |destruct K]; cbn [kind_of] in *.
  - destruct K as (K1 & K2). destruct (scalar_type k) as [q|] eqn:Q; [|destruct (scalar_none k Q); congruence].
    assert (X : String.eqb (entry (go_decodeLUT k)) "" && is_kind k KMessage = false) by (destruct k; try reflexivity; congruence). rewrite X.
    assert (Y : is_kind k KEnum = false) by (destruct k; try reflexivity; congruence). rewrite Y. constructor; [|constructor].
    apply (assign2 _ _ _ _ (Basic q) ErrT); [rewrite PN; cbn [tyof]; rewrite Q; reflexivity|exact PE|]. rewrite (met0 v2 f G _ DecT _ (var_ty v2 f _ _ _ Hd)). apply (dec_scalar v2 f k q Q). congruence.
  - change (String.eqb (entry (go_decodeLUT KEnum)) "" && is_kind KEnum KMessage) with false. change (is_kind KEnum KEnum) with true in *. cbv iota. specialize (Tm eq_refl).
    assert (TT : type_text fd' = camel s) by (unfold type_text, FindValue; rewrite E, M, camel_ok; reflexivity). rewrite TT.
    constructor; [|constructor; [|constructor]].
    + apply (assign2 _ _ _ _ (Basic RU32) ErrT); [exact Tm|exact PE|]. rewrite (met0 v2 f G _ DecT _ (var_ty v2 f _ _ _ Hd)). reflexivity.
    + apply (assign1 _ _ _ (EnumT (camel s)) (EnumT (camel s))); [exact PN| |apply assignable_refl]. rewrite (app1 v2 f G _ _ (Basic RU32) (var_ty v2 f _ _ _ Tm)). apply (enum_sig v2 f NA G s _ CL K). reflexivity.
  - change (String.eqb (entry (go_decodeLUT KMessage)) "" && is_kind KMessage KMessage) with true. cbv iota. unfold message_of. rewrite E.
    constructor; [|constructor; [|constructor]].
    + apply (assign1 _ _ _ (PtrT (camel s)) (PtrT (camel s))); [exact PN| |apply assignable_refl]. rewrite app0. apply (new_sig v2 f NA G s CL K).
    + apply (assign1 _ _ _ ErrT ErrT); [exact PE| |reflexivity]. rewrite (met1 v2 f G _ (PtrT (camel s)) _ _ DecT (var_ty v2 f _ _ _ Hn) (var_ty v2 f _ _ _ Hd)). apply (decode_sig v2 f NA s K).
Qed.
Lemma store_ok R : CK R (Assign [Idx (Var n_x) (Var n_k)] (Var n_v)) G = Some [].
Proof using NA HM Hin Et KK Nv Hx Hk Hv.
  apply (assign1 _ _ _ (tyof vt) (tyof vt)); [|exact (var_ty v2 f _ _ _ Hv)|apply assignable_refl]. unfold place. apply ty1_of. cbn [ety]. rewrite (ty1_of _ _ _ (var_ty v2 f _ _ _ Hx)), (ty1_of _ _ _ (var_ty v2 f _ _ _ Hk)).
  rewrite (mapn_find v2 f NA m fd kt vt HM Hin Et), (key_of v2 f NA m fd kt vt HM Hin Et kt_group [] C0), (value_of v2 f NA m fd kt vt HM Hin Et Nv [] C0), assignable_refl. reflexivity.
Qed.
End Body.
End MapField.
End More.
