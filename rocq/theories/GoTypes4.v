(** Generated functions pass the type checker: Encode, Error, New and the maps' functions. *)
From Coq Require Import String.
From Verif Require Import Base Spec GenTables GenModel NameModel NameSpec EmitModel EmitSpec EmitThms PkgThms GoAst GoEmit GoRunSpec GoLink GoScope GoSlices GoMsgs GoMaps GoDecode GoTypes GoTypes2 GoTypes3.
Local Open Scope list_scope.

Lemma groups_in lut fs fd :
  (In fd (g_values (get_fields lut fs)) -> In fd fs /\ f_many fd && negb (is_map fd) = false /\ lut (kind_of (f_typ fd)) <> None) /\
  (In fd (g_slices (get_fields lut fs)) -> In fd fs /\ f_many fd && negb (is_map fd) = true) /\
  (In fd (g_messages (get_fields lut fs)) -> In fd fs /\ f_many fd && negb (is_map fd) = false /\ lut (kind_of (f_typ fd)) = None).
Proof.
  induction fs as [|g fs IH]; [cbn; tauto|]. cbn [get_fields]. destruct IH as (I1 & I2 & I3). destruct (f_many g && negb (is_map g)) eqn:M.
  - cbn [g_values g_slices g_messages]. split; [|split]; intros H.
    + destruct (I1 H). split; [right|]; auto.
    + destruct H as [<-|H]; [split; [left; reflexivity|exact M]|]. destruct (I2 H). split; [right|]; auto.
    + destruct (I3 H). split; [right|]; auto.
  - destruct (lut (kind_of (f_typ g))) eqn:L; cbn [g_values g_slices g_messages]; (split; [|split]); intros H.
    + destruct H as [<-|H]; [split; [left; reflexivity|split; [exact M|congruence]]|]. destruct (I1 H). split; [right|]; auto.
    + destruct (I2 H). split; [right|]; auto.
    + destruct (I3 H). split; [right|]; auto.
    + destruct (I1 H). split; [right|]; auto.
    + destruct (I2 H). split; [right|]; auto.
    + destruct H as [<-|H]; [split; [left; reflexivity|split; [exact M|exact L]]|]. destruct (I3 H). split; [right|]; auto.
Qed.
Lemma groups_cover lut fs fd : In fd fs -> In fd (g_values (get_fields lut fs)) \/ In fd (g_slices (get_fields lut fs)) \/ In fd (g_messages (get_fields lut fs)).
Proof.
  induction fs as [|g fs IH]; [contradiction|]. intros [<-|H]; cbn [get_fields].
  - destruct (f_many g && negb (is_map g)); [|destruct (lut (kind_of (f_typ g)))]; cbn [g_values g_slices g_messages In]; auto.
  - destruct (f_many g && negb (is_map g)); [|destruct (lut (kind_of (f_typ g)))]; cbn [g_values g_slices g_messages In]; destruct (IH H) as [K|[K|K]]; auto.
Qed.

(** the shapes of fields a file may have, by what the templates do with them *)
Inductive sort (f : filed) (fd : fieldd) : Prop :=
| sort_value : f_many fd = false -> is_map fd = false -> kind_of (f_typ fd) <> KMessage -> (exists q, scalar_type (kind_of (f_typ fd)) = Some q) -> known_type f (f_typ fd) -> sort f fd
| sort_scalars k q : f_many fd = true -> f_typ fd = TScalar k -> scalar_type k = Some q -> k <> KBytes -> k <> KEnum -> k <> KMessage -> sort f fd
| sort_messages s : f_many fd = true -> f_typ fd = TMsg s -> known_type f (TMsg s) -> sort f fd
| sort_message s : f_many fd = false -> f_typ fd = TMsg s -> known_type f (TMsg s) -> sort f fd
| sort_map kt vt : f_many fd = true -> f_typ fd = TMap kt vt -> known_type f kt -> known_type f vt -> key_kind (kind_of kt) = true ->
    vt <> TScalar KGroup -> vt <> TScalar KBytes -> sort f fd.
Lemma sort_of v2 f m fd : names_apart v2 f -> compiles (schema_of f) = true -> has_message f m -> In fd (m_fields m) -> sort f fd.
Proof.
  intros NA C Hm Hi. destruct (shape_of v2 f m fd NA C Hm Hi) as [k M E G K Kn|t kk M Im Kn E F T N|s M E Kn F|kt vt qk k1 k2 M E Kk Kv Kd Q V N1 N2 T F].
  - apply sort_value; auto.
    + unfold is_map. destruct (f_typ fd); try reflexivity. destruct Kn.
    + destruct (f_typ fd) as [k'|s|s|? ?]; cbn [ftype_of kind_of] in *; try discriminate; try congruence.
    + destruct (f_typ fd) as [k'|s|s|? ?]; cbn [ftype_of kind_of] in *; try discriminate; [|eexists; reflexivity|destruct Kn]. injection E as ->.
      destruct (scalar_type k) as [q|] eqn:Q; [eauto|]. destruct (scalar_none k Q); congruence.
  - destruct (f_typ fd) as [k|s|s|? ?] eqn:Et; cbn [ftype_of] in E; subst t.
    + destruct (scalar_type k) as [q|] eqn:Q; [|destruct (scalar_none k Q); subst k; destruct T as (T1 & T2 & T3 & T4); congruence]. eapply sort_scalars; eauto; apply T.
    + destruct T as (_ & _ & T & _). congruence.
    + eapply sort_messages; eauto.
    + destruct Kn.
  - eapply sort_message; eauto.
  - eapply sort_map; eauto.
    + intros ->. destruct V; congruence.
    + intros ->. destruct V; congruence.
Qed.
Lemma sort_good f fd : sort f fd -> good fd.
Proof.
  unfold good. intros [M I K (q & Q) Kn|k q M E Q K1 K2 K3|s M E Kn|s M E Kn|kt vt M E Kk Kv Kd N1 N2]; try rewrite E; try (try split; congruence).
  - destruct (f_typ fd) as [k'|s|s|? ?] eqn:E; auto; try discriminate; try (unfold is_map in I; rewrite E in I; discriminate I). intros X. injection X as ->. discriminate Q.
  - intros X. injection X as ->. discriminate Q.
  - split; [|exact N1]. intros ->. discriminate Kd.
Qed.
Lemma in_values lut f fs fd : lut = go_encodeLUT \/ lut = go_decodeLUT -> (forall g, In g fs -> sort f g) -> In fd (g_values (get_fields lut fs)) ->
  In fd fs /\ f_many fd = false /\ is_map fd = false /\ kind_of (f_typ fd) <> KMessage /\ (exists q, scalar_type (kind_of (f_typ fd)) = Some q) /\ known_type f (f_typ fd).
Proof.
  intros L S H. apply groups_in in H. destruct H as (H & M & Ne). split; [exact H|]. destruct (S fd H) as [M' I K Q Kn|k q M' E Q K1 K2 K3|s M' E Kn|s M' E Kn|kt vt M' E Kk Kv Kd N1 N2]; auto;
  exfalso; unfold is_map in M; rewrite E, M' in M; rewrite E in Ne; destruct L; subst lut; cbn in *; congruence.
Qed.
Lemma in_slices lut f fs fd : (forall g, In g fs -> sort f g) -> In fd (g_slices (get_fields lut fs)) ->
  In fd fs /\ f_many fd = true /\ ((exists k q, f_typ fd = TScalar k /\ scalar_type k = Some q /\ k <> KBytes /\ k <> KEnum /\ k <> KMessage) \/ exists s, f_typ fd = TMsg s /\ known_type f (TMsg s)).
Proof.
  intros S H. apply groups_in in H. destruct H as (H & M). apply andb_true_iff in M. destruct M as (M & I). split; [exact H|]. split; [exact M|].
  destruct (S fd H) as [M' I' K Q Kn|k q M' E Q K1 K2 K3|s M' E Kn|s M' E Kn|kt vt M' E Kk Kv Kd N1 N2]; try congruence.
  - left. eauto 10.
  - right. eauto.
  - unfold is_map in I. rewrite E in I. discriminate I.
Qed.
Lemma in_messages lut f fs fd : lut = go_encodeLUT \/ lut = go_decodeLUT -> (forall g, In g fs -> sort f g) -> In fd (g_messages (get_fields lut fs)) ->
  In fd fs /\ ((f_many fd = false /\ exists s, f_typ fd = TMsg s /\ known_type f (TMsg s)) \/
    exists kt vt, f_typ fd = TMap kt vt /\ known_type f kt /\ known_type f vt /\ key_kind (kind_of kt) = true /\ vt <> TScalar KGroup /\ vt <> TScalar KBytes).
Proof.
  intros L S H. apply groups_in in H. destruct H as (H & M & Ne). split; [exact H|].
  destruct (S fd H) as [M' I K (q & Q) Kn|k q M' E Q K1 K2 K3|s M' E Kn|s M' E Kn|kt vt M' E Kk Kv Kd N1 N2].
  - exfalso. destruct L; subst lut; destruct (kind_of (f_typ fd)); cbn in *; congruence.
  - exfalso. unfold is_map in M. rewrite E, M' in M. discriminate M.
  - exfalso. unfold is_map in M. rewrite E, M' in M. discriminate M.
  - left. eauto.
  - right. eauto 10.
Qed.

Section Encode.
Variables (v2 : bool) (f : filed).
Hypothesis NA : names_apart v2 f.
Notation P := (go_program v2 f).
Notation names := (go_names (go_file v2 f)).
Notation ETY := (ety v2 P).
Notation CK := (GoTypes.check v2 P).
Notation clear := (clear v2 f).
Lemma clear_cons G n t : clear G -> ~ In n names -> ~ In n predeclared -> clear ((n, t) :: G).
Proof using Type.
  intros C N1 N2 k K. cbn [local existsb fst]. rewrite same_false by (intros ->; destruct K; contradiction). exact (C k K).
Qed.
Definition own_var (n : bytes) : Prop := In n [n_x; n_b; n_d; n_k; n_v; n_i; n_err; n_size; n_slice].
Lemma clear_own G n t : clear G -> own_var n -> clear ((n, t) :: G).
Proof using NA.
  intros C H. apply clear_cons; [exact C|apply (not_ident v2 f NA)|]; cbn in H; repeat (destruct H as [<-|H]; [try (left; reflexivity); intros K; vm_compute in K; repeat (destruct K as [K|K]; [discriminate K|]); exact K|]); destruct H.
Qed.
Lemma method_enc k q : scalar_type k = Some q -> method_sig v2 P EncT (entry (go_encodeLUT k)) [Basic q] = Some [EncT].
Proof using Type. exact (enc_scalar v2 f k q). Qed.
Lemma enum_kind t : known_type f t -> is_kind (kind_of t) KEnum = true -> exists s, t = TEnum s.
Proof using Type. intros K H. apply kind_enum in H. destruct t as [k|s|s|? ?]; try discriminate H; [|eauto]. destruct K. cbn in H. congruence. Qed.
Lemma plain_kind_ty t q : known_type f t -> is_kind (kind_of t) KEnum = false -> scalar_type (kind_of t) = Some q -> tyof t = Basic q.
Proof using Type.
  intros K N Q. destruct t as [k|s|s|? ?]; cbn [kind_of tyof] in *; [rewrite Q; reflexivity|discriminate N|discriminate Q|discriminate Q].
Qed.
Section Msg.
Variable m : msgd.
Hypothesis HM : has_message f m.
Hypothesis SO : forall fd, In fd (m_fields m) -> sort f fd.
Variable G : GoTypes.scope.
Hypotheses (CL : clear G) (Hx : find_name n_x G = Some (PtrT (camel (m_full m)))) (Hb : find_name n_b G = Some BufT).
Lemma my_sort fd : In fd (m_fields m) -> ETY G (my fd) = Some [fty fd].
Proof using NA HM SO Hx. intros H. apply (my_ty v2 f NA G m fd Hx HM H). apply (sort_good f), SO, H. Qed.
Lemma value_arg fd : In fd (g_values (get_fields go_encodeLUT (m_fields m))) -> exists t, ETY G (snd (encode_value fd)) = Some [t] /\ method_sig v2 P EncT (fst (encode_value fd)) [t] = Some [EncT].
Proof using NA HM SO CL Hx.
  intros H. destruct (in_values go_encodeLUT f _ fd (or_introl eq_refl) SO H) as (Hi & M & I & K & (q & Q) & Kn). pose proof (my_sort fd Hi) as My. unfold encode_value. cbn [fst snd].
  assert (E : fty fd = tyof (f_typ fd)) by (unfold fty; unfold is_map in I; rewrite M; destruct (f_typ fd); try reflexivity; discriminate I).
  destruct (is_kind (kind_of (f_typ fd)) KEnum) eqn:Ek.
  - destruct (enum_kind _ Kn Ek) as (s & Es). exists (Basic RU32). split; [rewrite (app1 v2 f G n_u32 _ _ My); apply (u32_sig v2 f NA G _ CL); rewrite E, Es; reflexivity|]. rewrite Es. reflexivity.
  - exists (Basic q). split; [rewrite My, E, (plain_kind_ty _ q Kn Ek Q); reflexivity|]. apply method_enc, Q.
Qed.
Lemma chain_ty l : forall e, ETY G e = Some [EncT] -> (forall v, In v l -> exists t, ETY G (snd v) = Some [t] /\ method_sig v2 P EncT (fst v) [t] = Some [EncT]) ->
  ETY G (fold_left (fun e v => Met e (fst v) [snd v]) l e) = Some [EncT].
Proof using Type.
  clear. induction l as [|v l IH]; intros e He Hl; [exact He|]. cbn [fold_left]. apply IH; [|intros w Hw; apply Hl; right; exact Hw].
  destruct (Hl v (or_introl eq_refl)) as (t & T1 & T2). rewrite (met1 v2 f G e EncT _ _ t He T1). exact T2.
Qed.
Lemma chain_call l : forall e, is_call e = true \/ l <> [] -> is_call (fold_left (fun e v => Met e (fst v) [snd v]) l e) = true.
Proof using Type.
  clear. induction l as [|v l IH]; intros e H; [destruct H; [assumption|congruence]|]. cbn [fold_left]. apply IH. left. reflexivity.
Qed.
Lemma values_ok R : Forall (fun c => CK R c G = Some []) (match g_values (get_fields go_encodeLUT (m_fields m)) with [] => [] | _ => [Do (encode_values (map encode_value (g_values (get_fields go_encodeLUT (m_fields m)))))] end).
Proof using NA HM SO CL Hx Hb.
  pose proof value_arg as V. destruct (g_values (get_fields go_encodeLUT (m_fields m))) as [|g l] eqn:E; [constructor|]. constructor; [|constructor]. unfold encode_values.
  eapply do_ok; [apply chain_ty; [apply encoder_ty, Hb|]|apply chain_call; right; discriminate].
  intros v Hv. apply List.in_map_iff in Hv. destruct Hv as (g' & <- & Hg). apply V, Hg.
Qed.
Lemma range_fresh n body : n <> text "_" -> uses_in n body = true -> forallb (fresh_use [] body) (named (text "_") IntT) = true /\ forall t, forallb (fresh_use [] body) (named n t) = true.
Proof using Type.
  clear. intros N U. split; [reflexivity|]. intros t. unfold named. rewrite same_false by exact N. cbn [forallb]. unfold fresh_use. cbn [fst existsb negb andb]. rewrite U, orb_true_r. reflexivity.
Qed.
Lemma range_ok R e t body : ETY G e = Some [SliceT t] -> uses_in n_v body = true -> check_block (CK R) body [] ((n_v, t) :: G) = true -> CK R (Range (text "_") n_v e body) G = Some [].
Proof using Type.
  clear. intros He U C. destruct (range_fresh n_v body ltac:(ne) U) as (_ & F). cbn [GoTypes.check]. rewrite He. change (named (text "_") IntT) with (@nil (bytes * ty)). cbn [app]. rewrite F.
  change (named n_v t) with [(n_v, t)]. cbn [app]. rewrite C. reflexivity.
Qed.
Lemma size_ty fd t : ETY G (my fd) = Some [t] -> match t with SliceT _ | MapN _ | MapL _ _ => True | _ => False end -> ETY G (App n_u32 [App n_len [my fd]]) = Some [Basic RU32].
Proof using NA CL. intros H T. rewrite (app1 v2 f G n_u32 _ IntT); [apply (u32_sig v2 f NA G _ CL); reflexivity|]. rewrite (app1 v2 f G n_len _ _ H). apply (len_sig v2 f NA G t CL T). Qed.
Lemma slices_ok R fd : In fd (g_slices (get_fields go_encodeLUT (m_fields m))) -> Forall (fun c => CK R c G = Some []) (encode_slice fd).
Proof using NA HM SO CL Hx Hb.
  intros H. destruct (in_slices go_encodeLUT f _ fd SO H) as (Hi & M & K). pose proof (my_sort fd Hi) as My.
  assert (B : find_name n_b ((n_v, tyof (f_typ fd)) :: G) = Some BufT) by (cbn [find_name]; rewrite same_false by ne; exact Hb).
  assert (V : find_name n_v ((n_v, tyof (f_typ fd)) :: G) = Some (tyof (f_typ fd))) by (cbn [find_name]; rewrite same_refl; reflexivity).
  assert (E : fty fd = SliceT (tyof (f_typ fd))) by (unfold fty; rewrite M; destruct K as [(k & q & -> & _)|(s & -> & _)]; reflexivity). rewrite E in My.
  assert (Sz := size_ty fd _ My I).
  destruct K as [(k & q & Et & Q & K1 & K2 & K3)|(s & Et & Kn)]; unfold encode_slice; rewrite Et in *; cbn [kind_of].
  - assert (X : String.eqb (entry (go_encodeLUT k)) "" && is_kind k KMessage = false) by (destruct k; try reflexivity; congruence). rewrite X.
    assert (Y : exists z, assoc (entry (go_kindLUT k)) go_kinds = Some z) by (destruct k; try discriminate Q; eexists; reflexivity). destruct Y as (z & Y).
    constructor; [|constructor; [|constructor]].
    + eapply do_ok; [|reflexivity]. rewrite (met2 v2 f G _ EncT _ _ (Basic RU32) _ KindT (encoder_ty v2 f G Hb) Sz (const_ty v2 f G _ z Y)). reflexivity.
    + eapply range_ok; [exact My|reflexivity|]. apply block_all. constructor; [|constructor]. eapply do_ok; [|reflexivity].
      rewrite (met1 v2 f _ _ EncT _ _ (Basic q) (encoder_ty v2 f _ B)); [apply method_enc, Q|]. cbn [tyof] in *. rewrite Q in V |- *. exact (var_ty v2 f _ _ _ V).
  - change (String.eqb (entry (go_encodeLUT KMessage)) "" && is_kind KMessage KMessage) with true. cbv iota.
    constructor; [|constructor; [|constructor]].
    + eapply do_ok; [|reflexivity]. rewrite (met2 v2 f G _ EncT _ _ (Basic RU32) _ KindT (encoder_ty v2 f G Hb) Sz (const_ty v2 f G "polyglot.AnyKind" 3 eq_refl)). reflexivity.
    + eapply range_ok; [exact My|reflexivity|]. apply block_all. constructor; [|constructor]. eapply do_ok; [|reflexivity].
      cbn [tyof] in *. rewrite (met1 v2 f _ (Var n_v) (PtrT (camel s)) _ (Var n_b) BufT (var_ty v2 f _ _ _ V) (var_ty v2 f _ _ _ B)). apply (encode_sig v2 f NA s Kn).
Qed.
Lemma messages_ok R fd : In fd (g_messages (get_fields go_encodeLUT (m_fields m))) -> Forall (fun c => CK R c G = Some []) (encode_message fd).
Proof using NA HM SO Hx Hb.
  intros H. destruct (in_messages go_encodeLUT f _ fd (or_introl eq_refl) SO H) as (Hi & K). pose proof (my_sort fd Hi) as My. constructor; [|constructor]. eapply do_ok; [|reflexivity].
  rewrite (met1 v2 f G (my fd) (fty fd) _ (Var n_b) BufT My (var_ty v2 f _ _ _ Hb)). unfold fty.
  destruct K as [(M & s & Et & Kn)|(kt & vt & Et & _)]; rewrite Et; [rewrite M; apply (encode_sig v2 f NA s Kn)|]. apply (encode_map_sig v2 f NA m fd kt vt HM Hi Et).
Qed.
End Msg.
Lemma nil_check R G n t a b here : find_name n G = Some t -> match t with PtrT _ | MapN _ => True | _ => False end -> check_block (CK R) a [] G = true -> check_block (CK R) b [] G = true ->
  check_block (CK R) [If (Eq (Var n) NilLit) a b] here G = true.
Proof using Type.
  intros Hn T A B. cbn [check_block GoTypes.check ety]. unfold ty1. cbn [ety]. rewrite Hn. assert (X : compared P t NilT = true) by (destruct t; try destruct T; reflexivity). rewrite X, A, B. reflexivity.
Qed.
Theorem encode_checks m : has_message f m -> (forall fd, In fd (m_fields m) -> sort f fd) -> check_func v2 P (encode_func m) = true.
Proof using NA.
  intros HM SO. unfold check_func. cbn [encode_func fn_types fn_result fn_params fn_body map type_written].
  rewrite (star_of v2 f NA [] (m_full m) (clear_nil v2 f) (known_star f m HM)). cbn [all_types option_map length Nat.eqb combine andb]. rewrite andb_true_r.
  set (G := [(n_x, PtrT (camel (m_full m))); (n_b, BufT)]).
  assert (CL : clear G) by (apply clear_own; [apply clear_own; [apply clear_nil|]|]; unfold own_var; cbn [In]; auto).
  apply (nil_check [] G n_x (PtrT (camel (m_full m)))); [reflexivity|exact I| |].
  - apply block_all. constructor; [|constructor]. eapply do_ok; [|reflexivity]. rewrite (met0 v2 f G _ EncT); [reflexivity|]. apply encoder_ty. reflexivity.
  - apply block_all. apply Forall_app. split; [apply (values_ok m HM SO G CL eq_refl eq_refl)|]. apply Forall_app. split; rewrite Forall_flat_map, Forall_forall; intros fd Hfd.
    + apply (slices_ok m HM SO G CL eq_refl eq_refl), Hfd.
    + apply (messages_ok m HM SO G eq_refl eq_refl), Hfd.
Qed.
End Encode.
