(** Generated functions pass the type checker: the decode functions of messages. *)
From Coq Require Import String.
From Verif Require Import Base Spec GenTables GenModel NameModel NameSpec EmitModel EmitSpec EmitThms PkgThms GoAst GoEmit GoRunSpec GoLink GoScope GoSlices GoMsgs GoMaps GoDecode GoTypes GoTypes2 GoTypes3 GoTypes4 GoTypes5 GoTypes6.
Local Open Scope list_scope.

Section Decode.
Variables (v2 : bool) (f : filed).
Hypothesis NA : names_apart v2 f.
Notation P := (go_program v2 f).
Notation names := (go_names (go_file v2 f)).
Notation ETY := (ety v2 P).
Notation CK := (GoTypes.check v2 P).
Notation clear := (clear v2 f).
Notation C0 := (clear_nil v2 f).
Ltac own := unfold own_var; cbn [In]; auto 10.
Variable m : msgd.
Hypothesis HM : has_message f m.
Hypothesis SO : forall fd, In fd (m_fields m) -> sort f fd.
Record dscope (G : GoTypes.scope) : Prop := {
  ds_clear : clear G;
  ds_x : find_name n_x G = Some (PtrT (camel (m_full m)));
  ds_d : find_name n_d G = Some DecT;
  ds_err : find_name n_err G = Some ErrT
}.
Lemma dscope_cons G n t : dscope G -> ~ In n names -> ~ In n predeclared -> n <> n_x -> n <> n_d -> n <> n_err -> dscope ((n, t) :: G).
Proof using Type.
  intros [C X D E] N1 N2 N3 N4 N5. split; [apply clear_cons; assumption| | |]; cbn [find_name]; rewrite same_false by congruence; assumption.
Qed.
Lemma my_place G fd : dscope G -> In fd (m_fields m) -> place v2 P G (my fd) = Some (fty fd).
Proof using NA HM SO. intros D H. unfold my, place. apply ty1_of. exact (my_sort v2 f NA m HM SO G (ds_x _ D) fd H). Qed.
Lemma temp_own fd k : own_var k -> temp fd <> k.
Proof using Type. apply no_lower_own; [apply temp_no_lower|]. unfold temp. destruct (goname fd); discriminate. Qed.
Definition tempt (fd : fieldd) : Prop := ~ In (temp fd) predeclared.
Lemma temp_pre fd : tempt fd.
Proof using Type.
  clear. unfold tempt, temp. generalize (goname fd). intros a H. change (text "Temp") with ([84; 101; 109] ++ [112]) in H. rewrite app_assoc in H.
  assert (L : forall n, In n predeclared -> last n 0 <> 112) by (intros n K; vm_compute in K; repeat (destruct K as [<-|K]; [discriminate|]); destruct K).
  apply (L _ H). apply last_last.
Qed.

(** ---- singular fields ---- *)
Lemma other_ok fd G here r : In fd (g_values (get_fields go_decodeLUT (m_fields m))) -> dscope G -> (is_kind (kind_of (f_typ fd)) KEnum = true -> existsb (same (temp fd)) here = false /\ tempt fd) ->
  (forall here' G', dscope G' -> (forall n, In n here' -> In n here \/ n = temp fd) -> check_block (CK [ErrT]) r here' G' = true) ->
  check_block (CK [ErrT]) (decode_other v2 fd ++ r) here G = true.
Proof using NA HM SO.
  intros H D Tm K. destruct (in_values go_decodeLUT f _ fd (or_intror eq_refl) SO H) as (Hi & M & I & Km & (q & Q) & Kn).
  assert (E : fty fd = tyof (f_typ fd)) by (unfold fty; unfold is_map in I; rewrite M; destruct (f_typ fd); try reflexivity; discriminate I).
  assert (CKE := check_ok v2 f). unfold decode_other. destruct (is_kind (kind_of (f_typ fd)) KBytes) eqn:EB.
  - apply kind_bytes in EB. assert (T : fty fd = Basic RBytes).
    { rewrite E. destruct (f_typ fd) as [k|s|s|? ?]; cbn [kind_of] in *; try discriminate EB. subst k. reflexivity. }
    rewrite block_plain; [apply K; auto|]. constructor; [|constructor; [apply CKE, D|constructor]].
    apply (assign2 v2 f G _ _ _ _ (Basic RBytes) ErrT); [rewrite (my_place G fd D Hi), T; reflexivity|exact (ds_err _ D)|].
    assert (A : forall a u, ETY G a = Some [u] -> assignable P u (Basic RBytes) = true -> ETY G (Met (Var n_d) (entry (go_decodeLUT (kind_of (f_typ fd)))) [a]) = Some [Basic RBytes; ErrT]).
    { intros a u Ha As. rewrite (met1 v2 f G _ DecT _ _ u (var_ty v2 f _ _ _ (ds_d _ D)) Ha). unfold method_sig. rewrite EB. unfold decoder_sig. cbn. rewrite As. reflexivity. }
    assert (MY := my_sort v2 f NA m HM SO G (ds_x _ D) fd Hi). rewrite T in MY.
    assert (B : forall b : bool, ETY G (Met (Var n_d) (entry (go_decodeLUT (kind_of (f_typ fd)))) [if b then my fd else NilLit]) = Some [Basic RBytes; ErrT]).
    { intros [|]; [apply (A _ _ MY); apply assignable_refl|apply (A NilLit NilT); reflexivity]. }
    apply (B v2).
  - destruct (is_kind (kind_of (f_typ fd)) KEnum) eqn:EE.
    + destruct (enum_kind f _ Kn EE) as (s & Es). destruct (Tm eq_refl) as (Th & Tp). rewrite Es in *. cbn [kind_of tyof] in *.
      assert (TT : type_text fd = camel s) by (unfold type_text, FindValue; rewrite Es, M, camel_ok; reflexivity). rewrite TT.
      assert (NT : ~ In (temp fd) names) by (apply (na_temps _ _ NA m fd HM Hi); [exists s; exact Es|exact M]).
      cbn [app]. apply (let_ok v2 f _ _ _ (Basic RU32)); [exact (u32_of v2 f NA G (ds_clear _ D))|exact Th| |].
      * rewrite !uses_cons. cbn [uses uses_e existsb declares uses_l]. rewrite same_refl. cbn [orb negb andb]. rewrite ?orb_true_r. reflexivity.
      * set (G1 := (temp fd, Basic RU32) :: G).
        assert (D1 : dscope G1) by (apply dscope_cons; auto; apply temp_own; own).
        assert (F1 : find_name (temp fd) G1 = Some (Basic RU32)) by (cbn [G1 find_name]; rewrite same_refl; reflexivity).
        change (?a :: ?b :: ?c :: r) with ([a; b; c] ++ r). rewrite block_plain.
        -- apply K; [exact D1|]. intros n [<-|Hn]; auto.
        -- constructor; [|constructor; [|constructor; [apply CKE, D1|constructor]]].
           ++ apply (assign2 v2 f G1 _ _ _ _ (Basic RU32) ErrT); [exact F1|exact (ds_err _ D1)|]. rewrite (met0 v2 f G1 _ DecT _ (var_ty v2 f _ _ _ (ds_d _ D1))). reflexivity.
           ++ apply (assign1 v2 f G1 _ _ _ (EnumT (camel s)) (EnumT (camel s))); [rewrite (my_place G1 fd D1 Hi); congruence| |apply assignable_refl].
              rewrite (app1 v2 f G1 _ _ (Basic RU32) (var_ty v2 f _ _ _ F1)). apply (enum_sig v2 f NA G1 s _ (ds_clear _ D1) Kn). reflexivity.
    + rewrite block_plain; [apply K; auto|]. constructor; [|constructor; [apply CKE, D|constructor]].
      apply (assign2 v2 f G _ _ _ _ (Basic q) ErrT); [rewrite (my_place G fd D Hi), E, (plain_kind_ty f _ q Kn EE Q); reflexivity|exact (ds_err _ D)|].
      rewrite (met0 v2 f G _ DecT _ (var_ty v2 f _ _ _ (ds_d _ D))). apply (dec_scalar v2 f _ q Q). intros X. rewrite X in EB. discriminate EB.
Qed.
Lemma others_ok l : forall G here r, incl l (g_values (get_fields go_decodeLUT (m_fields m))) -> NoDup (map goname l) -> dscope G ->
  (forall fd, In fd l -> ~ In (temp fd) here /\ tempt fd) ->
  (forall here' G', dscope G' -> (forall n, In n here' -> In n here \/ exists fd, n = temp fd) -> check_block (CK [ErrT]) r here' G' = true) ->
  check_block (CK [ErrT]) (flat_map (decode_other v2) l ++ r) here G = true.
Proof using NA HM SO.
  induction l as [|fd l IH]; intros G here r Hl N D T K; [apply K; auto|]. cbn [flat_map map] in *. inversion N as [|? ? N1 N2]; subst. rewrite <- app_assoc.
  apply other_ok; [apply Hl; left; reflexivity|exact D| |].
  - intros _. destruct (T fd (or_introl eq_refl)) as (T1 & T2). split; [|exact T2]. destruct (existsb (same (temp fd)) here) eqn:X; [|reflexivity]. apply existsb_exists in X. destruct X as (n & X1 & X2). apply same_true in X2. subst n. contradiction.
  - intros here' G' D' H'. apply IH; [intros g Hg; apply Hl; right; exact Hg|exact N2|exact D'| |].
    + intros g Hg. destruct (T g (or_intror Hg)) as (T1 & T2). split; [|exact T2]. intros X. destruct (H' _ X) as [Y|Y]; [exact (T1 Y)|]. apply app_inv_tail in Y. apply N1. rewrite <- Y. apply List.in_map. exact Hg.
    + intros here2 G2 D2 H2. apply K; [exact D2|]. intros n Hn. destruct (H2 n Hn) as [Y|Y]; [|right; exact Y]. destruct (H' n Y) as [Z|Z]; [left; exact Z|right; eauto].
Qed.
(** ---- repeated fields ---- *)
Lemma slice_ok fd G : In fd (g_slices (get_fields go_decodeLUT (m_fields m))) -> dscope G -> find_name n_slice G = Some (Basic RU32) -> Forall (fun c => CK [ErrT] c G = Some []) (decode_slice fd).
Proof using NA HM SO.
  intros H D S. destruct (in_slices go_decodeLUT f _ fd SO H) as (Hi & M & K). pose proof (my_sort v2 f NA m HM SO G (ds_x _ D) fd Hi) as My.
  assert (E : fty fd = SliceT (tyof (f_typ fd))) by (unfold fty; rewrite M; destruct K as [(k & q & -> & _)|(s & -> & _)]; reflexivity). rewrite E in My.
  assert (Z : exists z, kind_number (go_GetKind (kind_of (f_typ fd))) = Some z).
  { destruct K as [(k & q & -> & Q & _)|(s & -> & _)]; [|eexists; reflexivity]. cbn [kind_of]. destruct k; try discriminate Q; eexists; reflexivity. }
  destruct Z as (z & Z). constructor; [|constructor; [apply check_ok, D|constructor; [|constructor; [|constructor]]]].
  - apply (assign2 v2 f G _ _ _ _ (Basic RU32) ErrT); [exact S|exact (ds_err _ D)|]. rewrite (met1 v2 f G _ DecT _ _ KindT (var_ty v2 f _ _ _ (ds_d _ D)) (kind_const v2 f G _ z Z)). reflexivity.
  - assert (A : CK [ErrT] (Assign [my fd] (Make (type_text fd) (Var n_slice))) G = Some []).
    { apply (assign1 v2 f G _ _ _ (SliceT (tyof (f_typ fd))) (SliceT (tyof (f_typ fd)))); [rewrite (my_place G fd D Hi), E; reflexivity| |apply assignable_refl].
      cbn [ety]. rewrite (field_of_ty v2 f NA G m fd (ds_clear _ D) HM Hi (sort_good f fd (SO fd Hi))), E, (ty1_of _ _ _ (var_ty v2 f _ _ _ S)). reflexivity. }
    assert (B : ETY G (Neq (App n_u32 [App n_len [my fd]]) (Var n_slice)) = Some [Basic RBool]).
    { pose proof (size_ty v2 f NA G (ds_clear _ D) fd _ My I) as Sz. remember (App n_u32 [App n_len [my fd]]) as e. cbn [ety]. rewrite (ty1_of _ _ _ Sz), (ty1_of _ _ _ (var_ty v2 f _ _ _ S)). reflexivity. }
    remember (Neq (App n_u32 [App n_len [my fd]]) (Var n_slice)) as e. remember (Assign [my fd] (Make (type_text fd) (Var n_slice))) as c. cbn [GoTypes.check check_block]. rewrite B, A. reflexivity.
  - apply count_ok; [exact (var_ty v2 f _ _ _ S)|]. set (G1 := (n_i, Basic RU32) :: G).
    assert (D1 : dscope G1).
    { destruct D as [C X Y W]. split; [apply clear_own; [exact NA|exact C|own]| | |]; cbn [G1 find_name]; rewrite same_false by ne; assumption. }
    assert (My1 := my_sort v2 f NA m HM SO G1 (ds_x _ D1) fd Hi). rewrite E in My1.
    assert (Here : ETY G1 (Idx (my fd) (Var n_i)) = Some [tyof (f_typ fd)]).
    { remember (my fd) as e. cbn [ety]. rewrite (ty1_of _ _ _ My1). reflexivity. }
    assert (PH : place v2 P G1 (Idx (my fd) (Var n_i)) = Some (tyof (f_typ fd))) by (unfold place; exact (ty1_of _ _ _ Here)).
    apply block_all. unfold decode_element. apply Forall_app. split; [|constructor; [apply check_ok, D1|constructor]].
    destruct K as [(k & q & Et & Q & K1 & K2 & K3)|(s & Et & Kn)]; rewrite Et in *; cbn [kind_of tyof] in *.
    + assert (X : is_kind k KMessage = false) by (destruct k; try reflexivity; congruence). rewrite X. constructor; [|constructor]. rewrite Q in *.
      apply (assign2 v2 f G1 _ _ _ _ (Basic q) ErrT); [exact PH|exact (ds_err _ D1)|]. rewrite (met0 v2 f G1 _ DecT _ (var_ty v2 f _ _ _ (ds_d _ D1))). apply (dec_scalar v2 f k q Q K1).
    + change (is_kind KMessage KMessage) with true. cbv iota. unfold message_of. rewrite Et. constructor; [|constructor; [|constructor]].
      * assert (A : CK [ErrT] (Assign [Idx (my fd) (Var n_i)] (App (new_name (camel s)) [])) G1 = Some []).
        { apply (assign1 v2 f G1 _ _ _ (PtrT (camel s)) (PtrT (camel s))); [exact PH| |apply assignable_refl]. rewrite app0. apply (new_sig v2 f NA G1 s (ds_clear _ D1) Kn). }
        assert (B : ETY G1 (Eq (Idx (my fd) (Var n_i)) NilLit) = Some [Basic RBool]).
        { remember (Idx (my fd) (Var n_i)) as e. cbn [ety]. rewrite (ty1_of _ _ _ Here). reflexivity. }
        remember (Eq (Idx (my fd) (Var n_i)) NilLit) as e. remember (Assign [Idx (my fd) (Var n_i)] (App (new_name (camel s)) [])) as c. cbn [GoTypes.check check_block]. rewrite B, A. reflexivity.
      * apply (assign1 v2 f G1 _ _ _ ErrT ErrT); [exact (ds_err _ D1)| |reflexivity]. rewrite (met1 v2 f G1 _ (PtrT (camel s)) _ _ DecT Here (var_ty v2 f _ _ _ (ds_d _ D1))). apply (decode_sig v2 f NA s Kn).
Qed.
(** ---- messages and maps ---- *)
Lemma if_ok R c a b G : ETY G c = Some [Basic RBool] -> check_block (CK R) a [] G = true -> check_block (CK R) b [] G = true -> CK R (If c a b) G = Some [].
Proof using Type. intros H A B. cbn [GoTypes.check]. rewrite H, A, B. reflexivity. Qed.
Lemma not_nil G : dscope G -> ETY G (Not (Met (Var n_d) ".Nil" [])) = Some [Basic RBool].
Proof using Type.
  intros D. assert (A : ETY G (Met (Var n_d) ".Nil" []) = Some [Basic RBool]) by (rewrite (met0 v2 f G _ DecT _ (var_ty v2 f _ _ _ (ds_d _ D))); reflexivity).
  remember (Met (Var n_d) ".Nil" []) as e. cbn [ety]. rewrite (ty1_of _ _ _ A). reflexivity.
Qed.
Lemma message_ok fd G : In fd (g_messages (get_fields go_decodeLUT (m_fields m))) -> dscope G -> Forall (fun c => CK [ErrT] c G = Some []) (decode_message v2 fd).
Proof using NA HM SO.
  intros H D. destruct (in_messages go_decodeLUT f _ fd (or_intror eq_refl) SO H) as (Hi & K). pose proof (my_sort v2 f NA m HM SO G (ds_x _ D) fd Hi) as My. pose proof (my_place G fd D Hi) as PM.
  assert (CKE := check_ok v2 f). unfold decode_message. destruct K as [(M & s & Et & Kn)|(kt & vt & Et & Kk & Kv & KK & Nv & Nb)]; rewrite Et.
  - assert (E : fty fd = PtrT (camel s)) by (unfold fty; rewrite Et, M; reflexivity). rewrite E in *. unfold message_of. rewrite Et. cbv zeta.
    assert (A : CK [ErrT] (Assign [my fd] (App (new_name (camel s)) [])) G = Some []).
    { apply (assign1 v2 f G _ _ _ (PtrT (camel s)) (PtrT (camel s))); [exact PM| |apply assignable_refl]. rewrite app0. apply (new_sig v2 f NA G s (ds_clear _ D) Kn). }
    assert (B : CK [ErrT] (Assign [Var n_err] (Met (my fd) ".decode" [Var n_d])) G = Some []).
    { apply (assign1 v2 f G _ _ _ ErrT ErrT); [exact (ds_err _ D)| |reflexivity]. rewrite (met1 v2 f G _ (PtrT (camel s)) _ _ DecT My (var_ty v2 f _ _ _ (ds_d _ D))). apply (decode_sig v2 f NA s Kn). }
    assert (N : ETY G (Eq (my fd) NilLit) = Some [Basic RBool]).
    { remember (my fd) as e. cbn [ety]. rewrite (ty1_of _ _ _ My). reflexivity. }
    assert (G0 : forall b : bool, Forall (fun c => CK [ErrT] c G = Some []) (if b then [If (Not (Met (Var n_d) ".Nil" [])) [Assign [my fd] (App (new_name (camel s)) []); Assign [Var n_err] (Met (my fd) ".decode" [Var n_d]); GoEmit.check] []]
       else [If (Eq (my fd) NilLit) [Assign [my fd] (App (new_name (camel s)) [])] []; Assign [Var n_err] (Met (my fd) ".decode" [Var n_d]); GoEmit.check])).
    { intros [|].
      - constructor; [|constructor]. apply if_ok; [exact (not_nil G D)| |reflexivity]. apply block_all. constructor; [exact A|]. constructor; [exact B|]. constructor; [apply CKE, D|constructor].
      - constructor; [|constructor; [exact B|constructor; [apply CKE, D|constructor]]]. apply if_ok; [exact N| |reflexivity]. apply block_all. constructor; [exact A|constructor]. }
    apply (G0 v2).
  - assert (Ng := kt_group v2 f NA m fd kt vt HM Hi Et KK). destruct (vt_kind v2 f NA m fd kt vt HM Hi Et Nv) as (zv & Zv). destruct (kt_kind kt KK) as (zk & Zk).
    assert (E : fty fd = MapN (map_name fd)) by (unfold fty; rewrite Et; reflexivity). rewrite E in *.
    constructor; [|constructor]. apply if_ok; [exact (not_nil G D)| |reflexivity].
    assert (SN : forall k, own_var k -> size_name fd <> k) by (apply no_lower_own; [apply size_no_lower|unfold size_name; destruct (goname fd); discriminate]).
    assert (DF : CK [ErrT] (Define [size_name fd; n_err] (Met (Var n_d) ".Map" [Const (entry (go_GetKind (kind_of kt))); Const (entry (go_GetKind (kind_of vt)))])) G = Some [(size_name fd, Basic RU32); (n_err, ErrT)]).
    { assert (A : ETY G (Met (Var n_d) ".Map" [Const (entry (go_GetKind (kind_of kt))); Const (entry (go_GetKind (kind_of vt)))]) = Some [Basic RU32; ErrT]) by
        (rewrite (met2 v2 f G _ DecT _ _ KindT _ KindT (var_ty v2 f _ _ _ (ds_d _ D)) (kind_const v2 f G _ zk Zk) (kind_const v2 f G _ zv Zv)); reflexivity).
      remember (Met (Var n_d) ".Map" _) as e. cbn [GoTypes.check]. rewrite A. reflexivity. }
    set (G1 := (size_name fd, Basic RU32) :: (n_err, ErrT) :: G).
    assert (O : forall n t, find_name n G = Some t -> own_var n -> n <> n_err -> find_name n G1 = Some t).
    { intros n t Hn On Ne. cbn [G1 find_name]. rewrite (same_false n (size_name fd)) by (intros X; exact (SN n On (eq_sym X))). rewrite (same_false _ _ Ne). exact Hn. }
    assert (OX : find_name n_x G1 = Some (PtrT (camel (m_full m)))) by (apply O; [exact (ds_x _ D)|own|ne]).
    assert (OD : find_name n_d G1 = Some DecT) by (apply O; [exact (ds_d _ D)|own|ne]).
    assert (OE : find_name n_err G1 = Some ErrT) by (cbn [G1 find_name]; rewrite (same_false n_err (size_name fd)) by (intros X; exact (SN n_err ltac:(own) (eq_sym X))); rewrite same_refl; reflexivity).
    assert (OS : find_name (size_name fd) G1 = Some (Basic RU32)) by (cbn [G1 find_name]; rewrite same_refl; reflexivity).
    assert (My1 := my_ty v2 f NA G1 m fd OX HM Hi (sort_good f fd (SO fd Hi))). rewrite E in My1.
    assert (A1 : CK [ErrT] (Assign [my fd] (App (new_name (map_name fd)) [Var (size_name fd)])) G1 = Some []).
    { apply (assign1 v2 f G1 _ _ _ (MapN (map_name fd)) (MapL (tyof kt) (tyof vt))); [unfold my, place; exact (ty1_of _ _ _ My1)| |].
      - rewrite (app1 v2 f G1 _ _ (Basic RU32) (var_ty v2 f _ _ _ OS)). apply (newmap_sig v2 f NA m fd kt vt HM Hi Et Ng Nv G1).
        destruct (map_type v2 f NA m fd kt vt HM Hi Et) as (_ & _ & M3 & _). cbn [G1 local existsb fst]. rewrite (same_false (new_name (map_name fd)) (size_name fd)).
        + rewrite (same_false _ n_err); [exact (names_local v2 f G _ (ds_clear _ D) M3)|]. intros X. discriminate X.
        + intros X. symmetry in X. revert X. apply size_not_map.
      - unfold assignable. rewrite (mapn_find v2 f NA m fd kt vt HM Hi Et), (key_of v2 f NA m fd kt vt HM Hi Et Ng [] C0), (value_of v2 f NA m fd kt vt HM Hi Et Nv [] C0), !is_ty_refl. apply orb_true_r. }
    assert (A2 : CK [ErrT] (Assign [Var n_err] (Met (my fd) ".decode" [Var n_d; Var (size_name fd)])) G1 = Some []).
    { apply (assign1 v2 f G1 _ _ _ ErrT ErrT); [exact OE| |reflexivity]. rewrite (met2 v2 f G1 _ _ _ _ DecT _ (Basic RU32) My1 (var_ty v2 f _ _ _ OD) (var_ty v2 f _ _ _ OS)). apply (decode_map_sig v2 f NA m fd kt vt HM Hi Et). }
    set (R4 := [GoEmit.check; Assign [my fd] (App (new_name (map_name fd)) [Var (size_name fd)]); Assign [Var n_err] (Met (my fd) ".decode" [Var n_d; Var (size_name fd)]); GoEmit.check]).
    assert (U1 : uses_in (size_name fd) R4 = true).
    { unfold R4. rewrite !uses_cons. cbn [uses uses_e existsb declares uses_l]. rewrite same_refl. cbn [orb negb andb]. rewrite ?orb_true_r. reflexivity. }
    assert (U2 : uses_in n_err R4 = true) by (unfold R4; rewrite uses_cons, check_uses; reflexivity).
    change (?a :: GoEmit.check :: _) with (a :: R4). cbn [check_block]. rewrite DF. cbn [forallb map fst app]. unfold fresh_use. cbn [fst existsb negb andb]. rewrite U1, U2, !orb_true_r. cbn [andb].
    apply block_all. constructor; [apply CKE, OE|]. constructor; [exact A1|]. constructor; [exact A2|]. constructor; [apply CKE, OE|constructor].
Qed.
(** ---- err and sliceSize are used ---- *)
Lemma other_declares n fd : own_var n -> existsb (declares n) (decode_other v2 fd) = false.
Proof using Type.
  intros O. unfold decode_other. rewrite existsb_app. destruct (is_kind _ KBytes); [reflexivity|]. destruct (is_kind _ KEnum); [|reflexivity]. cbn [existsb declares]. rewrite same_false by (intros X; exact (temp_own fd n O (eq_sym X))). reflexivity.
Qed.
Lemma other_err fd : uses_in n_err (decode_other v2 fd) = true.
Proof using Type.
  pose proof (other_declares n_err fd ltac:(own)) as H. revert H. unfold decode_other. rewrite existsb_app, uses_app. intros H. apply orb_false_iff in H. destruct H as (H & _). rewrite H. apply orb_true_r.
Qed.
Lemma slice_declares n fd : existsb (declares n) (decode_slice fd) = false. Proof using Type. reflexivity. Qed.
Lemma slice_err fd : uses_in n_err (decode_slice fd) = true.
Proof using Type. unfold decode_slice. rewrite uses_cons. cbn [uses declares negb andb]. rewrite uses_cons, check_uses. apply orb_true_r. Qed.
Lemma slice_size fd : uses_in n_slice (decode_slice fd) = true.
Proof using Type.
  unfold decode_slice. rewrite uses_cons. cbn [declares negb andb]. rewrite uses_cons. cbn [declares GoEmit.check negb andb]. rewrite uses_cons. cbn [declares negb andb uses uses_e]. rewrite same_refl. cbn [orb]. rewrite ?orb_true_r. reflexivity.
Qed.
Lemma message_declares n fd : existsb (declares n) (decode_message v2 fd) = false.
Proof using Type. clear. unfold decode_message. destruct (f_typ fd), v2; reflexivity. Qed.
Lemma message_err fd : is_map fd = false -> uses_in n_err (decode_message v2 fd) = true.
Proof using Type.
  clear. unfold is_map, decode_message. intros H. assert (G : forall s : bool, uses_in n_err (let new := Assign [my fd] (App (new_name (message_of fd)) []) in let dec := Assign [Var n_err] (Met (my fd) ".decode" [Var n_d]) in
      if s then [If (Not (Met (Var n_d) ".Nil" [])) [new; dec; GoEmit.check] []] else [If (Eq (my fd) NilLit) [new] []; dec; GoEmit.check]) = true).
  { intros [|]; reflexivity. }
  destruct (f_typ fd); try discriminate H; apply G.
Qed.
Theorem decode_checks : (m_fields m = [] \/ exists fd, In fd (m_fields m) /\ is_map fd = false) -> check_func v2 P (decode_func v2 m) = true.
Proof using NA HM SO.
  intros Hmap. pose proof temp_pre as Tm. unfold check_func. cbn [decode_func fn_types fn_result fn_params fn_body map type_written]. rewrite (star_of v2 f NA [] (m_full m) C0 (known_star f m HM)), (error_named v2 f NA [] C0).
  cbn [all_types option_map length Nat.eqb combine andb]. set (g := get_fields go_decodeLUT (m_fields m)).
  set (G := [(n_x, PtrT (camel (m_full m))); (n_d, DecT)]).
  assert (CL : clear G) by (repeat (apply clear_own; [exact NA| |own]); exact C0).
  assert (EN : forall l : list stmt, ends (l ++ [Return [NilLit]]) = true). { clear. induction l as [|c l IH]; [reflexivity|]. destruct c, l; try reflexivity; exact IH. }
  apply andb_true_iff. split; [|rewrite !app_assoc; apply EN].
  assert (B0 : CK [ErrT] (If (Met (Var n_d) ".Nil" []) [Return [NilLit]] []) G = Some []) by reflexivity.
  cbn [app check_block]. rewrite B0. cbn [forallb map app andb].
  assert (NV : NoDup (map goname (g_values g))).
  { pose proof (na_fields _ _ NA m HM) as N. unfold g. clear -N. induction (m_fields m) as [|fd fs IH]; [constructor|]. cbn [map] in N. inversion N as [|? ? N1 N2]; subst. cbn [get_fields].
    destruct (f_many fd && negb (is_map fd)); [exact (IH N2)|]. destruct (go_decodeLUT (kind_of (f_typ fd))); [|exact (IH N2)]. cbn [g_values map]. constructor; [|exact (IH N2)].
    intros X. apply N1. apply List.in_map_iff in X. destruct X as (h & <- & Hh). apply List.in_map. apply groups_in in Hh. apply Hh. }
  (* after var err error *)
  assert (REST : forall here G', dscope G' -> (forall n, In n here -> own_var n) -> ~ In n_slice here ->
     check_block (CK [ErrT]) (flat_map (decode_other v2) (g_values g) ++ (match g_slices g with [] => [] | _ => [Let n_slice n_u32] end) ++ flat_map decode_slice (g_slices g) ++ flat_map (decode_message v2) (g_messages g) ++ [Return [NilLit]]) here G' = true).
  { intros here G' D Oh Nh. apply others_ok; [intros x Hx; exact Hx|exact NV|exact D| |].
    - intros fd Hfd. split; [intros X; exact (temp_own fd (temp fd) (Oh _ X) eq_refl)|]. apply Tm.
    - intros here' G2 D2 H2.
      assert (ML : forall G3 h3, dscope G3 -> check_block (CK [ErrT]) (flat_map (decode_message v2) (g_messages g) ++ [Return [NilLit]]) h3 G3 = true).
      { intros G3 h3 D3. apply block_all. apply Forall_app. split; [|constructor; [reflexivity|constructor]]. rewrite Forall_flat_map, Forall_forall. intros fd Hfd. apply message_ok; assumption. }
      destruct (g_slices g) as [|fs1 ls] eqn:ES; [apply ML, D2|]. cbn [app]. apply (let_ok v2 f _ _ _ (Basic RU32)); [exact (u32_of v2 f NA G2 (ds_clear _ D2))| | |].
      + destruct (existsb (same n_slice) here') eqn:X; [|reflexivity]. apply existsb_exists in X. destruct X as (n & X1 & X2). apply same_true in X2. subst n. destruct (H2 _ X1) as [Y|(fd & Y)]; [contradiction|]. destruct (temp_own fd n_slice ltac:(own) (eq_sym Y)).
      + rewrite uses_app. rewrite (uses_flat n_slice decode_slice (fs1 :: ls) fs1); [reflexivity|intros; apply slice_declares|left; reflexivity|apply slice_size].
      + set (G3 := (n_slice, Basic RU32) :: G2). assert (D3 : dscope G3).
        { destruct D2 as [C X Y W]. split; [apply clear_own; [exact NA|exact C|own]| | |]; cbn [G3 find_name]; rewrite same_false by ne; assumption. }
        rewrite block_plain; [apply ML, D3|]. rewrite Forall_flat_map, Forall_forall. intros fd Hfd. apply slice_ok; [unfold g in ES; rewrite ES; exact Hfd|exact D3|reflexivity]. }
  destruct (m_fields m) as [|f1 fs] eqn:EF.
  - cbn [get_fields] in g. subst g. reflexivity.
  - rewrite <- EF in *. cbn [app]. apply (let_ok v2 f _ _ _ ErrT); [exact (error_named v2 f NA G CL)|reflexivity| |].
    + destruct Hmap as [X|(fd & Hfd & Hm)]; [rewrite X in EF; discriminate EF|].
      assert (DO : existsb (declares n_err) (flat_map (decode_other v2) (g_values g)) = false) by (apply declares_flat; intros; apply other_declares; own).
      assert (DS : existsb (declares n_err) (match g_slices g with [] => [] | _ => [Let n_slice n_u32] end ++ flat_map decode_slice (g_slices g)) = false).
      { rewrite existsb_app, declares_flat by (intros; apply slice_declares). destruct (g_slices g); reflexivity. }
      rewrite uses_app, DO. cbn [negb andb]. rewrite app_assoc, uses_app, DS. cbn [negb andb]. rewrite !uses_app.
      destruct (groups_cover go_decodeLUT (m_fields m) fd Hfd) as [K|[K|K]]; rewrite EF in K; fold g in K.
      * rewrite (uses_flat n_err (decode_other v2) (g_values g) fd); [reflexivity|intros; apply other_declares; own|exact K|apply other_err].
      * rewrite (uses_flat n_err decode_slice (g_slices g) fd); [|intros; apply slice_declares|exact K|apply slice_err].
        destruct (g_slices g); [destruct K|]. change (existsb (declares n_err) [Let n_slice n_u32]) with false. cbn [negb andb]. rewrite !orb_true_r. reflexivity.
      * rewrite (uses_flat n_err (decode_message v2) (g_messages g) fd); [|intros; apply message_declares|exact K|apply message_err, Hm]. cbn [orb]. rewrite !orb_true_r. reflexivity.
    + apply REST.
      * split; [apply clear_own; [exact NA|exact CL|own]|reflexivity|reflexivity|reflexivity].
      * intros n [<-|[<-|[<-|[]]]]; own.
      * intros [X|[X|[X|[]]]]; vm_compute in X; discriminate X.
Qed.
End Decode.
