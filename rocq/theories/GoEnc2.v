(** Encode: whole functions and calls. *)
From Coq Require Import String.
From Verif Require Import Base Spec GenTables GenModel GenSpec GenLemmas GenFields GenTrace NameModel NameSpec EmitModel EmitSpec EmitThms PkgThms GoAst GoEmit GoRunSpec GoLink GoFrame GoExec GoScope GoSlices GoMsgs GoMaps GoDecode GoNew GoCalls GoEnc.

Lemma Forall2_in_l {A B} (R : A -> B -> Prop) l k x : Forall2 R l k -> In x l -> exists y, In y k /\ R x y.
Proof. induction 1 as [|a b l k H F IH]; intros Hx; [destruct Hx|]. destruct Hx as [<-|Hx]; [exists b; split; [left; reflexivity|exact H]|]. destruct (IH Hx) as (y & H1 & H2). exists y. split; [right|]; assumption. Qed.

Section Funcs.
Variables (v2 : bool) (f : filed) (room : Z -> bool) (prim : option bytes -> request -> bytes -> outcome).
Variable callee : option bytes -> bytes -> list gov -> st -> ex (list gov * st).
Variable n : nat.
Hypothesis NA : names_apart v2 f.
Hypothesis CO : compiles (schema_of f) = true.
Notation P := (go_program v2 f).
Notation ms := (messages_of f).
Notation Sch := (schema_of f).
Notation EV := (eval P room prim callee).
Notation EX := (exec P room prim callee).
Notation SEQ := (seq (exec P room prim callee)).
Hypothesis ENC : enc_spec f callee n.

(** encodeMap.templ *)
Theorem mapenc_ok fd kt vt x v fp s l : f_typ fd = TMap kt vt -> known_type f kt -> known_type f vt -> key_kind (kind_of kt) = true -> tkind (ftype_of ms vt) = kind_of vt ->
  rep ms (heap s) fd x v fp -> has_type Sch x (MapOf (kind_of kt) (ftype_of ms vt)) -> calls Sch x (MapOf (kind_of kt) (ftype_of ms vt)) = Some l ->
  enter P room prim callee (encode_map_func fd kt vt) [v; GoBuffer] s = wrote [] (fits n x) l s.
Proof.
  intros Etyp KNk KN KK TK R HT C.
  assert (Ek : exists k1 k2, kind_number (go_GetKind (kind_of kt)) = Some k1 /\ kind_number (go_GetKind (kind_of vt)) = Some k2).
  { destruct x as [| |xm|]; cbn [calls] in C; try discriminate C. rewrite TK in C. destruct (kind_number (go_GetKind (kind_of kt))) as [k1|]; [|discriminate C]. destruct (kind_number (go_GetKind (kind_of vt))) as [k2|]; [|discriminate C]. eauto. }
  destruct Ek as (k1 & k2 & K1 & K2).
  assert (C1 : forall s, EV (Const (entry (go_GetKind (kind_of kt)))) s = Fine ([GoKind k1], s)).
  { intros s1. apply eval_const. unfold kind_number in K1. destruct (go_GetKind (kind_of kt)); [exact K1|discriminate K1]. }
  assert (C2 : forall s, EV (Const (entry (go_GetKind (kind_of vt)))) s = Fine ([GoKind k2], s)).
  { intros s1. apply eval_const. unfold kind_number in K2. destruct (go_GetKind (kind_of vt)); [exact K2|discriminate K2]. }
  unfold enter, encode_map_func. cbn [fn_params fn_body declare ebind]. change (same n_x (text "_")) with false. change (same n_b (text "_")) with false. cbn iota. cbn [env set_env heap inp out made].
  set (s0 := mkst [(n_b, GoBuffer); (n_x, v)] (heap s) (inp s) (out s) (made s)). change (set_env (set_env (set_env s []) [(n_x, v)]) [(n_b, GoBuffer); (n_x, v)]) with s0.
  assert (Es : escope (env s0)) by (constructor; reflexivity).
  assert (Hx : EV (Var n_x) s0 = Fine ([v], s0)) by reflexivity.
  assert (B : EX (If (Eq (Var n_x) NilLit) [Do (Met encoder ".Map" [Num 0; Const (entry (go_GetKind (kind_of kt))); Const (entry (go_GetKind (kind_of vt)))])]
       [Do (Met encoder ".Map" [App n_u32 [App n_len [Var n_x]]; Const (entry (go_GetKind (kind_of kt))); Const (entry (go_GetKind (kind_of vt)))]); Range n_k n_v (Var n_x) [encode_item n_k kt; encode_item n_v vt]]) s0 = wrote Next (fits n x) l s0).
  { assert (Eb : forall c o b1, SEQ b1 s0 = wrote Next c o s0 -> block EX [] [] b1 s0 = wrote Next c o s0).
    { intros c o b1 Hb. apply (block_wrote v2 f room prim callee [] [] b1 s0 (env s0) c o); [reflexivity|apply leave_same; reflexivity|exact Hb]. }
    inversion R; subst; try (rewrite Etyp in *; discriminate); try (match goal with H : is_map _ = false |- _ => unfold is_map in H; rewrite Etyp in H; discriminate H end).
    - rewrite (exec_if_nil P room prim callee (Var n_x) (GoMap (map_name fd) None) true _ _ s0 Hx eq_refl). cbn iota. apply Eb. rewrite seq_one. apply (do_wrote _ _ _ _ _ _ [GoBuffer]).
      rewrite (eval_enc_call3 v2 f room prim callee _ (Num 0) (GoBase (VU32 0)) _ _ _ _ s0 Es eq_refl (C1 _) (C2 _)).
      cbn [calls] in C. rewrite TK, K1, K2 in C. injection C as <-. reflexivity.
    - match goal with H : f_typ fd = TMap _ _ |- _ => rewrite Etyp in H; injection H as <- <- end.
      rewrite (exec_if_nil P room prim callee (Var n_x) (GoMap (map_name fd) (Some a)) false _ _ s0 Hx eq_refl). cbn iota. apply Eb.
      match goal with H : nth_error (heap s) a = Some _ |- _ => rename H into Ha end.
      match goal with H : reps _ _ _ _ vs _ |- _ => rename H into Rs end.
      apply ht_map in HT. destruct HT as (Hl & Nd & HT).
      assert (Lv : length vs = length l0) by (destruct (reps_lengths ms _ _ _ _ _ Rs) as (_ & L); rewrite repeat_length in L; exact L).
      assert (Sz : EV (App n_u32 [App n_len [Var n_x]]) s0 = Fine ([GoBase (VU32 (u32 (zlen l0)))], s0)).
      { eapply eval_u32; [exact Es|apply (eval_len v2 f room prim callee _ (GoMap (map_name fd) (Some a)) (zlen l0)); [exact Es|exact Hx|]|left; reflexivity].
        cbn [length_of]. unfold fetch. cbn [heap]. change (heap s0) with (heap s). rewrite Ha. cbn [need ebind]. unfold zlen. rewrite combine_length, map_length, Lv, Nat.min_id. reflexivity. }
      cbn [calls] in C. rewrite TK, K1, K2 in C. apply all_some_cons in C. destruct C as (o1 & o2 & E1 & C & ->). injection E1 as <-.
      rewrite fits_map. rewrite <- (andb_true_l (forallb _ l0)). apply seq_wrote_cons.
      + apply (do_wrote _ _ _ _ _ _ [GoBuffer]). rewrite (eval_enc_call3 v2 f room prim callee _ _ _ _ _ _ _ s0 Es Sz (C1 _) (C2 _)). reflexivity.
      + rewrite seq_one. set (s1 := outs s0 [VMap (u32 (zlen l0)) k1 k2]). cbn [exec]. rewrite (one_var P room prim callee n_x (GoMap (map_name fd) (Some a)) s1 eq_refl). cbn [ebind items_of]. unfold fetch. change (heap s1) with (heap s). rewrite Ha. cbn [need ebind].
        apply (loop_map f n _ (map_value fd vt) (kind_of kt) (ftype_of ms vt) s1) with (fp := fp0); [|reflexivity|reflexivity|exact Rs|exact HT|exact C].
        intros k y vy fpy s2 l2 E1 E2 Ry Hk Hy EK Cy.
        set (e2 := (n_v, vy) :: (n_k, GoBase k) :: env s2). set (s3 := set_env s2 e2).
        assert (Es3 : escope e2).
        { unfold e2. rewrite E1. apply escope_more; [|discriminate|discriminate|discriminate]. apply escope_more; [exact Es|discriminate|discriminate|discriminate]. }
        apply (block_wrote v2 f room prim callee _ _ _ _ e2).
        * cbn [declare]. change (same n_k (text "_")) with false. change (same n_v (text "_")) with false. cbn iota. unfold e2. destruct s2. reflexivity.
        * unfold e2, leave. cbn [length]. replace (S (S (length (env s2))) - length (env s2))%nat with 2%nat by lia. reflexivity.
        * fold s3. change (k :: l2) with ([k] ++ l2). rewrite <- (andb_true_l (fits n y)).
          assert (Item : forall nm t w sx, env sx = e2 -> find_name nm e2 = Some (GoBase w) -> enc_call (kind_of t) w = Some w -> holds (kind_of t) w -> EX (encode_item nm t) sx = wrote Next true [w] sx).
          { intros nm t w sx Ex Hn Ec Hw. destruct (enc_method _ _ _ Ec) as (_ & Q & Ne & Hm).
            assert (Vn : EV (Var nm) sx = Fine ([GoBase w], sx)) by (apply eval_var; rewrite Ex; exact Hn).
            unfold encode_item. rewrite Ne. cbn [andb]. destruct (is_kind (kind_of t) KEnum) eqn:Ek.
            - apply (do_wrote _ _ _ _ _ _ [GoBuffer]). destruct (kind_of t); try discriminate Ek. destruct Hw as (Vw & Hw). destruct w as [| | | | | | | | |z| | | | |]; try contradiction.
              rewrite (eval_enc_call v2 f room prim callee _ _ (GoBase (VU32 z)) sx); [apply Hm|rewrite Ex; exact Es3|].
              rewrite (eval_u32 v2 f room prim callee _ (GoBase (VU32 z)) z sx); [rewrite u32_small by exact Vw; reflexivity|rewrite Ex; exact Es3|exact Vn|auto].
            - apply (do_wrote _ _ _ _ _ _ [GoBuffer]). rewrite (eval_enc_call v2 f room prim callee _ _ (GoBase w) sx); [apply Hm|rewrite Ex; exact Es3|exact Vn]. }
          apply seq_wrote_cons.
          -- apply Item; auto.
          -- rewrite seq_one. set (s4 := outs s3 [k]). assert (E4 : env s4 = e2) by reflexivity. destruct vt as [kv|es|es|? ?] eqn:Evt; cbn [ftype_of] in Hy, Cy.
             ++ destruct y as [u| | |]; cbn [calls] in Cy; try discriminate Cy. destruct (enc_call kv u) as [u'|] eqn:EC; [|discriminate Cy]. injection Cy as <-. destruct (enc_method kv u u' EC) as (-> & Q & _ & Hm).
                assert (vy = GoBase u) by (inversion Ry; reflexivity). subst vy. apply Item; [exact E4|reflexivity|exact EC|exact Hy].
             ++ destruct y as [u| | |]; cbn [calls] in Cy; try discriminate Cy. destruct (enc_call KEnum u) as [u'|] eqn:EC; [|discriminate Cy]. injection Cy as <-. destruct (enc_method KEnum u u' EC) as (-> & Q & _ & Hm).
                assert (vy = GoBase u) by (inversion Ry; reflexivity). subst vy. apply Item; [exact E4|reflexivity|exact EC|exact Hy].
             ++ destruct (msg_known f es KN) as (me & Hme & Em & HMe).
                assert (Ry4 : rep ms (heap s4) (map_value fd (TMsg es)) y vy fpy) by exact Ry.
                pose proof (ENC (map_value fd (TMsg es)) es me y vy fpy s4 l2 eq_refl eq_refl Hme Em Ry4 Hy Cy) as K.
                assert (Ep : exists o, vy = GoPtr (camel es) o) by (inversion Ry; subst; cbn [map_value f_typ f_many] in *; try congruence; try discriminate; match goal with H : TMsg _ = TMsg _ |- _ => injection H as <- end; eauto).
                destruct Ep as (o & ->). unfold encode_item. cbn [kind_of]. change (String.eqb (entry (go_encodeLUT KMessage)) "" && is_kind KMessage KMessage) with true. cbn iota.
                apply (do_wrote _ _ _ _ _ _ []). cbn [eval]. rewrite (one_var P room prim callee n_v (GoPtr (camel es) o) s4 eq_refl). cbn [ebind each].
                rewrite (one_var P room prim callee n_b GoBuffer s4 (es_b _ Es3)). cbn [ebind method]. exact K.
             ++ cbn [known_type] in KN. contradiction. }
  rewrite seq_one, B. unfold wrote. destruct (fits n x); [|reflexivity]. cbn [ebind]. reflexivity.
Qed.

(** groups of fields: every index is in one *)
Lemma groups_cover lut (fs : list field) : forall i a b c, getFields lut fs i = Some (a, b, c) -> forall j, (i <= j < i + length fs)%nat -> In j (a ++ b ++ c).
Proof using Type.
  clear. induction fs as [|g fs IH]; intros i a b c E j Hj; cbn [length] in Hj; [lia|]. cbn [getFields] in E.
  destruct (getFields lut fs (S i)) as [((a', b'), c')|] eqn:E'; [|discriminate E]. specialize (IH (S i) a' b' c' E' j). rewrite !in_app_iff in *.
  assert (K : j = i \/ In j a' \/ In j b' \/ In j c') by (destruct (Nat.eq_dec j i) as [->|]; [left; reflexivity|right; apply IH; lia]).
  destruct (Repeated g && negb (IsMap g)); [|destruct (lut (fkind g)); [|destruct (fkind g); try discriminate E]]; injection E as <- <- <-; cbn [In]; intuition auto.
Qed.
Lemma zw_nth (xs : list gval) (fs : list field) i x g : nth_error xs i = Some x -> nth_error fs i = Some g -> nth i (zw (calls Sch) xs fs) None = calls Sch x g.
Proof using Type.
  clear. revert xs fs. induction i as [|i IH]; intros [|y xs] [|h fs] Hx Hg; try discriminate; cbn [nth_error] in Hx, Hg.
  - injection Hx as ->. injection Hg as ->. reflexivity.
  - cbn [zw nth]. apply IH; assumption.
Qed.

Hypothesis ENCMAP : forall m fd kt vt, has_message f m -> In fd (m_fields m) -> f_typ fd = TMap kt vt -> encmap_spec f callee n fd kt vt.
Definition item (xs : list gval) (i : nat) : gval := nth i xs (GPrim VNil).
(** encode.templ 1-19 *)
Theorem encfunc_ok fd es m x v fp s l : f_many fd = false -> f_typ fd = TMsg es -> nth_error ms (position es ms) = Some m -> m_full m = es ->
  rep ms (heap s) fd x v fp -> has_type Sch x (One (Msg (position es ms))) -> calls Sch x (One (Msg (position es ms))) = Some l ->
  enter P room prim callee (encode_func m) [v; GoBuffer] s = wrote [] (fits (S n) x) l s.
Proof.
  intros M Etyp Hm Em R HT C. assert (HM : has_message f m) by (apply (ms_has f); exact (nth_error_In _ _ Hm)).
  unfold enter, encode_func. cbn [fn_params fn_body declare ebind]. change (same n_x (text "_")) with false. change (same n_b (text "_")) with false. cbn iota. cbn [env set_env heap inp out made].
  set (s0 := mkst [(n_b, GoBuffer); (n_x, v)] (heap s) (inp s) (out s) (made s)). change (set_env (set_env (set_env s []) [(n_x, v)]) [(n_b, GoBuffer); (n_x, v)]) with s0.
  assert (Es : escope (env s0)) by (constructor; reflexivity).
  assert (Hx : EV (Var n_x) s0 = Fine ([v], s0)) by reflexivity.
  assert (Eb : forall c o b1, SEQ b1 s0 = wrote Next c o s0 -> block EX [] [] b1 s0 = wrote Next c o s0).
  { intros c o b1 Hb. apply (block_wrote v2 f room prim callee [] [] b1 s0 (env s0) c o); [reflexivity|apply leave_same; reflexivity|exact Hb]. }
  rewrite seq_one.
  match goal with |- context [EX ?c s0] => assert (B : EX c s0 = wrote Next (fits (S n) x) l s0); [|rewrite B; unfold wrote; destruct (fits (S n) x); reflexivity] end.
  assert (V : (x = GMsg None /\ v = GoPtr (camel es) None) \/ (exists a xs vs fp', x = GMsg (Some xs) /\ v = GoPtr (camel es) (Some a) /\ nth_error (heap s) a = Some (OStruct (combine (map goname (m_fields m)) vs)) /\ reps ms (heap s) (m_fields m) xs vs fp')).
  { inversion R; subst; try congruence; try (match goal with H : scalar_type (kind_of (f_typ _)) = _ |- _ => rewrite Etyp in H; discriminate H end);
      match goal with H : f_typ _ = TMsg _ |- _ => rewrite Etyp in H; injection H as <- end; [left; auto|].
    right. match goal with H : nth_error ms _ = Some ?k |- _ => assert (k = m) by congruence; subst k end. eauto 10. }
  destruct V as [(-> & ->)|(a & xs & vs & fp' & -> & -> & Ha & Rs)].
  { rewrite (exec_if_nil P room prim callee (Var n_x) (GoPtr (camel es) None) true _ _ s0 Hx eq_refl). cbn iota. apply Eb. rewrite seq_one. apply (do_wrote _ _ _ _ _ _ [GoBuffer]).
    cbn [eval]. rewrite (eval_encoder v2 f room prim callee s0 Es). cbn [ebind each]. cbn [calls] in C. injection C as <-. reflexivity. }
  rewrite (exec_if_nil P room prim callee (Var n_x) (GoPtr (camel es) (Some a)) false _ _ s0 Hx eq_refl). cbn iota. apply Eb. clear Eb.
  apply ht_msg in HT. destruct HT as (Lm & HT). rewrite calls_msg in C by exact Lm.
  assert (Ef : fields_of Sch (position es ms) = map (field_of ms) (m_fields m)).
  { pose proof (fields_nth Sch _ Lm) as K. unfold schema_of in K at 1. rewrite nth_error_map, Hm in K. cbn [option_map] in K. injection K as K. symmetry. exact K. }
  rewrite Ef in C, HT. destruct (getFields go_encodeLUT (map (field_of ms) (m_fields m)) 0) as [((ia, ib), ic)|] eqn:Eg; [|discriminate C].
  destruct (groups_rel ms go_encodeLUT (m_fields m) (m_fields m) 0 (fun j fd H => H) ia ib ic Eg) as (G1 & G2 & G3 & G4 & G5 & G6).
  rewrite !map_app, !all_some_app in C.
  set (pc := fun i : nat => nth i (zw (calls Sch) xs (map (field_of ms) (m_fields m))) None) in *.
  destruct (all_some (map pc ia)) as [la|] eqn:Ca; [|discriminate C]. destruct (all_some (map pc ib)) as [lb|] eqn:Cb; [|discriminate C]. destruct (all_some (map pc ic)) as [lc|] eqn:Cc; [|discriminate C]. injection C as <-.
  set (fs := combine (map goname (m_fields m)) vs) in *.
  pose proof (na_fields _ _ NA m HM) as Nd. destruct (reps_lengths ms _ _ _ _ _ Rs) as (Lx & Lv).
  (* one field *)
  assert (F : forall i g, at_index (m_fields m) i g -> exists y w p, nth_error xs i = Some y /\ item xs i = y /\ find_name (goname g) fs = Some w /\ rep ms (heap s) g y w p /\ has_type Sch y (field_of ms g) /\ pc i = calls Sch y (field_of ms g) /\ shape f g /\ In g (m_fields m)).
  { intros i g Hi. unfold at_index in Hi. destruct (reps_nth ms _ _ _ _ _ Rs i g Hi) as (y & w & p & q & r & X1 & X2 & _ & X3 & _). exists y, w, q.
    assert (Hg : nth_error (map (field_of ms) (m_fields m)) i = Some (field_of ms g)) by (rewrite nth_error_map, Hi; reflexivity).
    split; [exact X1|]. split; [unfold item; apply nth_error_nth; exact X1|].
    split. { unfold fs. rewrite (find_combine _ _ Nd) with (i := i); [exact X2|rewrite map_length; lia|rewrite nth_error_map, Hi; reflexivity]. }
    split; [exact X3|]. split; [exact (Forall2_nth _ _ _ i _ _ HT X1 Hg)|]. split; [unfold pc; apply zw_nth; assumption|].
    split; [exact (shape_of v2 f m g NA CO HM (nth_error_In _ _ Hi))|exact (nth_error_In _ _ Hi)]. }
  (* a group *)
  assert (Gr : forall gen idx fds, Forall2 (at_index (m_fields m)) idx fds -> (forall i g l s, In g fds -> at_index (m_fields m) i g -> here (camel es) a fs s -> heap s = heap s0 -> pc i = Some l -> SEQ (gen g) s = wrote Next (fits n (item xs i)) l s) ->
     forall s l, here (camel es) a fs s -> heap s = heap s0 -> all_some (map pc idx) = Some l -> SEQ (flat_map gen fds) s = wrote Next (forallb (fun i => fits n (item xs i)) idx) l s).
  { intros gen idx fds F2. induction F2 as [|i g idx fds Hi F2 IH]; intros Hg s1 l1 Hh Hs C1.
    - cbn in C1. injection C1 as <-. cbn. unfold wrote. rewrite outs_nil. reflexivity.
    - cbn [map] in C1. apply all_some_cons in C1. destruct C1 as (o1 & o2 & C1 & C2 & ->). cbn [flat_map forallb].
      apply seq_wrote. exists (fits n (item xs i)), (forallb (fun i => fits n (item xs i)) idx), o1, o2. split; [apply Hg; auto; left; reflexivity|]. split; [|auto].
      apply IH; auto. intros i' g' l' s' K. apply Hg. right. exact K. }
  assert (H0 : here (camel es) a fs s0) by (split; [exact Es|split; [reflexivity|exact Ha]]).
  assert (Fit : fits (S n) (GMsg (Some xs)) = true && (forallb (fun i => fits n (item xs i)) ib && forallb (fun i => fits n (item xs i)) ic) \/ forallb (fun i => fits n (item xs i)) ia = false).
  { destruct (forallb (fun i => fits n (item xs i)) ia) eqn:Fa; [left|right; reflexivity]. cbn [andb]. rewrite <- (andb_true_l (_ && _)), <- Fa, <- !forallb_app.
    change (fits (S n) (GMsg (Some xs))) with (fits n (GList xs)). rewrite fits_list. apply eq_true_iff_eq. rewrite !forallb_forall. split.
    - intros H i Hi. apply H. unfold item. apply nth_In. rewrite Lx.
      rewrite !in_app_iff in Hi. assert (K : exists g, nth_error (m_fields m) i = Some g).
      { destruct Hi as [Hi|[Hi|Hi]]; [destruct (Forall2_in_l _ _ _ i G1 Hi) as (g & _ & K)|destruct (Forall2_in_l _ _ _ i G2 Hi) as (g & _ & K)|destruct (Forall2_in_l _ _ _ i G3 Hi) as (g & _ & K)]; eauto. }
      destruct K as (g & K). apply nth_error_Some. congruence.
    - intros H y Hy. destruct (In_nth _ _ (GPrim VNil) Hy) as (i & Hi & <-). apply (H i). apply (groups_cover _ _ _ _ _ _ Eg i). rewrite map_length. lia. }
  (* values *)
  assert (A : forall i g l s, In g (g_values (get_fields go_encodeLUT (m_fields m))) -> at_index (m_fields m) i g -> here (camel es) a fs s -> heap s = heap s0 -> pc i = Some l ->
     fits n (item xs i) = true /\ exists u, l = [u] /\ EV (snd (encode_value g)) s = Fine ([GoBase u], s) /\ forall s', encoder_method (fst (encode_value g)) [GoBase u] s' = Fine ([GoBuffer], outs s' [u])).
  { intros i g l1 s1 Hg Hi Hh Hs Cg. destruct (F i g Hi) as (y & w & p & X1 & X2 & X3 & X4 & X5 & X6 & X7 & X8). rewrite X2. rewrite X6 in Cg.
    destruct (G4 g Hg) as (_ & Mg & Lg).
    destruct X7 as [k B1 B2 B3 B4 B5|t kk B1 B2 B3 B4 B5 B6 B7|es' B1 B2 B3 B4|kt vt qk k1 k2 B1 B2 B3 B4 B5 B6 B7 B8 B9 B10 B11].
    - destruct (field_one f g k B1 B2 B3) as (Ef' & _). rewrite Ef' in X5, Cg. apply (value_field v2 f room prim callee n (camel es) a fs g k y w p l1 s1); auto. rewrite Hs. exact X4.
    - rewrite B1, B2 in Mg. discriminate Mg.
    - exfalso. apply Lg. rewrite B2. reflexivity.
    - exfalso. apply Lg. rewrite B2. reflexivity. }
  assert (V1 : forallb (fun i => fits n (item xs i)) ia = true).
  { apply forallb_forall. intros i Hi. destruct (Forall2_in_l _ _ _ i G1 Hi) as (g & Hg & K).
    assert (Cg : exists l, pc i = Some l). { clear -Ca Hi. revert la Ca. induction ia as [|j ia IH]; [destruct Hi|]. intros la Ca. cbn [map] in Ca. apply all_some_cons in Ca. destruct Ca as (x1 & y1 & E1 & E2 & _). destruct Hi as [<-|Hi]; [eauto|exact (IH Hi _ E2)]. }
    destruct Cg as (l1 & Cg). exact (proj1 (A i g l1 s0 Hg K H0 eq_refl Cg)). }
  destruct Fit as [Fit|Fit]; [|rewrite Fit in V1; discriminate V1]. rewrite Fit. apply seq_wrote.
  exists true, (forallb (fun i => fits n (item xs i)) ib && forallb (fun i => fits n (item xs i)) ic), la, (lb ++ lc). split.
  { assert (Ch : EV (encode_values (map encode_value (g_values (get_fields go_encodeLUT (m_fields m))))) s0 = Fine ([GoBuffer], outs s0 la)).
    { unfold encode_values. eapply (chain_ok v2 f room prim callee s0 _ encoder s0 s0); [|reflexivity|reflexivity|].
      - pose proof (eval_encoder v2 f room prim callee s0 Es) as K. unfold encoder. cbn [eval]. rewrite (one_var P room prim callee n_b GoBuffer s0 eq_refl). reflexivity.
      - clear -A Ca G1 Es Ha. revert la Ca A. induction G1 as [|i g idx fds Hi F2 IH]; intros la Ca A.
        + cbn in Ca. injection Ca as <-. constructor.
        + cbn [map] in Ca. apply all_some_cons in Ca. destruct Ca as (o1 & o2 & C1 & C2 & ->).
          assert (Hst : forall s', env s' = env s0 -> heap s' = heap s0 -> here (camel es) a fs s') by (intros s' X Y; split; [rewrite X; exact Es|]; split; [rewrite X; reflexivity|rewrite Y; exact Ha]).
          destruct (A i g o1 s0 (or_introl eq_refl) Hi (Hst s0 eq_refl eq_refl) eq_refl C1) as (_ & u & -> & _ & K). cbn [app map]. constructor; [|apply IH; [exact C2|intros i' g' l' s' K'; apply A; right; exact K']].
          intros s' X Y. destruct (A i g [u] s' (or_introl eq_refl) Hi (Hst s' X Y) Y C1) as (_ & u' & E' & K1 & K2). injection E' as <-. split; [exact K1|apply K2]. }
    destruct (g_values (get_fields go_encodeLUT (m_fields m))) as [|g1 gs] eqn:Egv.
    - inversion G1; subst. cbn in Ca. injection Ca as <-. cbn. unfold wrote. rewrite outs_nil. reflexivity.
    - rewrite seq_one. apply (do_wrote _ _ _ _ _ _ [GoBuffer]). exact Ch. }
  split; [|split; [reflexivity|reflexivity]].
  apply seq_wrote. exists (forallb (fun i => fits n (item xs i)) ib), (forallb (fun i => fits n (item xs i)) ic), lb, lc. split; [|split; [|auto]].
  - apply (Gr encode_slice ib _ G2); [|exact H0|reflexivity|exact Cb]. intros i g l1 s1 Hg Hi Hh Hs Cg.
    destruct (F i g Hi) as (y & w & p & X1 & X2 & X3 & X4 & X5 & X6 & X7 & X8). rewrite X2. rewrite X6 in Cg. destruct (G5 g Hg) as (_ & Mg & Pg).
    destruct X7 as [k B1 B2 B3 B4 B5|t kk B1 B2 B3 B4 B5 B6 B7|es' B1 B2 B3 B4|kt vt qk k1 k2 B1 B2 B3 B4 B5 B6 B7 B8 B9 B10 B11]; try congruence.
    + rewrite B5 in X5, Cg. apply (slice_field v2 f room prim callee n ENC (camel es) a fs g t y w p l1 s1); auto. rewrite Hs. exact X4.
    + unfold is_map in Pg. rewrite B2 in Pg. discriminate Pg.
  - apply (Gr encode_message ic _ G3); [|exact H0|reflexivity|exact Cc]. intros i g l1 s1 Hg Hi Hh Hs Cg.
    destruct (F i g Hi) as (y & w & p & X1 & X2 & X3 & X4 & X5 & X6 & X7 & X8). rewrite X2. rewrite X6 in Cg. destruct (G6 g Hg) as (_ & Mg & Pg).
    destruct X7 as [k B1 B2 B3 B4 B5|t kk B1 B2 B3 B4 B5 B6 B7|es' B1 B2 B3 B4|kt vt qk k1 k2 B1 B2 B3 B4 B5 B6 B7 B8 B9 B10 B11].
    + exfalso. destruct (field_one f g k B1 B2 B3) as (_ & Ek). congruence.
    + rewrite B1, B2 in Mg. discriminate Mg.
    + rewrite B4 in X5, Cg. apply (message_field v2 f room prim callee n ENC (camel es) a fs g es' y w p l1 s1); auto. rewrite Hs. exact X4.
    + rewrite B11 in X5, Cg. apply (map_field v2 f room prim callee n (camel es) a fs g kt vt y w p l1 s1); auto; [apply (ENCMAP m); auto|]. rewrite Hs. exact X4.
Qed.
End Funcs.
