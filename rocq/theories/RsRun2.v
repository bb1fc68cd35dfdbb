(** Running the generated decode functions: expressions and local functions. *)
From Coq Require Import String.
From Verif Require Import Base Spec RustModel GenTables NameModel NameSpec EmitModel EmitSpec EmitThms EmitThms2 PkgThms GoAst GoEmit GoRunSpec GoLink GoSlices GoDecode RsGenModel RsAst RsEmit RsRunSpec RsRun1.
From Verif Require GenModel.
Import GenModel (gval, GPrim, GList, GMap, GMsg).
Local Open Scope list_scope.

(** a result of RsGenModel, as the interpreter of RsAst has it *)
Definition lift {A B} (v : A -> B) (x : rgres A) : ores B :=
  match x with
  | RGOk a c => OGo (v a) c
  | RGErr e c => ORet (RvErr (RvError e)) c
  | RGDie => ODie | RGDeep => ODeep | RGBroken => OStuck
  end.
Lemma lift_gtry {A B C} (v : B -> C) (x : rgres A) (k : A -> cursor -> rgres B) : lift v (gtry x k) = oseq (lift (fun a => a) x) (fun a c => lift v (k a c)).
Proof. destruct x; reflexivity. Qed.
Lemma oseq_lift {A B C} (v : A -> B) (x : rgres A) (k : B -> cursor -> ores C) : oseq (lift v x) k = oseq (lift (fun a => a) x) (fun a c => k (v a) c).
Proof. destruct x; reflexivity. Qed.
Lemma oseq_assoc {A B C} (x : ores A) (g : A -> cursor -> ores B) (h : B -> cursor -> ores C) : oseq (oseq x g) h = oseq x (fun a c => oseq (g a c) h).
Proof. destruct x; reflexivity. Qed.
Lemma oseq_ext {A B} (x : ores A) (g h : A -> cursor -> ores B) : (forall a c, g a c = h a c) -> oseq x g = oseq x h.
Proof. intros H. destruct x; cbn; auto. Qed.
Lemma oseq_id {A} (x : ores A) : oseq x (fun a c => OGo a c) = x.
Proof. destruct x; reflexivity. Qed.

Arguments text : simpl never.
Arguments same : simpl never.
Arguments camel : simpl never.
Arguments SnakeCase : simpl never.
Arguments assoc : simpl never.
Arguments const_of : simpl never.
Arguments rs_value : simpl never.
(** names of variables *)
Ltac eqn := repeat match goal with
  | |- context [same (text ?a) (text ?b)] => let r := eval vm_compute in (same (text a) (text b)) in change (same (text a) (text b)) with r
  | |- context [const_of ?s] => let r := eval vm_compute in (const_of s) in lazymatch r with Some _ => change (const_of s) with r end
  end; rewrite ?same_refl.
Lemma same_suffix n a b : (length (text b) <= length (text a))%nat -> skipn (length (text a) - length (text b)) (text a) <> text b -> same (n ++ text a) (text b) = false.
Proof.
  intros L H. apply same_false. intros E. assert (K : skipn (length (n ++ text a) - length (text b)) (n ++ text a) = text b) by (rewrite E, Nat.sub_diag; reflexivity).
  rewrite app_length in K. replace (length n + length (text a) - length (text b))%nat with (length n + (length (text a) - length (text b)))%nat in K by lia.
  rewrite skipn_app, skipn_all2 in K by lia. cbn [app] in K. replace (length n + (length (text a) - length (text b)) - length n)%nat with (length (text a) - length (text b))%nat in K by lia. exact (H K).
Qed.
Lemma same_sym a b : same a b = same b a.
Proof. unfold same. destruct (list_eq_dec Z.eq_dec a b), (list_eq_dec Z.eq_dec b a); congruence. Qed.

Section Dec.
Variables (rt : runtime) (alloc : rty -> Z -> bool) (f : filed) (p : bytes) (d : deps).
Hypothesis NA : rs_names_apart f.
Let P := rs_program p d f.
Let ms := messages_of f.
Let Sch := rschema_of f.
Hypothesis CP : forallb (forallb (rfield_compiles Sch)) Sch = true.
Let room : rtype -> Z -> bool := fun t n => alloc (TyVec (elem_type f t)) n.
Variable rec : nat -> cursor -> rgres (option (list gval)).
Variable dec : bytes -> cursor -> ores rv.
Hypothesis DEC : forall i m c, nth_error ms i = Some m -> dec (camel (m_full m)) c = decoded f m (rec i c).
Variable enc : bytes -> rv -> cursor -> ores rv.
Notation EV loc here := (reval rt alloc P enc dec loc here).
Notation EX loc here := (rexec rt alloc P enc dec loc here).
Definition has_b (E : renv) : Prop := rfind (text "b") E = Some RvCur.

Lemma value_msg fd s m xs : f_typ fd = TMsg s -> nth_error ms (position s ms) = Some m -> m_full m = s -> rs_value ms fd (GMsg (Some xs)) = rs_struct_value f m xs.
Proof using Type.
  intros Ht Hm <-. unfold rs_value; fold rs_value. rewrite Ht, Hm. unfold rs_struct_value. f_equal. fold ms. generalize (m_fields m). clear. induction xs as [|x xs IH]; intros [|fd fs]; try reflexivity. cbn. rewrite <- IH. reflexivity.
Qed.
Lemma value_enum fd s n : f_typ fd = TEnum s -> rs_value ms fd (GPrim (VU32 n)) = RvEnum (camel s) n.
Proof using Type. intros Ht. unfold rs_value. rewrite Ht. reflexivity. Qed.
Lemma value_prim fd k v : f_typ fd = TScalar k -> rs_value ms fd (GPrim v) = RvPrim v.
Proof using Type. intros Ht. unfold rs_value. rewrite Ht. reflexivity. Qed.
Definition errname (e : DecodingError) (s : string) : Prop := const_of s = Some (RvError (Decoding e)).
(** M::decode(b)?.ok_or(e)? *)
Lemma ev_decode_or loc here E fd s e n c : has_b E -> f_typ fd = TMsg s -> known_type f (TMsg s) -> errname e n ->
  EV loc here E (decode_or (camel s) n) c = lift (rs_value ms fd) (rs_ok_or rec (position s ms) e c).
Proof.
  intros Hb Ht K Hn. destruct (rmsg_known f s K) as (m & Hm & Em & HM). fold ms in Hm. unfold decode_or, ok_or, v_b. cbn [reval reval_all]. rewrite Hb. cbn [oseq]. unfold path_call.
  rewrite <- Em. rewrite (own_msg f p d NA m HM : own_type P _ = true). eqn. rewrite Em. fold ms in Hm. rewrite (Hn : const_of n = _). cbn [oseq].
  rewrite <- Em. rewrite (DEC _ _ c Hm). rewrite Em. unfold rs_ok_or, decoded. destruct (rec (position s ms) c) as [[xs|] c'|e' c'| | |]; cbn; try reflexivity.
  rewrite (value_msg fd s m xs Ht Hm Em). reflexivity.
Qed.
(** b.decode_x()? *)
Lemma ev_prim loc here E k nm c : has_b E -> rs_decodeLUT k = Some nm ->
  EV loc here E (ETry (EMet v_b (entry (rs_decodeLUT k)) [])) c = lift RvPrim (rs_dec_call rt k c).
Proof using Type.
  intros Hb Hk. unfold v_b. cbn [reval reval_all]. rewrite Hb. cbn [oseq]. unfold method, lib_call, rs_dec_call.
  destruct k; try discriminate Hk; cbn [entry rs_decodeLUT String.eqb Ascii.eqb Bool.eqb];
  match goal with |- context [assoc ?n rs_decoder_methods] => let r := eval vm_compute in (assoc n rs_decoder_methods) in change (assoc n rs_decoder_methods) with r end; cbv beta iota;
  match goal with |- context [decode rt ?q c] => destruct (decode rt q c) end; reflexivity.
Qed.
(** T::try_from(x).ok().ok_or(e)? *)
Lemma decode_u32_value c v c' : decode rt RU32 c = ROk v c' -> exists n, v = VU32 n.
Proof using Type. cbn. unfold rmap, rbind. destruct (decode_u32 rt c); [|discriminate|discriminate]. intros E. injection E as <- _. eauto. Qed.
Lemma ev_try loc here E fd s en n e nm c : has_b E -> f_typ fd = TEnum s -> shallow_enum f en -> e_full en = s -> errname e n -> assoc nm rs_decoder_methods = Some RU32 -> String.eqb nm ".decode_none" = false -> String.eqb nm ".decode_error" = false ->
  EV loc here E (try_or (camel s) (EMet v_b nm []) n) c = lift (rs_value ms fd) (gtry (qmark (decode rt RU32 c)) (fun v c => rs_try_from (enum_size s (enums_of f)) e v c)).
Proof.
  intros Hb Ht He Es Hn Hm N1 N2. unfold try_or, ok_or, v_b. cbn [reval reval_all]. rewrite Hb. cbn [oseq method]. unfold lib_call. rewrite N1, N2, Hm. unfold qmark.
  destruct (decode rt RU32 c) as [v c'|e' c'|] eqn:Ed; cbn [of_rres oseq gtry lift]; try reflexivity.
  destruct (decode_u32_value _ _ _ Ed) as (x & ->). cbn [oseq]. unfold path_call. rewrite <- Es. rewrite (own_enum f p d NA en He : own_type P _ = true). eqn. rewrite (enum_of f p d NA en He : find_enum P _ = _). cbn [try_from oseq rs_try_from].
  rewrite variant_in, (size_of_enum f NA en He), Z.add_0_l. rewrite (Hn : const_of n = _).
  destruct ((0 <=? x) && (x <? zlen (e_values en))); cbn [method oseq]; cbn; [|reflexivity]. rewrite (value_enum fd s x Ht), Es. reflexivity.
Qed.

(** ---- which fields ---- *)
Variable m0 : msgd.
Hypothesis HM0 : has_message f m0.
Lemma known fd : In fd (m_fields m0) -> field_known f fd.
Proof. exact (ra_known f NA m0 fd HM0). Qed.
Lemma compiles fd : In fd (m_fields m0) -> rfield_compiles Sch (rfield_of f fd) = true.
Proof.
  intros H. rewrite forallb_forall in CP. assert (K : In (map (rfield_of f) (m_fields m0)) Sch).
  { unfold Sch, rschema_of. apply (in_map (fun m => map (rfield_of f) (m_fields m))). apply rms_has. exact HM0. }
  specialize (CP _ K). rewrite forallb_forall in CP. apply CP. apply in_map. exact H.
Qed.

Lemma b_here E : rfind (text "b") (b_cur :: E) = Some RvCur.
Proof using Type. unfold b_cur. cbn [rfind]. rewrite same_refl. reflexivity. Qed.
Lemma agree_decode k q : rs_types_agree k = Some q -> exists nm, rs_decodeLUT k = Some nm.
Proof using Type. unfold rs_types_agree. destruct (rs_typeLUT k), (rs_encodeLUT k), (rs_decodeLUT k); try discriminate. eauto. Qed.

(** what a local function returns *)
Definition fin {A} (v : A -> rv) (x : rgres A) : ores rv :=
  match x with
  | RGOk a c => OGo (RvOk (RvSome (v a))) c
  | RGErr e c => OGo (RvErr (RvError e)) c
  | RGDie => ODie | RGDeep => ODeep | RGBroken => OStuck
  end.
(** an element of a slice *)
Lemma ev_elem here E fd c : In fd (m_fields m0) -> f_many fd = true -> is_map fd = false -> has_b E ->
  EV (fun _ => None) here E (if is_kind (kind_of (f_typ fd)) KMessage then decode_or (message_of fd) "DecodingError::InvalidArray" else ETry (EMet v_b (entry (rs_decodeLUT (kind_of (f_typ fd)))) [])) c =
  lift (rs_value ms (element fd)) (match rtype_of f (f_typ fd) with
            | RMsg m => rs_ok_or rec m InvalidArray c
            | RScalar k => gtry (rs_dec_call rt k c) (fun v c => RGOk (GPrim v) c)
            | REnum _ => RGBroken
            end).
Proof.
  intros Hi Hm Hp Hb. pose proof (known fd Hi) as K. pose proof (compiles fd Hi) as C. unfold field_known, rfield_of, message_of, is_map in *. rewrite Hm in C.
  destruct (f_typ fd) as [k|s|s|k v] eqn:Et; cbn [rtype_of kind_of is_kind].
  - cbn [rtype_of rfield_compiles] in C. destruct (rs_types_agree k) as [q|] eqn:Q; [|discriminate C]. destruct (agree_decode k q Q) as (nm & Hk).
    assert (M : is_kind k KMessage = false) by (destruct k; try reflexivity; discriminate Hk). rewrite M, (ev_prim _ _ _ _ nm _ Hb Hk).
    destruct (rs_dec_call rt k c); cbn [lift gtry]; try reflexivity. rewrite (value_prim (element fd) k); [reflexivity|exact Et].
  - discriminate C.
  - apply (ev_decode_or (fun _ => None) here E (element fd) s InvalidArray); [exact Hb|exact Et|exact K|reflexivity].
  - discriminate Hp.
Qed.
Lemma elems_ok here fd nsz : In fd (m_fields m0) -> f_many fd = true -> is_map fd = false -> forall n acc c,
  times (fun E c => block (EX (fun _ => None) here) E E c
    [SDo (EMet (EVar (text "temp")) ".push" [if is_kind (kind_of (f_typ fd)) KMessage then decode_or (message_of fd) "DecodingError::InvalidArray" else ETry (EMet v_b (entry (rs_decodeLUT (kind_of (f_typ fd)))) [])])])
    n [(text "temp", RvVec acc); (size_var fd, nsz); b_cur] c =
  lift (fun xs => [(text "temp", RvVec (acc ++ map (rs_value ms (element fd)) xs)); (size_var fd, nsz); b_cur]) (rs_dec_elems rt rec (rtype_of f (f_typ fd)) n c).
Proof.
  intros Hi Hm Hp. induction n as [|n IH]; intros acc c.
  - cbn [times rs_dec_elems lift map]. rewrite app_nil_r. reflexivity.
  - cbn [times rs_dec_elems]. unfold block, leave. cbn [rexec_list rexec reval_all].
    assert (Hb : has_b [(text "temp", RvVec acc); (size_var fd, nsz); b_cur]).
    { unfold has_b, size_var, b_cur. cbn [rfind]. eqn. rewrite (same_sym (text "b")), same_suffix; [reflexivity|vm_compute; lia|vm_compute; discriminate]. }
    rewrite (ev_elem here _ fd c Hi Hm Hp Hb). rewrite oseq_lift, lift_gtry, !oseq_assoc. apply oseq_ext. intros x c'. cbn [oseq rfind]. eqn. cbn [String.eqb Ascii.eqb Bool.eqb oseq rset]. eqn. cbn [length Nat.sub skipn oseq].
    rewrite IH, lift_gtry, (oseq_lift _ _ (fun a c0 => lift _ _)) || rewrite IH, lift_gtry.
    destruct (rs_dec_elems rt rec (rtype_of f (f_typ fd)) n c'); cbn [lift oseq]; try reflexivity. cbn [map]. rewrite <- app_assoc. reflexivity.
Qed.
Lemma kind_const k : k <> KGroup -> exists z, rs_kind (rs_getKind k) = Some z /\ const_of (entry (rs_getKind k)) = Some (RvKind z).
Proof using Type. intros H. destruct k; try congruence; match goal with |- context [rs_getKind ?k] => let r := eval vm_compute in (rs_kind (rs_getKind k)) in match r with Some ?z => exists z end end; split; vm_compute; reflexivity. Qed.
Lemma slice_value k c v c' : decode rt (RSlice k) c = ROk v c' -> exists n, v = VSlice n k.
Proof using Type. cbn. unfold rmap, rbind. destruct (decode_array rt c (kind_from k)); [|discriminate|discriminate]. intros E. injection E as <- _. eauto. Qed.
Lemma map_value_of k1 k2 c v c' : decode rt (RMap k1 k2) c = ROk v c' -> exists n, v = VMap n k1 k2.
Proof using Type. cbn. unfold rmap, rbind. destruct (decode_map rt c (kind_from k1) (kind_from k2)); [|discriminate|discriminate]. intros E. injection E as <- _. eauto. Qed.
Lemma kind_rkind t : (match t with TMap _ _ => False | _ => True end) -> rkind (rtype_of f t) = kind_of t.
Proof using Type. intros H. destruct t; try reflexivity. destruct H. Qed.
Lemma known_kind fd : In fd (m_fields m0) -> kind_of (f_typ fd) <> KGroup.
Proof.
  intros Hi. pose proof (known fd Hi) as K. pose proof (compiles fd Hi) as C. unfold field_known, rfield_of in *. destruct (f_typ fd) as [k|s|s|k v]; try discriminate.
  cbn [kind_of]. intros ->. destruct (f_many fd); discriminate C.
Qed.
Definition slice_body (fd : fieldd) : list rstmt :=
    [SLet false (size_var fd) (ETry (EMet v_b ".decode_array" [EConst (entry (rs_getKind (kind_of (f_typ fd))))]));
     SLet true (text "temp") (ECall (Some (text "Vec")) (text "with_capacity") [EVar (size_var fd)]);
     STimes (EVar (size_var fd))
       [SDo (EMet (EVar (text "temp")) ".push"
          [if is_kind (kind_of (f_typ fd)) KMessage then decode_or (message_of fd) "DecodingError::InvalidArray" else ETry (EMet v_b (entry (rs_decodeLUT (kind_of (f_typ fd)))) [])])];
     STail (ok (some_ (EVar (text "temp"))))].
Theorem slice_fn fd c : In fd (m_fields m0) -> f_many fd = true -> is_map fd = false ->
  run_body rt alloc P enc dec (fun _ => None) (rs_type_of_field fd) [b_cur] (slice_body fd) c = fin (rs_value ms fd) (rs_dec_slice rt room rec (rfield_of f fd) c).
Proof.
  intros Hi Hm Hp. assert (NM : match f_typ fd with TMap _ _ => False | _ => True end) by (unfold is_map in Hp; destruct (f_typ fd); [exact I|exact I|exact I|discriminate Hp]).
  assert (R : rfield_of f fd = RMany (rtype_of f (f_typ fd))) by (unfold rfield_of; rewrite Hm; destruct (f_typ fd); try reflexivity; contradiction).
  destruct (kind_const (kind_of (f_typ fd)) (known_kind fd Hi)) as (z & Z1 & Z2).
  rewrite R. unfold rs_dec_slice. rewrite (kind_rkind _ NM), Z1. unfold slice_body, run_body. cbn [rexec_list rexec reval reval_all].
  unfold v_b at 1. cbn [reval]. rewrite b_here. rewrite Z2. cbn [oseq method]. unfold lib_call at 1. cbn [String.eqb Ascii.eqb Bool.eqb]. unfold qmark.
  destruct (decode rt (RSlice z) c) as [v c1|e c1|] eqn:Ed; cbn [of_rres oseq gtry fin oval]; try reflexivity.
  destruct (slice_value _ _ _ _ Ed) as (n & ->). cbn [size_of oseq rfind]. rewrite same_refl. cbn [oseq]. unfold path_call.
  rewrite (not_own f p d NA (text "Vec") ltac:(vm_compute; auto) : own_type P _ = false). eqn. cbn [andb].
  assert (A : rs_type_of_field fd = TyVec (elem_type f (rtype_of f (f_typ fd)))).
  { unfold rs_type_of_field, rs_type_of. pose proof (known fd Hi) as K. unfold field_known in K. rewrite Hm. pose proof (compiles fd Hi) as C. rewrite R in C. destruct (f_typ fd) as [k|s|s|? ?]; cbn [many_of rtype_of elem_type].
    - reflexivity.
    - discriminate C.
    - destruct (rmsg_known f s K) as (m & H1 & H2 & _). rewrite H1, H2. reflexivity.
    - contradiction. }
  rewrite A. unfold room. destruct (alloc (TyVec (elem_type f (rtype_of f (f_typ fd)))) n); [|reflexivity]. cbn [oseq rfind]. unfold size_var at 1 2. rewrite same_suffix; [|vm_compute; lia|vm_compute; discriminate]. rewrite same_refl. cbn [oseq].
  fold (size_var fd). rewrite (elems_ok _ fd (RvSize n) Hi Hm Hp (Z.to_nat n) [] c1). unfold lift at 1.
  destruct (rs_dec_elems rt rec (rtype_of f (f_typ fd)) (Z.to_nat n) c1); cbn [gtry fin oseq oval]; try reflexivity.
Qed.

(** ---- maps ---- *)
(** one half of an entry *)
Lemma ev_half loc here E n fd t c : has_b E -> f_typ fd = t -> known_type f t -> (match t with TScalar k => exists nm, rs_decodeLUT k = Some nm | _ => True end) ->
  EX loc here E c (rs_decode_half n t) =
  lift (fun x => (n, rs_value ms fd x) :: E) (match rtype_of f t with
            | RMsg m => rs_ok_or rec m InvalidMap c
            | REnum vals => gtry (rs_dec_call rt KEnum c) (fun v c => rs_try_from vals InvalidMap v c)
            | RScalar kt => gtry (rs_dec_call rt kt c) (fun v c => RGOk (GPrim v) c)
            end).
Proof.
  intros Hb Ht K L. unfold rs_decode_half. cbn [rexec]. destruct t as [k|s|s|? ?]; cbn [kind_of rtype_of].
  - destruct L as (nm & Hk). assert (M : is_kind k KMessage = false /\ is_kind k KEnum = false) by (destruct K as (K1 & K2); destruct k; split; try reflexivity; congruence). destruct M as (M1 & M2). rewrite M1, M2, andb_false_r.
    rewrite (ev_prim _ _ _ _ nm _ Hb Hk). destruct (rs_dec_call rt k c); cbn [lift gtry oseq]; try reflexivity. rewrite (value_prim fd k _ Ht). reflexivity.
  - destruct K as (en & He & Es). change (String.eqb (entry (rs_decodeLUT KEnum)) "" && is_kind KEnum KMessage) with false. change (is_kind KEnum KEnum) with true. cbv iota.
    rewrite (ev_try loc here E fd s en "DecodingError::InvalidMap" InvalidMap (entry (rs_decodeLUT KEnum)) c Hb Ht He Es eq_refl eq_refl eq_refl eq_refl).
    change (rs_dec_call rt KEnum c) with (qmark (decode rt RU32 c)). match goal with |- oseq (lift _ ?x) _ = lift _ ?x => destruct x end; reflexivity.
  - change (String.eqb (entry (rs_decodeLUT KMessage)) "" && is_kind KMessage KMessage) with true. cbv iota.
    rewrite (ev_decode_or loc here E fd s InvalidMap "DecodingError::InvalidMap" c Hb Ht K eq_refl). fold ms. match goal with |- oseq (lift _ ?x) _ = lift _ ?x => destruct x end; reflexivity.
  - destruct K.
Qed.
Lemma insert_map (g : gval -> rv) k v l : hinsert k (g v) (map (fun e : value * gval => (fst e, g (snd e))) l) = map (fun e => (fst e, g (snd e))) (GenModel.insert k v l).
Proof using Type. induction l as [|(k', x) l IH]; [reflexivity|]. cbn [map hinsert GenModel.insert fst snd]. destruct (GenModel.value_eq_dec k k'); [reflexivity|]. rewrite IH. reflexivity. Qed.
Definition entries_body (k v : ftyp) : list rstmt := [rs_decode_half (text "k") k; rs_decode_half (text "v") v; SDo (EMet (EVar (text "map")) ".insert" [v_k; v_v])].
Definition hash_of (fd : fieldd) (v : ftyp) (l : list (value * gval)) : rv := RvHash (map (fun e => (fst e, rs_value ms (map_value fd v) (snd e))) l).
Lemma entries_ok here fd kk v nsz : known_type f (TScalar kk) -> known_type f v -> (exists nm, rs_decodeLUT kk = Some nm) -> (match v with TScalar k => exists nm, rs_decodeLUT k = Some nm | _ => True end) ->
  forall n l c,
  times (fun E c => block (EX (fun _ => None) here) E E c (entries_body (TScalar kk) v)) n [(text "map", hash_of fd v l); (text "size", nsz); b_cur] c =
  lift (fun l => [(text "map", hash_of fd v l); (text "size", nsz); b_cur]) (rs_dec_entries rt rec kk (rtype_of f v) n l c).
Proof.
  intros Kk Kv Lk Lv. induction n as [|n IH]; intros l c; [reflexivity|]. cbn [times rs_dec_entries]. unfold block, leave, entries_body. cbn [rexec_list].
  set (E0 := [(text "map", hash_of fd v l); (text "size", nsz); b_cur]).
  assert (Hb : has_b E0) by (unfold has_b, E0, b_cur; cbn [rfind]; eqn; reflexivity).
  rewrite (ev_half (fun _ => None) here E0 (text "k") (map_key fd (TScalar kk)) (TScalar kk) c Hb eq_refl Kk Lk). cbn [rtype_of].
  rewrite !lift_gtry, oseq_assoc. rewrite !oseq_assoc. apply oseq_ext. intros k c1. cbn [lift oseq].
  assert (Hb1 : forall x, has_b ((text "k", x) :: E0)) by (intros x; unfold has_b, E0, b_cur; cbn [rfind]; eqn; reflexivity).
  rewrite (ev_half (fun _ => None) here _ (text "v") (map_value fd v) v c1 (Hb1 _) eq_refl Kv Lv). rewrite lift_gtry, oseq_lift, !oseq_assoc. apply oseq_ext. intros x c2.
  cbn [oseq]. cbn [rexec reval_all v_k v_v reval rfind]. eqn. cbn [oseq rfind]. eqn. rewrite (value_prim (map_key fd (TScalar kk)) kk k eq_refl). unfold E0. cbn [rfind]. eqn. unfold hash_of at 1. cbn [String.eqb Ascii.eqb Bool.eqb oseq rset]. eqn. cbn [length Nat.sub skipn oseq].
  rewrite insert_map. exact (IH (GenModel.insert k x l) c2).
Qed.
Definition map_body (k v : ftyp) : list rstmt :=
        [if_none;
         SLet false (text "size") (ok_or (EMet (EMet v_b ".decode_map" [EConst (entry (rs_getKind (kind_of k))); EConst (entry (rs_getKind (kind_of v)))]) ".ok" []) "DecodingError::InvalidU32");
         SLet true (text "map") (ECall (Some (text "HashMap")) (text "new") []);
         STimes (EVar (text "size")) (entries_body k v);
         STail (ok (some_ (EVar (text "map"))))].
Lemma none_bool c : decode_none rt c = RPanic \/ exists b c', decode_none rt c = ROk b c'.
Proof using Type.
  unfold decode_none. destruct (read_u8 rt InvalidNone c) as [k c'|e c'|]; [|right; eauto|left; reflexivity]. destruct (k =? as_u8 KNone); [right; eauto|]. destruct (pos c' <? 1); [left; reflexivity|right; eauto].
Qed.
Lemma ev_local loc here E fd n g c : has_b E -> loc (fn_name fd) = Some g ->
  EV loc here E (local_or fd n) c = oseq (oseq (g c) (fun v c0 => match v with RvOk v0 => OGo v0 c0 | RvErr x => ORet (RvErr x) c0 | _ => OStuck end))
    (fun v c0 => oseq (EV loc here E (EConst n) c0) (fun k c0 => oseq (method rt enc v ".ok_or"%string [k] c0) (fun v c0 => match v with RvOk v0 => OGo v0 c0 | RvErr x => ORet (RvErr x) c0 | _ => OStuck end))).
Proof using Type.
  intros Hb Hl. unfold local_or, ok_or, v_b. cbn [reval reval_all]. rewrite Hb. cbn [oseq]. unfold plain_call. rewrite Hl. rewrite ?oseq_assoc. apply oseq_ext. intros a c0. destruct a; try reflexivity. cbn [oseq]. rewrite ?oseq_assoc. destruct (const_of n); reflexivity.
Qed.
(** x: x_decode(b)?.ok_or(DecodingError::InvalidArray)? *)
Lemma ev_slice loc here E fd c : In fd (m_fields m0) -> f_many fd = true -> is_map fd = false -> has_b E ->
  loc (fn_name fd) = Some (run_body rt alloc P enc dec (fun _ => None) (rs_type_of_field fd) [b_cur] (slice_body fd)) ->
  EV loc here E (local_or fd "DecodingError::InvalidArray") c = lift (rs_value ms fd) (rs_dec_slice rt room rec (rfield_of f fd) c).
Proof.
  intros Hi Hm Hp Hb Hl. rewrite (ev_local loc here E fd _ _ c Hb Hl), (slice_fn fd c Hi Hm Hp). destruct (rs_dec_slice rt room rec (rfield_of f fd) c); cbn [fin oseq lift]; reflexivity.
Qed.
Lemma key_scalar fd k v : In fd (m_fields m0) -> f_typ fd = TMap k v -> exists kk, k = TScalar kk /\ (exists nm, rs_decodeLUT kk = Some nm).
Proof.
  intros Hi Ht. pose proof (known fd Hi) as K. pose proof (compiles fd Hi) as C. unfold field_known, rfield_of in *. rewrite Ht in *. cbn [rfield_compiles] in C.
  apply andb_true_iff in C. destruct C as (C & _). apply andb_true_iff in C. destruct C as (_ & C). destruct (rs_types_agree (kind_of k)) as [q|] eqn:Q; [|discriminate C]. destruct K as (_ & K & _).
  destruct k as [kk|s|s|a b]; [|discriminate Q|discriminate Q|destruct K]. exists kk. split; [reflexivity|exact (agree_decode kk q Q)].
Qed.
Lemma val_scalar fd k v : In fd (m_fields m0) -> f_typ fd = TMap k v -> match v with TScalar k => exists nm, rs_decodeLUT k = Some nm | _ => True end.
Proof.
  intros Hi Ht. pose proof (compiles fd Hi) as C. unfold rfield_of in *. rewrite Ht in *. cbn [rfield_compiles] in C.
  apply andb_true_iff in C. destruct C as (_ & C). destruct v as [kv| | |]; try exact I. cbn [rtype_of] in C. destruct (rs_types_agree kv) as [q|] eqn:Q; [|discriminate C]. exact (agree_decode kv q Q).
Qed.
Lemma value_hash fd k v l : f_typ fd = TMap k v -> rs_value ms fd (GMap (Some l)) = hash_of fd v l.
Proof using Type. intros Ht. unfold hash_of. unfold rs_value at 1; fold rs_value. rewrite Ht. f_equal. apply map_ext. intros (a, b). reflexivity. Qed.
Lemma ev_map loc here E fd k v c : In fd (m_fields m0) -> f_typ fd = TMap k v -> has_b E ->
  loc (fn_name fd) = Some (run_body rt alloc P enc dec (fun _ => None) (TyHash (rs_type_of false k) (rs_type_of false v)) [b_cur] (map_body k v)) ->
  EV loc here E (local_or fd "DecodingError::InvalidMap") c = lift (rs_value ms fd) (rs_dec_message rt rec (rfield_of f fd) c).
Proof.
  intros Hi Ht Hb Hl. rewrite (ev_local loc here E fd _ _ c Hb Hl). pose proof (known fd Hi) as K. pose proof (val_scalar fd k v Hi Ht) as Lv. destruct (key_scalar fd k v Hi Ht) as (kk & -> & Lk). unfold field_known in K. rewrite Ht in K. destruct K as (_ & Kk & Kv).
  assert (R : rfield_of f fd = RMapOf kk (rtype_of f v)) by (unfold rfield_of; rewrite Ht; reflexivity). rewrite R. unfold rs_dec_message.
  assert (G1 : kk <> KGroup) by (intros ->; destruct Lk as (? & Lk); discriminate Lk).
  assert (NM : match v with TMap _ _ => False | _ => True end) by (destruct v; [exact I|exact I|exact I|destruct Kv]).
  assert (G2 : kind_of v <> KGroup) by (destruct v; try discriminate; destruct Lv as (? & Lv); cbn; intros ->; discriminate Lv).
  destruct (kind_const kk G1) as (z1 & A1 & A2). destruct (kind_const (kind_of v) G2) as (z2 & B1 & B2). rewrite (kind_rkind v NM), A1, B1.
  unfold run_body, map_body, if_none. cbn [rexec_list rexec reval reval_all]. unfold v_b at 1. cbn [reval]. rewrite b_here. cbn [oseq method]. unfold lib_call at 1. cbn [String.eqb Ascii.eqb Bool.eqb].
  destruct (none_bool c) as [N|(b & c1 & N)]; rewrite N; [reflexivity|]. cbn [oseq]. destruct b.
  - unfold block, leave. cbn [rexec_list rexec ok reval reval_all]. eqn. cbn [oseq]. unfold plain_call. eqn. cbn [oseq oval reval]. eqn. cbn [oseq method String.eqb Ascii.eqb Bool.eqb]. reflexivity.
  - cbn [oseq]. unfold ok_or, v_b. cbn [reval reval_all]. cbn [kind_of]. rewrite b_here, A2, B2. cbn [oseq method]. unfold lib_call at 1. cbn [String.eqb Ascii.eqb Bool.eqb].
    destruct (decode rt (RMap z1 z2) c1) as [x c2|e c2|] eqn:Ed; cbn [of_rres oseq method String.eqb Ascii.eqb Bool.eqb]; eqn; cbn [oseq method String.eqb Ascii.eqb Bool.eqb]; try reflexivity.
    destruct (map_value_of _ _ _ _ _ Ed) as (n & ->). cbn [size_of oseq]. unfold path_call.
    rewrite (not_own f p d NA (text "HashMap") ltac:(vm_compute; auto) : own_type P _ = false). eqn. cbn [andb oseq rfind]. eqn. cbn [oseq].
    change (RvHash []) with (hash_of fd v []). rewrite (entries_ok _ fd kk v (RvSize n) Kk Kv Lk Lv (Z.to_nat n) [] c2). fold ms.
    destruct (rs_dec_entries rt rec kk (rtype_of f v) (Z.to_nat n) [] c2) as [l c3|e c3| | |]; cbn [lift gtry oseq oval]; try reflexivity.
    cbn [rexec_list rexec ok some_ reval reval_all rfind]. eqn. cbn [oseq]. unfold plain_call. eqn. cbn [oseq oval method String.eqb Ascii.eqb Bool.eqb]. rewrite (value_hash fd _ v l Ht). reflexivity.
Qed.
(** a singular scalar or enum *)
Lemma ev_other loc here E fd c : In fd (m_fields m0) -> f_many fd && negb (is_map fd) = false -> rs_decodeLUT (kind_of (f_typ fd)) <> None -> has_b E ->
  EV loc here E (snd (rs_decode_other fd)) c = lift (rs_value ms fd) (rs_dec_other rt (rfield_of f fd) c).
Proof.
  intros Hi Hm Hk Hb. pose proof (known fd Hi) as K. unfold field_known, is_map, rs_decode_other, rfield_of in *. cbn [snd]. destruct (f_typ fd) as [k|s|s|? ?] eqn:Et; [| |exfalso; apply Hk; reflexivity|exfalso; apply Hk; reflexivity].
  - rewrite andb_true_r in Hm. rewrite Hm. cbn [kind_of rtype_of rs_dec_other] in *. destruct (rs_decodeLUT k) as [nm|] eqn:Ek; [|congruence]. assert (M : is_kind k KEnum = false) by (destruct K as (K1 & K2); destruct k; try reflexivity; congruence). rewrite M.
    rewrite <- Ek, (ev_prim loc here E k nm c Hb Ek). destruct (rs_dec_call rt k c); cbn [lift gtry]; try reflexivity. rewrite (value_prim fd k _ Et). reflexivity.
  - rewrite andb_true_r in Hm. rewrite Hm. cbn [kind_of is_kind rtype_of rs_dec_other]. destruct K as (en & He & Es). exact (ev_try loc here E fd s en "DecodingError::InvalidEnum" InvalidEnum ".decode_u32" c Hb Et He Es eq_refl eq_refl eq_refl eq_refl).
Qed.
Lemma ev_message loc here E fd c : In fd (m_fields m0) -> f_many fd && negb (is_map fd) = false -> kind_of (f_typ fd) = KMessage -> has_b E ->
  (forall k v, f_typ fd = TMap k v -> loc (fn_name fd) = Some (run_body rt alloc P enc dec (fun _ => None) (TyHash (rs_type_of false k) (rs_type_of false v)) [b_cur] (map_body k v))) ->
  EV loc here E (snd (rs_init_message fd)) c = lift (rs_value ms fd) (rs_dec_message rt rec (rfield_of f fd) c).
Proof.
  intros Hi Hm Hk Hb Hl. pose proof (known fd Hi) as K. unfold field_known in K. unfold rs_init_message. cbn [snd]. destruct (is_map fd) eqn:M.
  - unfold is_map in M. destruct (f_typ fd) as [| | |k v] eqn:Et; try discriminate M. exact (ev_map loc here E fd k v c Hi Et Hb (Hl k v eq_refl)).
  - unfold is_map in M. destruct (f_typ fd) as [k|s|s|k v] eqn:Et; try discriminate M; try discriminate Hk.
    + cbn in Hk. subst k. destruct K as (_ & K). congruence.
    + rewrite andb_true_r in Hm. unfold rfield_of. rewrite Et, Hm. unfold message_of. rewrite Et. exact (ev_decode_or loc here E fd s InvalidStruct "DecodingError::InvalidStruct" c Hb Et K eq_refl).
Qed.
End Dec.
