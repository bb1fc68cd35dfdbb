(** Running the generated encode functions. *)
From Coq Require Import String.
From Verif Require Import Base Spec RustModel GenTables NameModel NameSpec EmitModel EmitSpec EmitThms EmitThms2 PkgThms GoAst GoEmit GoRunSpec GoLink GoSlices GoDecode RsGenModel RsAst RsEmit RsRunSpec RsRun1 RsRun2 RsRun3.
From Verif Require GenModel.
Import GenModel (gval, GPrim, GList, GMap, GMsg, all_some).
Local Open Scope list_scope.

Arguments is_kind : simpl never.
(** how many messages are nested in a tree: how many calls of encode are active at a time *)
Fixpoint msg_depth (x : gval) : nat :=
  match x with
  | GPrim _ | GMap None | GMsg None => 0
  | GList xs => fold_right Nat.max 0%nat (map msg_depth xs)
  | GMap (Some l) => fold_right Nat.max 0%nat (map (fun e => match e with (_, y) => msg_depth y end) l)
  | GMsg (Some xs) => S (fold_right Nat.max 0%nat (map msg_depth xs))
  end.
(** some calls of the Encoder, then [a] *)
Definition emit {A} (a : A) (c : cursor) (vs : list value) : ores A := match encode_all c vs with Ok c => OGo a c | Panic => ODie end.
Lemma encode_all_app vs ws c : encode_all c (vs ++ ws) = (let! c := encode_all c vs in encode_all c ws).
Proof. revert c. induction vs as [|v vs IH]; intros c; [reflexivity|]. cbn [app encode_all]. destruct (encode c v); cbn [bind]; [apply IH|reflexivity]. Qed.
Lemma emit_app {A} (a : A) c vs ws : emit a c (vs ++ ws) = oseq (emit tt c vs) (fun _ c => emit a c ws).
Proof. unfold emit. rewrite encode_all_app. destruct (encode_all c vs); reflexivity. Qed.
Lemma emit_then {A B} (a : A) c vs (k : A -> cursor -> ores B) : oseq (emit a c vs) k = oseq (emit tt c vs) (fun _ c => k a c).
Proof. unfold emit. destruct (encode_all c vs); reflexivity. Qed.
Lemma emit_one {A} (a : A) c v : emit a c [v] = match encode c v with Ok c => OGo a c | Panic => ODie end.
Proof. unfold emit. cbn [encode_all]. destruct (encode c v); reflexivity. Qed.
Lemma emit_map {A B} (a : A) (b : B) c vs : oseq (emit a c vs) (fun _ c => OGo b c) = emit b c vs.
Proof. unfold emit. destruct (encode_all c vs); reflexivity. Qed.
Lemma all_some_cons {A} (o : option (list A)) l r : all_some (o :: l) = Some r -> exists a b, o = Some a /\ all_some l = Some b /\ r = a ++ b.
Proof. cbn. destruct o as [a|]; [|discriminate]. destruct (all_some l) as [b|]; [|discriminate]. intros E. injection E as <-. eauto. Qed.
Lemma all_some_app {A} (l k : list (option (list A))) r : all_some (l ++ k) = Some r -> exists a b, all_some l = Some a /\ all_some k = Some b /\ r = a ++ b.
Proof.
  revert r. induction l as [|o l IH]; intros r E; [exists [], r; auto|]. cbn [app] in E. destruct (all_some_cons _ _ _ E) as (a & b & -> & E' & ->). destruct (IH _ E') as (x & y & X & Y & ->).
  exists (a ++ x), y. cbn [all_some]. rewrite X. rewrite app_assoc. auto.
Qed.
Lemma max_in l x : In x l -> (x <= fold_right Nat.max 0%nat l)%nat.
Proof. induction l as [|y l IH]; [contradiction|]. cbn. intros [->|H]; [lia|]. specialize (IH H). lia. Qed.

Lemma rfind_fields ms : forall (fs : list fieldd) (xs : list gval) i fd x, NoDup (map rsname fs) -> nth_error fs i = Some fd -> nth_error xs i = Some x -> rfind (rsname fd) (rs_fields ms fs xs) = Some (rs_value ms fd x).
Proof.
  induction fs as [|g fs IH]; intros xs i fd x N Hi Hx; [destruct i; discriminate Hi|]. destruct xs as [|y xs]; [destruct i; discriminate Hx|]. cbn [map] in N. inversion N as [|? ? N1 N2]; subst. cbn [rs_fields rfind].
  destruct i as [|i]; cbn [nth_error] in Hi, Hx; [injection Hi as ->; injection Hx as ->; rewrite same_refl; reflexivity|]. rewrite same_false; [exact (IH xs i fd x N2 Hi Hx)|]. intros E. apply N1. rewrite <- E. apply in_map. exact (nth_error_In _ _ Hi).
Qed.

Section Enc.
Variables (rt : runtime) (alloc : rty -> Z -> bool) (f : filed) (p : bytes) (d : deps).
Hypothesis NA : rs_names_apart f.
Let P := rs_program p d f.
Let ms := messages_of f.
Let Sch := rschema_of f.
Hypothesis CP : forallb (forallb (rfield_compiles Sch)) Sch = true.
Variable fuel : nat.
Variable enc : bytes -> rv -> cursor -> ores rv.
Variable dec : bytes -> cursor -> ores rv.
Hypothesis ENC : forall i m xs c vs, nth_error ms i = Some m -> (msg_depth (GMsg (Some xs)) <= fuel)%nat -> rs_calls Sch (GMsg (Some xs)) (ROne (RMsg i)) = Some vs ->
  enc (camel (m_full m)) (rs_struct_value f m xs) c = emit (RvOk RvCur) c vs.
Variable here : rty.
Notation EV := (reval rt alloc P enc dec (fun _ => None) here).
Notation EX := (rexec rt alloc P enc dec (fun _ => None) here).
Notation MT := (method rt enc).

(** b.encode_x(v) *)
Lemma met_prim k v w c : rs_enc_call k v = Some w -> MT RvCur (entry (rs_encodeLUT k)) [RvPrim v] c = emit (RvOk RvCur) c [w].
Proof using Type.
  intros H. unfold rs_enc_call in H. unfold method, lib_call. destruct (rs_encodeLUT k) as [n|]; [|discriminate H]. cbn [entry].
  destruct (assoc n rs_encoder_methods) as [q|]; [|discriminate H]. destruct (GenModel.request_eq_dec q (want v)); [|discriminate H]. injection H as <-. rewrite emit_one. unfold of_res_cur. destruct (encode c v); reflexivity.
Qed.
Lemma enc_enum v w : rs_enc_call KEnum v = Some w -> exists n, v = VU32 n /\ w = VU32 n.
Proof using Type.
  unfold rs_enc_call. change (rs_encodeLUT KEnum) with (Some ".encode_u32"%string). cbv beta iota. match goal with |- context [assoc ?a ?b] => let r := eval vm_compute in (assoc a b) in change (assoc a b) with r end. cbv beta iota.
  intros H. destruct (GenModel.request_eq_dec RU32 (want v)) as [e|]; [|discriminate H]. injection H as <-. destruct v; cbn in e; try (exfalso; discriminate e). eauto.
Qed.
(** x.encode(b)? *)
Lemma met_msg fd s x c vs : f_typ fd = TMsg s -> known_type f (TMsg s) -> (msg_depth x <= fuel)%nat -> rs_calls Sch x (ROne (RMsg (position s ms))) = Some vs ->
  MT (rs_value ms fd x) ".encode" [RvCur] c = emit (RvOk RvCur) c vs.
Proof.
  intros Ht K D C. destruct (rmsg_known f s K) as (m & Hm & Em & HM). fold ms in Hm. destruct x as [v|l|l|[xs|]]; try discriminate C.
  rewrite (value_msg f fd s m xs Ht Hm Em : rs_value ms fd _ = _). unfold rs_struct_value. cbn [method String.eqb Ascii.eqb Bool.eqb]. exact (ENC _ m xs c vs Hm D C).
Qed.
Lemma try_emit {A} c vs (k : rv -> cursor -> ores A) : oseq (oseq (emit (RvOk RvCur) c vs) (fun v c => match v with RvOk v => OGo v c | RvErr x => ORet (RvErr x) c | _ => OStuck end)) k = oseq (emit tt c vs) (fun _ c => k RvCur c).
Proof using Type. unfold emit. destruct (encode_all c vs); reflexivity. Qed.
(** the body of for item in &self.f *)
Definition slice_item (fd : fieldd) : rstmt :=
  let k := kind_of (f_typ fd) in
  let e := entry (rs_encodeLUT k) in
  let item := EVar (text "item") in
  if String.eqb e "" && is_kind k KMessage then SDo (ETry (EMet item ".encode" [v_b])) else SDo (ETry (EMet v_b e [if is_string k then ERef item else item])).
Definition known_elem (t : ftyp) : Prop := known_type f t /\ match t with TMap _ _ => False | TScalar k => rs_encodeLUT k <> None | _ => True end.
Lemma item_ok fd t E x c vs : f_typ fd = t -> known_elem t -> (forall s, t <> TEnum s) -> has_b E -> (msg_depth x <= fuel)%nat -> rs_calls Sch x (ROne (rtype_of f t)) = Some vs ->
  EX ((text "item", rs_value ms fd x) :: E) c (slice_item fd) = emit ((text "item", rs_value ms fd x) :: E) c vs.
Proof.
  intros Ht (K & L) NE Hb D C. unfold slice_item. rewrite Ht. destruct t as [k|s|s|? ?]; cbn [kind_of rtype_of] in *.
  - assert (M : is_kind k KMessage = false) by (destruct K as (K1 & K2); destruct k; try reflexivity; congruence). rewrite M, andb_false_r.
    destruct x as [v|l|l|l]; try discriminate C. cbn [rs_calls] in C. destruct (rs_enc_call k v) as [w|] eqn:Cw; [|discriminate C]. injection C as <-. rewrite (value_prim f fd k v Ht : rs_value ms fd _ = _).
    cbn [rexec v_b reval]. replace (rfind (text "b") ((text "item", RvPrim v) :: E)) with (Some RvCur) by (cbn [rfind]; eqn; symmetry; exact Hb). cbn [oseq].
    assert (A : forall c, reval_all (EV ((text "item", RvPrim v) :: E)) [if is_string k then ERef (EVar (text "item")) else EVar (text "item")] c = OGo [RvPrim v] c) by (intros c0; destruct (is_string k); cbn [reval_all reval rfind]; eqn; reflexivity).
    rewrite A. cbn [oseq]. rewrite (met_prim k v w c Cw), try_emit, emit_map. reflexivity.
  - congruence.
  - change (String.eqb (entry (rs_encodeLUT KMessage)) "" && is_kind KMessage KMessage) with true. cbv iota. cbn [rexec v_b reval reval_all rfind]. eqn. cbn [oseq]. rewrite Hb. cbn [oseq].
    rewrite (met_msg fd s x c vs Ht K D C), try_emit, emit_map. reflexivity.
  - destruct K.
Qed.
(** a loop whose body makes calls of the Encoder *)
Lemma over_emit {A B} (body : A -> renv -> cursor -> ores renv) (g : B -> A) (step : B -> option (list value)) E xs : forall vs c,
  (forall x ws c, In x xs -> step x = Some ws -> body (g x) E c = emit E c ws) -> all_some (map step xs) = Some vs -> over body (map g xs) E c = emit E c vs.
Proof using Type.
  induction xs as [|x xs IH]; intros vs c H C; [injection C as <-; reflexivity|]. cbn [map] in *. destruct (all_some_cons _ _ _ C) as (a & b & C1 & C2 & ->). cbn [over].
  rewrite (H x a c (or_introl eq_refl) C1), emit_then, emit_app. apply oseq_ext. intros _ c1. apply IH; [|exact C2]. intros y ws c0 Hy. apply H. right. exact Hy.
Qed.
Lemma block_emit E pre s vs c : EX (pre ++ E) c s = emit (pre ++ E) c vs -> block EX E (pre ++ E) c [s] = emit E c vs.
Proof using Type.
  intros H. unfold block, leave. cbn [rexec_list]. rewrite H, oseq_assoc, emit_then, <- (emit_map tt E). apply oseq_ext. intros _ c1. cbn [oseq]. rewrite app_length, Nat.add_sub.
  rewrite skipn_app, skipn_all, Nat.sub_diag. reflexivity.
Qed.
Lemma const_kind o z : rs_kind o = Some z -> const_of (entry o) = Some (RvKind z).
Proof using Type.
  unfold rs_kind. destruct o as [n|]; [|discriminate]. cbn [entry]. intros H. unfold const_of. destruct (String.eqb_spec n "None") as [->|]; [vm_compute in H; discriminate H|]. rewrite H. reflexivity.
Qed.

(** ---- the fields of one message ---- *)
Variable m : msgd.
Hypothesis HM : has_message f m.
Variable xs : list gval.
Let fs := m_fields m.
Let self : rv := rs_struct_value f m xs.
Let E0 : renv := [b_cur; (text "self", self)].
Hypothesis DX : forall x, In x xs -> (msg_depth x <= fuel)%nat.
Lemma ev_mine i fd x c : nth_error fs i = Some fd -> nth_error xs i = Some x -> EV E0 (mine fd) c = OGo (rs_value ms fd x) c.
Proof.
  intros Hi Hx. unfold mine, E0, b_cur. cbn [reval rfind]. eqn. cbn [oseq]. unfold self, rs_struct_value. change (messages_of f) with ms. rewrite (rfind_fields ms (m_fields m) xs i fd x (ra_fields f NA m HM) Hi Hx : rfind _ _ = Some (rs_value ms fd x)). reflexivity.
Qed.
Lemma known0 fd : In fd fs -> field_known f fd.
Proof. exact (ra_known f NA m fd HM). Qed.
Lemma compiles0 fd : In fd fs -> rfield_compiles Sch (rfield_of f fd) = true.
Proof. exact (compiles f CP m HM fd). Qed.
Lemma agree_encode k q : rs_types_agree k = Some q -> rs_encodeLUT k <> None.
Proof using Type. unfold rs_types_agree. destruct (rs_typeLUT k), (rs_encodeLUT k), (rs_decodeLUT k); try discriminate. Qed.
Lemma b0 : has_b E0.
Proof using Type. unfold has_b. apply b_here. Qed.

(** the values: b.encode_x(...)?.encode_y(...)? *)
Lemma value_ok e i fd x c vs0 vs : nth_error fs i = Some fd -> nth_error xs i = Some x -> f_many fd && negb (is_map fd) = false -> rs_encodeLUT (kind_of (f_typ fd)) <> None ->
  rs_calls Sch x (rfield_of f fd) = Some vs -> (EV E0 e c = emit RvCur c vs0) -> EV E0 (rs_encode_value e fd) c = emit RvCur c (vs0 ++ vs).
Proof.
  intros Hi Hx Hm Hk C He. pose proof (known0 fd (nth_error_In _ _ Hi)) as K. unfold field_known, is_map, rfield_of, rs_encode_value, rs_encode_arg in *. cbn [reval]. rewrite He, !oseq_assoc, emit_then, emit_app. apply oseq_ext. intros _ c1.
  assert (AR : forall c1, reval_all (EV E0) [rs_encode_arg fd] c1 = OGo [if is_kind (kind_of (f_typ fd)) KEnum then match rs_value ms fd x with RvEnum _ n => RvPrim (VU32 n) | v => v end else rs_value ms fd x] c1 \/ exists v, rs_value ms fd x = v /\ is_kind (kind_of (f_typ fd)) KEnum = true /\ match v with RvEnum _ _ => False | _ => True end).
  { intros c2. unfold rs_encode_arg. destruct (is_kind (kind_of (f_typ fd)) KEnum) eqn:IE.
    - destruct (rs_value ms fd x) eqn:V; try (right; eexists; repeat split; fail). left. cbn [reval_all reval]. rewrite (ev_mine i fd x c2 Hi Hx), V. reflexivity.
    - left. destruct (is_string (kind_of (f_typ fd)) || is_bytes (kind_of (f_typ fd))); cbn [reval_all reval]; rewrite (ev_mine i fd x c2 Hi Hx); reflexivity. }
  unfold rs_encode_arg in AR.
  destruct (f_typ fd) as [k|s|s|? ?] eqn:Et; [| |exfalso; apply Hk; reflexivity|exfalso; apply Hk; reflexivity]; rewrite andb_true_r in Hm; rewrite Hm in C; cbn [kind_of rtype_of rs_calls] in *.
  - assert (M : is_kind k KEnum = false) by (destruct K as (K1 & K2); destruct k; try reflexivity; congruence). rewrite M in *. destruct x as [v|l|l|l]; try discriminate C. cbn [rs_calls] in C. destruct (rs_enc_call k v) as [w|] eqn:Cw; [|discriminate C]. injection C as <-.
    destruct (AR c1) as [A|(? & _ & A & _)]; [|discriminate A]. rewrite A. cbn [oseq]. rewrite (value_prim f fd k v Et : rs_value ms fd _ = _), (met_prim k v w c1 Cw).
    unfold emit. destruct (encode_all c1 [w]); reflexivity.
  - change (is_kind KEnum KEnum) with true in *. cbv iota in *. destruct x as [v|l|l|l]; try discriminate C. cbn [rs_calls] in C. destruct (rs_enc_call KEnum v) as [w|] eqn:Cw; [|discriminate C]. injection C as <-. destruct (enc_enum v w Cw) as (n & -> & ->).
    rewrite (value_enum f fd s n Et : rs_value ms fd _ = _) in AR. destruct (AR c1) as [A|(v & <- & _ & [])]. rewrite A. cbn [oseq]. rewrite (met_prim KEnum (VU32 n) (VU32 n) c1 Cw).
    unfold emit. destruct (encode_all c1 [VU32 n]); reflexivity.
Qed.
(** a slice *)
Lemma slice_ok i fd x c vs : nth_error fs i = Some fd -> nth_error xs i = Some x -> f_many fd = true -> is_map fd = false ->
  rs_calls Sch x (rfield_of f fd) = Some vs -> rexec_list EX E0 c (rs_encode_slice fd) = emit E0 c vs.
Proof.
  intros Hi Hx Hm Hp C. pose proof (known0 fd (nth_error_In _ _ Hi)) as K. pose proof (compiles0 fd (nth_error_In _ _ Hi)) as CO. pose proof (DX x (nth_error_In _ _ Hx)) as D.
  assert (R : rfield_of f fd = RMany (rtype_of f (f_typ fd))) by (unfold rfield_of; rewrite Hm; unfold is_map in Hp; destruct (f_typ fd); try reflexivity; discriminate Hp). rewrite R in *.
  destruct x as [v|l|l|l]; try discriminate C. 
  set (t := f_typ fd) in *.
  assert (KE : known_elem t /\ forall s, t <> TEnum s).
  { unfold known_elem, field_known, is_map in *. fold t in K, Hp. destruct t as [k|s|s|? ?]; cbn [rfield_compiles rtype_of] in CO; try discriminate CO; try discriminate Hp; (split; [split; [exact K|]|discriminate]); [|exact I].
    destruct (rs_types_agree k) as [q|] eqn:Q; [exact (agree_encode k q Q)|discriminate CO]. }
  destruct KE as (KE & NE).
  cbn [rs_calls] in C. set (ok := match rtype_of f t with RMsg _ => _ | _ => _ end) in C. destruct ok as [z|] eqn:Ez; [|discriminate C]. subst ok.
  destruct (all_some_cons _ _ _ C) as (a & b & C1 & C2 & ->). injection C1 as <-.
  assert (S0 : exists kc, const_of kc = Some (RvKind z) /\ rs_encode_slice fd = [SDo (ETry (EMet v_b ".encode_array" [EMet (mine fd) ".len" []; EConst kc])); SFor (PName (text "item")) (ERef (mine fd)) [slice_item fd]]).
  { unfold rs_encode_slice, slice_item. fold t. destruct t as [k|s|s|? ?]; cbn [kind_of rtype_of rkind] in *.
    - assert (M : is_kind k KMessage = false) by (destruct KE as ((K1 & K2) & _); destruct k; try reflexivity; congruence). rewrite M, andb_false_r. exists (entry (rs_kindLUT k)). split; [exact (const_kind _ _ Ez)|reflexivity].
    - congruence.
    - exists "Kind::Any"%string. split; [exact (const_kind (Some "Kind::Any"%string) z Ez)|reflexivity].
    - destruct KE as ([] & _). }
  destruct S0 as (kc & Hc & ->). cbn [rexec_list rexec reval reval_all v_b]. rewrite (b0 : rfind (text "b") E0 = _). cbn [oseq]. rewrite (ev_mine i fd _ c Hi Hx). cbn [oseq]. rewrite Hc. cbn [oseq].
  rewrite emit_app, emit_one. unfold rs_value at 1; fold rs_value. cbn [method String.eqb Ascii.eqb Bool.eqb oseq]. unfold lib_call. cbn [String.eqb Ascii.eqb Bool.eqb]. unfold zlen at 1. rewrite map_length. fold (zlen l).
  unfold of_res_cur. destruct (encode c (VSlice (zlen l) z)) as [c1|]; [|reflexivity]. cbn [oseq]. rewrite (ev_mine i fd _ c1 Hi Hx). cbn [oseq]. unfold rs_value at 1; fold rs_value.
  rewrite (over_emit _ (rs_value ms (element fd)) (fun x => rs_calls Sch x (ROne (rtype_of f t))) E0 l b c1).
  - unfold emit. destruct (encode_all c1 b); reflexivity.
  - intros y ws c2 Hy Cy. change ((text "item", rs_value ms (element fd) y) :: E0) with ([(text "item", rs_value ms (element fd) y)] ++ E0). apply block_emit. cbn [app].
    assert (SI : slice_item fd = slice_item (element fd)) by reflexivity. rewrite SI. apply (item_ok (element fd) t E0 y c2 ws eq_refl KE NE b0); [|exact Cy].
    cbn [msg_depth] in D. pose proof (max_in (map msg_depth l) (msg_depth y) (in_map _ _ _ Hy)). lia.
  - exact C2.
Qed.
(** the two halves of an entry *)
Lemma half_value fd t E x c vs : f_typ fd = t -> known_elem t -> rfind (text "b") E = Some RvCur -> rfind (text "v") E = Some (rs_value ms fd x) -> (msg_depth x <= fuel)%nat -> rs_calls Sch x (ROne (rtype_of f t)) = Some vs ->
  EX E c (rs_encode_item (kind_of t)) = emit E c vs.
Proof.
  intros Ht (K & L) Hb Hv D C. unfold rs_encode_item. destruct t as [k|s|s|? ?]; cbn [kind_of rtype_of] in *.
  - assert (M : is_kind k KMessage = false /\ is_kind k KEnum = false) by (destruct K as (K1 & K2); destruct k; split; try reflexivity; congruence). destruct M as (M1 & M2). rewrite M1, M2, andb_false_r.
    destruct x as [v|l|l|l]; try discriminate C. cbn [rs_calls] in C. destruct (rs_enc_call k v) as [w|] eqn:Cw; [|discriminate C]. injection C as <-. rewrite (value_prim f fd k v Ht : rs_value ms fd _ = _) in Hv.
    cbn [rexec v_b v_v reval reval_all]. rewrite Hb. cbn [oseq]. rewrite Hv. cbn [oseq]. rewrite (met_prim k v w c Cw), try_emit, emit_map. reflexivity.
  - change (String.eqb (entry (rs_encodeLUT KEnum)) "" && is_kind KEnum KMessage) with false. change (is_kind KEnum KEnum) with true. cbv iota.
    destruct x as [v|l|l|l]; try discriminate C. cbn [rs_calls] in C. destruct (rs_enc_call KEnum v) as [w|] eqn:Cw; [|discriminate C]. injection C as <-. destruct (enc_enum v w Cw) as (n & -> & ->). rewrite (value_enum f fd s n Ht : rs_value ms fd _ = _) in Hv.
    cbn [rexec v_b v_v reval reval_all]. rewrite Hb. cbn [oseq]. rewrite Hv. cbn [oseq]. change ".encode_u32"%string with (entry (rs_encodeLUT KEnum)). rewrite (met_prim KEnum (VU32 n) (VU32 n) c Cw), try_emit, emit_map. reflexivity.
  - change (String.eqb (entry (rs_encodeLUT KMessage)) "" && is_kind KMessage KMessage) with true. cbv iota. cbn [rexec v_b v_v reval reval_all]. rewrite Hv. cbn [oseq]. rewrite Hb. cbn [oseq].
    rewrite (met_msg fd s x c vs Ht K D C), try_emit, emit_map. reflexivity.
  - destruct K.
Qed.
Lemma half_key k E v w c : k <> KEnum -> k <> KMessage -> rfind (text "b") E = Some RvCur -> rfind (text "k") E = Some (RvPrim v) -> rs_enc_call k v = Some w -> EX E c (rs_encode_key k) = emit E c [w].
Proof using Type.
  intros K1 K2 Hb Hv Cw. unfold rs_encode_key. assert (M : is_kind k KMessage = false /\ is_kind k KEnum = false) by (destruct k; split; try reflexivity; congruence). destruct M as (M1 & M2). rewrite M1, M2, andb_false_r.
  destruct (is_string k); cbn [rexec v_b v_k reval reval_all]; rewrite Hb; cbn [oseq]; rewrite Hv; cbn [oseq]; rewrite (met_prim k v w c Cw), try_emit, emit_map; reflexivity.
Qed.
(** a message or a map *)
Lemma message_ok i fd x c vs : nth_error fs i = Some fd -> nth_error xs i = Some x -> f_many fd && negb (is_map fd) = false -> kind_of (f_typ fd) = KMessage ->
  rs_calls Sch x (rfield_of f fd) = Some vs -> rexec_list EX E0 c (rs_encode_message fd) = emit E0 c vs.
Proof.
  intros Hi Hx Hm Hk C. pose proof (known0 fd (nth_error_In _ _ Hi)) as K. pose proof (compiles0 fd (nth_error_In _ _ Hi)) as CO. pose proof (DX x (nth_error_In _ _ Hx)) as D.
  unfold field_known in K. unfold rs_encode_message, rfield_of, is_map in *. destruct (f_typ fd) as [k|s|s|k v] eqn:Et.
  - cbn in Hk. subst k. destruct K as (_ & K). congruence.
  - discriminate Hk.
  - rewrite andb_true_r in Hm. rewrite Hm in C. cbn [rexec_list rexec reval reval_all v_b]. rewrite (ev_mine i fd x c Hi Hx). cbn [oseq]. rewrite (b0 : rfind (text "b") E0 = _). cbn [oseq].
    rewrite (met_msg fd s x c vs Et K D C). unfold emit. destruct (encode_all c vs); reflexivity.
  - destruct K as (_ & Kk & Kv). cbn [rfield_compiles] in CO. apply andb_true_iff in CO. destruct CO as (CO & Cv). apply andb_true_iff in CO. destruct CO as (Ck & _).
    destruct x as [y|l|[l|]|l]; try discriminate C. cbn [rs_calls] in C. destruct (rs_kind (rs_getKind (kind_of k))) as [z1|] eqn:Z1; [|discriminate C]. destruct (rs_kind (rs_getKind (rkind (rtype_of f v)))) as [z2|] eqn:Z2; [|discriminate C].
    assert (KE : known_elem v). { split; [exact Kv|]. destruct v as [kv| | |]; [|exact I|exact I|destruct Kv]. cbn [rtype_of] in Cv. destruct (rs_types_agree kv) as [q|] eqn:Q; [exact (agree_encode kv q Q)|discriminate Cv]. }
    assert (NK : exists kk, k = TScalar kk) by (destruct k as [kk|s|s|? ?]; [eauto|discriminate Ck|discriminate Ck|destruct Kk]). destruct NK as (kk & ->). cbn [kind_of] in *. destruct Kk as (K1 & K2).
    assert (R : rkind (rtype_of f v) = kind_of v) by (destruct v; try reflexivity; destruct Kv). rewrite R in Z2.
    destruct (all_some_cons _ _ _ C) as (a & b & C1 & C2 & ->). injection C1 as <-.
    cbn [rexec_list rexec reval reval_all v_b]. rewrite (b0 : rfind (text "b") E0 = _). cbn [oseq]. rewrite (ev_mine i fd _ c Hi Hx), (value_hash f fd (TScalar kk) v l Et : rs_value ms fd _ = _). unfold hash_of. cbn [oseq].
    cbn [method String.eqb Ascii.eqb Bool.eqb oseq]. rewrite (const_kind _ _ Z1), (const_kind _ _ Z2). cbn [oseq]. rewrite emit_app, emit_one. unfold lib_call. cbn [String.eqb Ascii.eqb Bool.eqb]. unfold zlen at 1. rewrite map_length. fold (zlen l).
    unfold of_res_cur. destruct (encode c (VMap (zlen l) z1 z2)) as [c1|]; [|reflexivity]. cbn [oseq]. rewrite (ev_mine i fd _ c1 Hi Hx), (value_hash f fd (TScalar kk) v l Et : rs_value ms fd _ = _). unfold hash_of. cbn [oseq].
    rewrite (over_emit _ (fun e => (fst e, rs_value ms (map_value fd v) (snd e))) (fun e : value * gval => let (k, v0) := e in match rs_enc_call kk k with Some k0 => match rs_calls Sch v0 (ROne (rtype_of f v)) with Some vs => Some (k0 :: vs) | None => None end | None => None end) E0 l b c1).
    + unfold emit. destruct (encode_all c1 b); reflexivity.
    + intros (k0, y) ws c2 Hy Cy. cbn [fst snd]. destruct (rs_enc_call kk k0) as [w|] eqn:Cw; [|discriminate Cy]. destruct (rs_calls Sch y (ROne (rtype_of f v))) as [us|] eqn:Cu; [|discriminate Cy]. injection Cy as <-.
      set (E1 := (text "v", rs_value ms (map_value fd v) y) :: (text "k", RvPrim k0) :: E0).
      assert (B1 : rfind (text "b") E1 = Some RvCur) by (unfold E1, E0, b_cur; cbn [rfind]; eqn; reflexivity). assert (B2 : rfind (text "k") E1 = Some (RvPrim k0)) by (unfold E1; cbn [rfind]; eqn; reflexivity).
      assert (B3 : rfind (text "v") E1 = Some (rs_value ms (map_value fd v) y)) by (unfold E1; cbn [rfind]; eqn; reflexivity).
      unfold block, leave. cbn [rexec_list]. rewrite (half_key kk E1 k0 w c2 K1 K2 B1 B2 Cw), emit_then. change (w :: us) with ([w] ++ us). rewrite emit_app, !oseq_assoc. apply oseq_ext. intros _ c3.
      rewrite (half_value (map_value fd v) v E1 y c3 us eq_refl KE B1 B3); [|cbn [msg_depth] in D; pose proof (max_in (map (fun e : value * gval => let (_, y) := e in msg_depth y) l) (msg_depth y) (in_map (fun e : value * gval => let (_, y) := e in msg_depth y) _ _ Hy)); lia|exact Cu].
      unfold emit. destruct (encode_all c3 us); reflexivity.
    + exact C2.
Qed.
(** all the fields of a group *)
Definition piece (i : nat) : option (list value) := match nth_error xs i, nth_error fs i with Some x, Some fd => rs_calls Sch x (rfield_of f fd) | _, _ => None end.
Lemma group_ok gen fds : forall is, Forall2 (at_index fs) is fds ->
  (forall i fd x c vs, In fd fds -> nth_error fs i = Some fd -> nth_error xs i = Some x -> rs_calls Sch x (rfield_of f fd) = Some vs -> rexec_list EX E0 c (gen fd) = emit E0 c vs) ->
  forall vs c rest, all_some (map piece is) = Some vs -> rexec_list EX E0 c (flat_map gen fds ++ rest) = oseq (emit tt c vs) (fun _ c => rexec_list EX E0 c rest).
Proof using Type.
  induction fds as [|fd fds IH]; intros is F H vs c rest C; inversion F as [|i ? is' ? F1 F2]; subst; [injection C as <-; reflexivity|]. cbn [map] in C. destruct (all_some_cons _ _ _ C) as (a & b & C1 & C2 & ->). cbn [flat_map].
  assert (RA : forall l r E c, rexec_list EX E c (l ++ r) = oseq (rexec_list EX E c l) (fun E c => rexec_list EX E c r)).
  { clear. induction l as [|s l IH]; intros r E c; [reflexivity|]. cbn [app rexec_list]. rewrite oseq_assoc. apply oseq_ext. intros E1 c1. apply IH. }
  rewrite <- app_assoc, RA. unfold piece in C1. unfold at_index in F1. rewrite F1 in C1. destruct (nth_error xs i) as [x|] eqn:Hx; [|discriminate C1].
  rewrite (H i fd x c a (or_introl eq_refl) F1 Hx C1), emit_then, emit_app, !oseq_assoc. apply oseq_ext. intros _ c1. apply (IH is' F2); [|exact C2]. intros j g y c2 ws Hg. apply H. right. exact Hg.
Qed.
Lemma values_ok fds : forall is, Forall2 (at_index fs) is fds -> (forall fd, In fd fds -> f_many fd && negb (is_map fd) = false /\ rs_encodeLUT (kind_of (f_typ fd)) <> None) ->
  forall vs0 vs c e, EV E0 e c = emit RvCur c vs0 -> all_some (map piece is) = Some vs -> EV E0 (fold_left rs_encode_value fds e) c = emit RvCur c (vs0 ++ vs).
Proof.
  induction fds as [|fd fds IH]; intros is F H vs0 vs c e He C; inversion F as [|i ? is' ? F1 F2]; subst; [injection C as <-; rewrite app_nil_r; exact He|]. cbn [map] in C. destruct (all_some_cons _ _ _ C) as (a & b & C1 & C2 & ->). cbn [fold_left].
  unfold piece in C1. unfold at_index in F1. rewrite F1 in C1. destruct (nth_error xs i) as [x|] eqn:Hx; [|discriminate C1]. destruct (H fd (or_introl eq_refl)) as (H1 & H2).
  rewrite app_assoc. apply (IH is' F2); [intros g Hg; apply H; right; exact Hg| |exact C2]. exact (value_ok e i fd x c vs0 a F1 Hx H1 H2 C1 He).
Qed.
End Enc.
