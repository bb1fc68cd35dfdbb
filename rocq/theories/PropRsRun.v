(** Properties C97, C98: running generated Rust code. *)
From Coq Require Import String.
From Verif Require Import Base Spec Utf8 RustModel RustSpec GoSpec BufSpec GenTables NameModel NameSpec EmitModel EmitSpec EmitThms PkgThms GoAst GoEmit GoRunSpec GoCallSpec GoLink RsGenModel RsGenSpec RsAst RsEmit RsRunSpec RsRun1 RsRun3 RsRun5.
From Verif Require GenModel GenSpec GenTrace TraceSpec GenTraceEnd GenThms4 GenThms V1Model V2Model RsGenThms RsGenAny RsGenRound PropGoRun GoCalls GoCalls4 GoFrame PkgThms3 GenThms2.
Import GenModel (gval, GPrim, GList, GMap, GMsg).
Notation unlimited := TraceSpec.unlimited.
Local Open Scope list_scope.

(** Vec::with_capacity in the tree decoder of C61-C66 finds memory when the one in the program does *)
Definition room (f : filed) (alloc : rty -> Z -> bool) : rtype -> Z -> bool := fun t n => alloc (TyVec (elem_type f t)) n.

(** C97: T::decode(b).  For every file whose names do not clash and whose generated code compiles, every message of it, every
    Cursor, stack and allocator: running the generated function gives what the tree decoder of C61-C66 gives, the same
    struct, error, panic or overflow, and leaves the Cursor at the same place. *)
Theorem c97_rust_decode : forall rt alloc f p d i m c fuel, rs_names_apart f -> rs_compiles (rschema_of f) -> nth_error (messages_of f) i = Some m ->
  rs_run_decode rt alloc (rs_program p d f) fuel (camel (m_full m)) c = decoded f m (rs_decode rt (room f alloc) (rschema_of f) fuel i c).
Proof. intros rt alloc f p d i m c fuel NA CO Hm. exact (decode_ok rt alloc f p d NA (proj1 CO) fuel i m c Hm). Qed.
Print Assumptions c97_rust_decode.
Lemma in_rschema f i m : nth_error (messages_of f) i = Some m -> (i < length (rschema_of f))%nat.
Proof. intros H. unfold rschema_of. rewrite map_length. apply nth_error_Some. congruence. Qed.
(** On any input the program returns Ok(Some) of a struct of the message, Ok(None) or Err, with the Cursor moved forward inside its
    buffer; it panics only on 32-bit machines or for want of memory; otherwise the stack was too small. *)
Theorem c97_any_input : forall rt alloc f p d i m c fuel, rs_names_apart f -> rs_compiles (rschema_of f) -> nth_error (messages_of f) i = Some m -> cursor_ok rt c ->
  match rs_run_decode rt alloc (rs_program p d f) fuel (camel (m_full m)) c with
  | OGo (RvOk (RvSome v)) c' => forward c c' /\ exists xs, rust_struct (rschema_of f) xs i /\ v = rs_struct_value f m xs
  | OGo (RvOk RvNone) c' => forward c c'
  | OGo (RvErr (RvError e)) c' => forward c c' /\ (forall t, e = Remote t -> utf8 t)
  | ODie => W rt = 32 \/ exists t n, 0 <= n < 2 ^ 32 /\ alloc t n = false
  | ODeep => True
  | _ => False
  end.
Proof.
  intros rt alloc f p d i m c fuel NA CO Hm Hc. rewrite (c97_rust_decode rt alloc f p d i m c fuel NA CO Hm).
  pose proof (RsGenThms.rs_any_input rt (room f alloc) (rschema_of f) i c fuel CO (in_rschema f i m Hm) Hc) as X.
  destruct (rs_decode rt (room f alloc) (rschema_of f) fuel i c) as [[xs|] c'|e c'| | |]; cbn [decoded].
  - split; [apply X|]. exists xs. split; [apply X; reflexivity|reflexivity].
  - apply X.
  - exact X.
  - destruct X as [X|(t & n & Hn & X)]; [left; exact X|right]. exists (TyVec (elem_type f t)), n. split; [exact Hn|exact X].
  - exact I.
  - exact X.
Qed.
Print Assumptions c97_any_input.
(** A stack of a size linear in the input is enough. *)
Theorem c97_stack_bound : forall f, rs_names_apart f -> rs_compiles (rschema_of f) -> exists H, forall rt alloc p d i m c fuel, nth_error (messages_of f) i = Some m -> cursor_ok rt c ->
  Z.of_nat H * (1 + zlen (rest c)) <= Z.of_nat fuel -> rs_run_decode rt alloc (rs_program p d f) fuel (camel (m_full m)) c <> ODeep.
Proof.
  intros f NA CO. destruct (RsGenThms.rs_stack_bound (rschema_of f) CO) as (H & K). exists H. intros rt alloc p d i m c fuel Hm Hc HF. rewrite (c97_rust_decode rt alloc f p d i m c fuel NA CO Hm).
  specialize (K rt (room f alloc) i c fuel (in_rschema f i m Hm) Hc HF). destruct (rs_decode rt (room f alloc) (rschema_of f) fuel i c) as [[xs|] c'|e c'| | |]; cbn [decoded]; try discriminate. congruence.
Qed.
Print Assumptions c97_stack_bound.

(** C98: x.encode(b).  Every struct of every message, at every place of the buffer: running the generated function writes what
    C61 says and returns Ok(b). *)
Theorem c98_rust_encode : forall rt alloc f p d i m xs c fuel, rs_names_apart f -> rs_compiles (rschema_of f) -> nth_error (messages_of f) i = Some m ->
  rust_struct (rschema_of f) xs i -> 0 <= pos c <= zlen (buf c) -> (GenSpec.depth (GMsg (Some xs)) <= fuel)%nat ->
  rs_run_encode rt alloc (rs_program p d f) fuel (camel (m_full m)) (rs_struct_value f m xs) c =
    OGo (RvOk RvCur) (mkcur (put_at (buf c) (pos c) (bytes_of (rschema_of f) i xs)) (pos c + zlen (bytes_of (rschema_of f) i xs))).
Proof.
  intros rt alloc f p d i m xs c fuel NA CO Hm HT Hc HF.
  rewrite (encode_run rt alloc f p d NA (proj1 CO) fuel i m xs c _ Hm HF (RsGenThms.rs_encode_layout _ c i xs CO HT Hc)). reflexivity.
Qed.
Print Assumptions c98_rust_encode.
(** and what was encoded is decoded to the same struct (the conditions are those of C62). *)
Theorem c98_round_trip : forall rt rt' alloc alloc' f p d i m xs l c r fuel, rs_names_apart f -> rs_compiles (rschema_of f) -> nth_error (messages_of f) i = Some m ->
  rust_struct (rschema_of f) xs i -> (GenSpec.depth (GMsg (Some xs)) <= fuel)%nat -> affordable (room f alloc') (rschema_of f) (GMsg (Some xs)) (ROne (RMsg i)) ->
  anchored_all (rschema_of f) i xs \/ quiet r ->
  exists o, rs_run_encode rt alloc (rs_program p d f) fuel (camel (m_full m)) (rs_struct_value f m xs) (mkcur l (zlen l)) = OGo (RvOk RvCur) (mkcur (l ++ o) (zlen (l ++ o))) /\
    (cursor_ok rt' c -> rest c = o ++ r ->
     rs_run_decode rt' alloc' (rs_program p d f) fuel (camel (m_full m)) c = OGo (RvOk (RvSome (rs_struct_value f m xs))) (at_rest c r)).
Proof.
  intros rt rt' alloc alloc' f p d i m xs l c r fuel NA CO Hm HT HF HA HQ. exists (bytes_of (rschema_of f) i xs). split.
  - rewrite (encode_run rt alloc f p d NA (proj1 CO) fuel i m xs _ _ Hm HF (RsGenThms.rs_encode_append _ l i xs CO HT)). reflexivity.
  - intros Hc Hr. rewrite (c97_rust_decode rt' alloc' f p d i m c fuel NA CO Hm), (RsGenThms.rs_round_trip rt' (room f alloc') _ c i xs r fuel CO HT HA HQ Hc Hr HF). reflexivity.
Qed.
Print Assumptions c98_round_trip.
(** Between the running programs of the two languages.  The schema is the same. *)
Lemma same_schema f : rs_names_apart f -> forget (rschema_of f) = schema_of f.
Proof.
  intros NA. unfold forget, rschema_of, schema_of. rewrite map_map. apply map_ext_in. intros m Hm. rewrite map_map. apply map_ext_in. intros fd Hf. apply forget_field. apply (ra_known f NA m fd); [apply rms_has; exact Hm|exact Hf].
Qed.
(** What Go's Encode writes, Rust's decode reads: every struct that Rust has, with nil maps empty; the others are refused. *)
Theorem c98_go_v2_to_rust : forall W g rt alloc groom f p d i m v xs s buf l c r n fuel, names_apart true f -> rs_names_apart f -> GenModel.compiles (schema_of f) = true -> rs_compiles (rschema_of f) ->
  nth_error (messages_of f) i = Some m -> pointer_to (messages_of f) m (heap s) (Some xs) v -> go_struct (rschema_of f) xs i -> anchored_all (rschema_of f) i xs ->
  affordable (room f alloc) (rschema_of f) (GMsg (Some xs)) (ROne (RMsg i)) -> small_bytes (GenSpec.prims (GMsg (Some xs))) ->
  V2Model.wf buf -> V2Model.Bytes buf = Ok l -> (GenSpec.depth (GMsg (Some xs)) <= n)%nat -> (GenSpec.depth (GMsg (Some xs)) <= fuel)%nat ->
  exists cs buf' o, go2 W f groom n (Some (gotype m)) ".Encode" [v; GoBuffer] s = Fine ([], GoCallSpec.encoded s cs) /\
    V2Model.encode_all g buf cs = Ok buf' /\ V2Model.Bytes buf' = Ok (l ++ o) /\
    (cursor_ok rt c -> rest c = o ++ r ->
     (ready (rschema_of f) (GMsg (Some xs)) (ROne (RMsg i)) ->
        rs_run_decode rt alloc (rs_program p d f) fuel (camel (m_full m)) c = OGo (RvOk (RvSome (rs_struct_value f m (map settle xs)))) (at_rest c r)) /\
     (~ ready (rschema_of f) (GMsg (Some xs)) (ROne (RMsg i)) ->
        exists e c', rs_run_decode rt alloc (rs_program p d f) fuel (camel (m_full m)) c = OGo (RvErr (RvError e)) c')).
Proof.
  intros W g rt alloc groom f p d i m v xs s buf l c r n fuel NG NA CG CO Hm Hp HT HR HA HS HW HB HN HF.
  assert (HT' : GenSpec.struct_type (schema_of f) xs i) by (rewrite <- (same_schema f NA); exact HT).
  destruct (PropGoRun.c93_encode W f groom m i (Some xs) v n s CG Hm Hp HT') as (cs & C & _ & E). specialize (E NG). rewrite (proj2 (Nat.leb_le _ _) HN) in E.
  assert (CG' : GenModel.compiles (forget (rschema_of f)) = true) by (rewrite (same_schema f NA); exact CG).
  destruct (RsGenThms.go2_to_rust g (rschema_of f) buf i xs rt (room f alloc) fuel r CG' CO HT HR HA HF HW HS) as (buf' & l' & o & B1 & B2 & B3 & B4).
  rewrite HB in B1. injection B1 as <-. unfold GenModel.Encode2 in B2. rewrite (same_schema f NA), C in B2. injection B2 as B2.
  exists cs, buf', o. split; [exact E|]. split; [exact B2|]. split; [exact B3|]. intros Hc Hr. rewrite (c97_rust_decode rt alloc f p d i m c fuel NA CO Hm). destruct (B4 c Hc Hr) as (X & Y). split; intros K.
  - rewrite (X K). reflexivity.
  - destruct (Y K) as (e & c' & Z). rewrite Z. exists e, c'. reflexivity.
Qed.
Print Assumptions c98_go_v2_to_rust.
(** What Rust's encode writes, Go's Decode reads: the same struct, in new objects. *)
Theorem c98_rust_to_go_v2 : forall W rt alloc f p d i m xs l r n fuel, names_apart true f -> rs_names_apart f -> GenModel.compiles (schema_of f) = true -> rs_compiles (rschema_of f) ->
  nth_error (messages_of f) i = Some m -> rust_struct (rschema_of f) xs i -> anchored_all (rschema_of f) i xs -> bytes_ok r ->
  (GenSpec.depth (GMsg (Some xs)) <= n)%nat -> (GenSpec.depth (GMsg (Some xs)) <= fuel)%nat ->
  exists o, rs_run_encode rt alloc (rs_program p d f) fuel (camel (m_full m)) (rs_struct_value f m xs) (mkcur l (zlen l)) = OGo (RvOk RvCur) (mkcur (l ++ o) (zlen (l ++ o))) /\
    (int_ok W (o ++ r) -> forall s1, exists a s2 s3,
      new2 W f unlimited (S n) m s1 = Fine ([GoPtr (gotype m) (Some a)], s2) /\
      go2 W f unlimited (S n) (Some (gotype m)) ".Decode" [GoPtr (gotype m) (Some a); GoBase (VBytes (o ++ r))] s2 = Fine ([GoNil], s3) /\
      inp s3 = r /\ made_anew f m xs a (heap s1) (heap s3)).
Proof.
  intros W rt alloc f p d i m xs l r n fuel NG NA CG CO Hm HT HR Hr HN HF.
  assert (CG' : GenModel.compiles (forget (rschema_of f)) = true) by (rewrite (same_schema f NA); exact CG).
  assert (L : (i < length (schema_of f))%nat) by exact (GoCalls4.in_schema f i m Hm).
  assert (ZT : GenSpec.struct_type (schema_of f) (GenSpec.zero_struct (schema_of f) i) i) by (apply GenThms.zero_struct_type; assumption).
  destruct (RsGenThms.rust_to_go W (rschema_of f) l i xs (GenSpec.zero_struct (schema_of f) i) r n CG' CO HT HR) as (o & E & D & _);
    [unfold go_struct; rewrite (same_schema f NA); exact ZT|exact Hr|exact HN|].
  assert (Eo : o = bytes_of (rschema_of f) i xs).
  { pose proof (RsGenThms.rs_encode_append _ l i xs CO HT) as E'. rewrite E in E'. injection E' as E'. exact (app_inv_head _ _ _ E'). }
  exists o. split; [rewrite (encode_run rt alloc f p d NA (proj1 CO) fuel i m xs _ _ Hm HF E); reflexivity|]. intros Hi s1.
  destruct (proj1 (PropGoRun.c92_new W f unlimited m i n s1 CG Hm) NG) as (a & fp & s2 & N1 & N2 & N3 & _).
  assert (Hb : bytes_ok (o ++ r)).
  { apply Forall_app. split; [|exact Hr]. rewrite Eo. unfold bytes_of. rewrite (same_schema f NA). apply GenThms4.layout_ok; [exact CG|]. rewrite <- (same_schema f NA). apply HT. }
  pose proof (PropGoRun.c92_v2_decode W f unlimited m i a _ fp (o ++ r) n s2 NG CG Hm N2 ZT Hb Hi) as R.
  assert (T : snd (GenTrace.Trace2 W unlimited (schema_of f) n i (GenSpec.zero_struct (schema_of f) i) (o ++ r)) = GenTrace.TDone r xs).
  { pose proof (GenTraceEnd.trace2_outcome W (schema_of f) n i (GenSpec.zero_struct (schema_of f) i) (o ++ r)) as O.
    rewrite (same_schema f NA) in D. rewrite (D Hi) in O. destruct (snd (GenTrace.Trace2 _ _ _ _ _ _ _)); cbn [TraceSpec.outcome_of] in O; try discriminate O. injection O as -> ->. reflexivity. }
  unfold decode_ran in R. destruct (GenTrace.Trace2 W unlimited (schema_of f) n i (GenSpec.zero_struct (schema_of f) i) (o ++ r)) as (ms & t). cbn [snd] in T. subst t.
  destruct R as (s3 & D1 & D2 & (fp' & D3 & D4) & _). exists a, s2, s3. split; [exact N1|]. split; [exact D1|]. split; [exact D2|]. exists fp'. split; [exact D3|exact (GoFrame.only_trans _ _ _ _ _ _ N3 D4)].
Qed.
Print Assumptions c98_rust_to_go_v2.

(** ---- An instance: enum p.E { X; Y; } p.M { repeated string a; E e; N n; map<string, N> d; bytes c; repeated N ns; map<string, E> x; } p.N { string s; } ---- *)
Definition rs_ex_e : enumd := mkenum (text "p.E") [mkval (text "X") (text "p.X") 0; mkval (text "Y") (text "p.Y") 1].
Definition rs_ex_n : msgd := mkmsg (text "p.N") false [mkfield (text "s") (text "p.N.s") false (TScalar KString)] [] [].
Definition rs_ex_m : msgd := mkmsg (text "p.M") false
  [mkfield (text "a") (text "p.M.a") true (TScalar KString); mkfield (text "e") (text "p.M.e") false (TEnum (text "p.E"));
   mkfield (text "n") (text "p.M.n") false (TMsg (text "p.N")); mkfield (text "d") (text "p.M.d") true (TMap (TScalar KString) (TMsg (text "p.N")));
   mkfield (text "c") (text "p.M.c") false (TScalar KBytes); mkfield (text "ns") (text "p.M.ns") true (TMsg (text "p.N"));
   mkfield (text "x") (text "p.M.x") true (TMap (TScalar KString) (TEnum (text "p.E")))] [] [].
Definition rs_ex : filed := mkfiled [rs_ex_e] [rs_ex_m; rs_ex_n].
Definition rs_xs : list gval :=
  [GList [GPrim (VString (text "u"))]; GPrim (VU32 1); GMsg (Some [GPrim (VString (text "v"))]); GMap (Some [(VString (text "k"), GMsg (Some [GPrim (VString (text "w"))]))]);
   GPrim (VBytes [7]); GList [GMsg (Some [GPrim (VString [])])]; GMap (Some [(VString (text "q"), GPrim (VU32 0))])].
Lemma rs_ex_apart : rs_names_apart rs_ex.
Proof.
  assert (HM : forall m, has_message rs_ex m -> m = rs_ex_m \/ m = rs_ex_n) by (intros m H; apply rms_has in H; cbn in H; intuition auto).
  constructor.
  - vm_compute. repeat (constructor; [cbn; intuition discriminate|]). constructor.
  - intros n H. vm_compute in H. repeat (destruct H as [<-|H]; [vm_compute; intuition discriminate|]). destruct H.
  - intros m H. destruct (HM m H) as [-> | ->]; vm_compute; repeat (constructor; [cbn; intuition discriminate|]); constructor.
  - assert (KN : known_type rs_ex (TMsg (text "p.N"))) by (exists rs_ex_n; split; [apply rms_has; right; left; reflexivity|reflexivity]).
    assert (KE : known_type rs_ex (TEnum (text "p.E"))) by (exists rs_ex_e; split; [left; left; reflexivity|reflexivity]).
    assert (KS : known_type rs_ex (TScalar KString)) by (split; discriminate).
    intros m fd H Hf. destruct (HM m H) as [-> | ->]; cbn [m_fields rs_ex_m rs_ex_n In] in Hf;
    repeat (destruct Hf as [<-|Hf]; [first [exact KN|exact KE|exact (conj eq_refl (conj KS KN))|exact (conj eq_refl (conj KS KE))|split; discriminate]|]); destruct Hf.
Qed.
Lemma rs_ex_compiles : rs_compiles (rschema_of rs_ex).
Proof.
  assert (L : forall n, (n <> 0)%nat -> Acc (fun b a => embeds (rschema_of rs_ex) a b) n).
  { intros n N. constructor. intros b H. exfalso. destruct n as [|[|n]]; [congruence| |]; cbn in H; [intuition discriminate|]. destruct n; cbn in H; destruct H. }
  split; [reflexivity|]. intros [|m]; [|apply L; discriminate]. constructor. intros b H. apply L. intros ->. cbn in H. intuition discriminate.
Qed.
Lemma rs_ex_struct : rust_struct (rschema_of rs_ex) rs_xs 0.
Proof.
  split; [vm_compute; repeat split; repeat constructor; try discriminate; intros []|]. split; [|vm_compute; tauto].
  assert (U : Forall utf8 [text "u"; text "v"; text "w"; text "k"; text "q"; []]) by (repeat (constructor; [apply from_utf8_iff; reflexivity|]); constructor).
  rewrite Forall_forall in U. set (r := rschema_of rs_ex). vm_compute in r. subst r. cbn -[utf8]. repeat split; repeat (apply Forall_cons; [|]); try apply Forall_nil; try exact I; try lia; try (apply U; vm_compute; auto 10; fail).
Qed.
(** what the theorems about both languages ask for *)
Definition rs_heap : list obj :=
  [OStruct [(text "S", GoBase (VString (text "v")))]; OArray [GoBase (VString (text "u"))];
   OStruct [(text "S", GoBase (VString (text "w")))]; OMap [(VString (text "k"), GoPtr (text "PN") (Some 2%nat))];
   OStruct [(text "S", GoBase (VString []))]; OArray [GoPtr (text "PN") (Some 4%nat)]; OMap [(VString (text "q"), GoBase (VU32 0))];
   OStruct [(text "A", GoSlice (text "string") (Some 1%nat)); (text "E", GoBase (VU32 1)); (text "N", GoPtr (text "PN") (Some 0%nat));
     (text "D", GoMap (text "PMDMap") (Some 3%nat)); (text "C", GoBase (VBytes [7])); (text "Ns", GoSlice (text "*PN") (Some 5%nat)); (text "X", GoMap (text "PMXMap") (Some 6%nat))]].
Lemma rs_ex_heap : exists fp, struct_at (messages_of rs_ex) rs_heap 7 rs_ex_m rs_xs fp.
Proof.
  assert (KN : nth_error (messages_of rs_ex) (position (text "p.N") (messages_of rs_ex)) = Some rs_ex_n) by reflexivity.
  assert (RN : forall fd a p, f_many fd = false -> f_typ fd = TMsg (text "p.N") -> nth_error rs_heap a = Some (OStruct [(text "S", GoBase (VString p))]) ->
    rep (messages_of rs_ex) rs_heap fd (GMsg (Some [GPrim (VString p)])) (GoPtr (camel (text "p.N")) (Some a)) [a]).
  { intros fd a p H1 H2 H3. eapply rep_msg with (vs := [_]) (fp := []); [exact H1|exact H2|exact KN|exact H3|]. apply (reps_cons _ _ _ _ _ [] [] [] [] []); [apply rep_base; reflexivity|apply reps_nil]. }
  eexists. eexists (_ :: _ :: _ :: _ :: _ :: _ :: _ :: nil). split; [reflexivity|]. split.
  - cbn [rs_ex_m m_fields rs_xs]. apply reps_cons.
    { eapply rep_list; [reflexivity|reflexivity|reflexivity|vm_compute; reflexivity|]. cbn [length repeat]. repeat (apply reps_cons; [apply rep_base; reflexivity|]). apply reps_nil. }
    apply reps_cons; [apply rep_base; reflexivity|]. apply reps_cons.
    { apply RN; reflexivity. }
    apply reps_cons.
    { eapply rep_map with (vs := [_]); [reflexivity|reflexivity|]. cbn [map snd length repeat]. apply reps_cons; [|apply reps_nil].
      apply RN; reflexivity. }
    apply reps_cons; [apply rep_base; reflexivity|]. apply reps_cons; [|apply reps_cons; [|apply reps_nil]].
    { eapply rep_list; [reflexivity|reflexivity|reflexivity|vm_compute; reflexivity|]. cbn [length repeat]. apply reps_cons; [|apply reps_nil].
      apply RN; reflexivity. }
    eapply rep_map with (vs := [_]); [reflexivity|reflexivity|]. cbn [map snd length repeat]. apply reps_cons; [|apply reps_nil]. apply rep_base; reflexivity.
  - cbn [app]. repeat (constructor; [cbn; intuition discriminate|]). constructor.
Qed.
Example c98_go_example : names_apart true rs_ex /\ GenModel.compiles (schema_of rs_ex) = true /\ (exists fp, struct_at (messages_of rs_ex) rs_heap 7 rs_ex_m rs_xs fp) /\
  anchored_all (rschema_of rs_ex) 0 rs_xs /\ affordable (room rs_ex (fun _ _ => true)) (rschema_of rs_ex) (GMsg (Some rs_xs)) (ROne (RMsg 0)) /\
  small_bytes (GenSpec.prims (GMsg (Some rs_xs))) /\ ready (rschema_of rs_ex) (GMsg (Some rs_xs)) (ROne (RMsg 0)) /\ GenSpec.depth (GMsg (Some rs_xs)) = 2%nat.
Proof.
  assert (HM : forall m, has_message rs_ex m -> m = rs_ex_m \/ m = rs_ex_n) by (intros m H; apply rms_has in H; cbn in H; intuition auto). split.
  { constructor.
    - intros n H. apply PkgThms3.identb_ok. revert H. vm_compute. intros H. repeat (destruct H as [<-|H]; [reflexivity|]); destruct H.
    - vm_compute. repeat (constructor; [cbn; intuition discriminate|]). constructor.
    - intros m H. destruct (HM m H) as [-> | ->]; vm_compute; repeat (constructor; [cbn; intuition discriminate|]); constructor.
    - intros m fd H Hf _ _. destruct (HM m H) as [-> | ->]; cbn [m_fields rs_ex_m rs_ex_n In] in Hf; repeat (destruct Hf as [<-|Hf]; [vm_compute; intuition discriminate|]); destruct Hf.
    - intros m fd k s H Hf _. vm_compute. intuition discriminate.
    - exact (ra_known rs_ex rs_ex_apart). }
  split; [reflexivity|]. split; [exact rs_ex_heap|]. split.
  { apply GenThms2.plain_readable; [|apply rs_ex_struct]. intros [|[|m]] fs H; try (injection H as <-; reflexivity). destruct m; discriminate H. }
  split; [vm_compute; tauto|]. split; [intros p H; vm_compute in H; repeat (destruct H as [H|H]; [try discriminate H; injection H as <-; reflexivity|]); destruct H|]. split; [apply rs_ex_struct|reflexivity].
Qed.
(** What runs: encode, decode of what it wrote, and decode of a prefix of it. *)
Definition rs_ex_rt : runtime := mkrt true 64.
Definition rs_ex_prog : list rdecl := rs_program [] (mkdeps true true) rs_ex.
Definition rs_ex_v : rv := rs_struct_value rs_ex rs_ex_m rs_xs.
Example c97_example : rs_names_apart rs_ex /\ rs_compiles (rschema_of rs_ex) /\ nth_error (messages_of rs_ex) 0 = Some rs_ex_m /\ rust_struct (rschema_of rs_ex) rs_xs 0 /\
  rs_ex_v = RvStruct (text "PM") [(text "a", RvVec [RvPrim (VString (text "u"))]); (text "e", RvEnum (text "PE") 1); (text "n", RvStruct (text "PN") [(text "s", RvPrim (VString (text "v")))]);
    (text "d", RvHash [(VString (text "k"), RvStruct (text "PN") [(text "s", RvPrim (VString (text "w")))])]); (text "c", RvPrim (VBytes [7]));
    (text "ns", RvVec [RvStruct (text "PN") [(text "s", RvPrim (VString []))]]); (text "x", RvHash [(VString (text "q"), RvEnum (text "PE") 0)])].
Proof. split; [exact rs_ex_apart|]. split; [exact rs_ex_compiles|]. split; [reflexivity|]. split; [exact rs_ex_struct|reflexivity]. Qed.
Example c98_example :
  let bytes := bytes_of (rschema_of rs_ex) 0 rs_xs in
  let all _ _ := true in
  rs_run_encode rs_ex_rt all rs_ex_prog 2 (text "PM") rs_ex_v (mkcur [] 0) = OGo (RvOk RvCur) (mkcur bytes (zlen bytes)) /\
  rs_run_decode rs_ex_rt all rs_ex_prog 2 (text "PM") (mkcur bytes 0) = OGo (RvOk (RvSome rs_ex_v)) (mkcur bytes (zlen bytes)) /\
  rs_run_decode rs_ex_rt all rs_ex_prog 2 (text "PM") (mkcur (firstn 20 bytes) 0) = OGo (RvErr (RvError (Decoding InvalidU32))) (mkcur (firstn 20 bytes) 20) /\
  rs_run_decode rs_ex_rt all rs_ex_prog 1 (text "PM") (mkcur bytes 0) = ODeep /\
  rs_run_encode rs_ex_rt all rs_ex_prog 1 (text "PM") rs_ex_v (mkcur [] 0) = ODeep.
Proof. repeat split; vm_compute; reflexivity. Qed.

(** Refuted: that distinct type names are enough.  A message Vec hides the library's Vec in the generated functions of every
    message with a repeated field: Vec::with_capacity does not exist, and the file does not compile. *)
Definition vec_m : msgd := mkmsg (text "Vec") false [mkfield (text "s") (text "Vec.s") true (TScalar KString)] [] [].
Definition vec_f : filed := mkfiled [] [vec_m].
Theorem c97_hidden_library_type_refuted : NoDup (flat_map rs_type (rs_file vec_f)) /\ rs_compiles (rschema_of vec_f) /\ ~ rs_names_apart vec_f /\
  forall alloc p d fuel, rs_run_decode rs_ex_rt alloc (rs_program p d vec_f) (S fuel) (camel (m_full vec_m)) (mkcur [1; 5; 10; 0] 0) = OStuck.
Proof.
  split; [vm_compute; repeat constructor; intros []|]. split; [split; [reflexivity|intros m; constructor; intros b H; destruct m as [|[|m]]; cbn in H; intuition discriminate]|]. split.
  - intros NA. apply (ra_prelude vec_f NA (text "Vec")); vm_compute; auto.
  - intros alloc p [e mp] fuel. destruct e, mp; vm_compute; reflexivity.
Qed.
Print Assumptions c97_hidden_library_type_refuted.
