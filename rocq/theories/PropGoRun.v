(** Properties C92, C93: running generated Go code, in memory. *)
From Coq Require Import String.
From Verif Require Import Base Spec GoSpec BufSpec GenTables GenModel GenSpec GenLemmas GenFields GenTerm GenTerm2 GenTerm4 GenTerm5 GenThms GenThms2 GenThms3 GenTrace GenTraceInv TraceSpec GenTraceEnd NameModel NameSpec EmitModel EmitSpec EmitThms PkgThms GoAst GoEmit GoRunSpec GoCallSpec GoLink GoFrame GoSlices GoCalls2 GoCalls3 GoCalls4.
From Verif Require V1Model V2Model GenThms4 PkgThms3 GoCalls.
Local Open Scope list_scope.

Lemma decode2_zero W S m xs r fuel : compiles S = true -> struct_type S xs m -> readable S (GMsg (Some xs)) (One (Msg m)) -> tidy false (GMsg (Some xs)) ->
  bytes_ok r -> int_ok W (layout S (GMsg (Some xs)) (One (Msg m)) ++ r) -> (depth (GMsg (Some xs)) <= fuel)%nat ->
  Decode2 W S fuel m (Some (zero_struct S m)) (layout S (GMsg (Some xs)) (One (Msg m)) ++ r) = Some (GDone r xs).
Proof.
  intros HC HT HR HTi Hr Hi HF. destruct (decode2_fresh W S m xs r fuel HC HT HR HTi Hr Hi HF) as (s & Es & Ds).
  rewrite New_v2 in Es by (apply ht_msg in HT; apply HT). injection Es as <-. exact Ds.
Qed.

(** C92: x.Decode(b).  For every file whose names do not clash and whose schema compiles, every message of it, every
    memory in which x points at a struct no part of which occurs twice, every input, every stack and every allocator:
    the generated method returns what the tree decoder of C46-C49, C73-C78 returns, and leaves at x the struct which
    that decoder leaves, made of old parts of it and new objects; no other object changes. *)
Theorem c92_v1_decode : forall W f room m mi a xs fp b n s, names_apart false f -> compiles (schema_of f) = true ->
  nth_error (messages_of f) mi = Some m -> struct_at (messages_of f) (heap s) a m xs fp -> struct_type (schema_of f) xs mi -> bytes_ok b -> int_ok W b ->
  decode_ran (messages_of f) m a fp s (go1 W f room (S n) (Some (gotype m)) ".Decode" [GoPtr (gotype m) (Some a); GoBase (VBytes b)] s)
    (Trace1 W room (schema_of f) n mi xs b).
Proof. intros. apply decode1_runs; assumption. Qed.
Print Assumptions c92_v1_decode.
Theorem c92_v2_decode : forall W f room m mi a xs fp b n s, names_apart true f -> compiles (schema_of f) = true ->
  nth_error (messages_of f) mi = Some m -> struct_at (messages_of f) (heap s) a m xs fp -> struct_type (schema_of f) xs mi -> bytes_ok b -> int_ok W b ->
  decode_ran (messages_of f) m a fp s (go2 W f room (S n) (Some (gotype m)) ".Decode" [GoPtr (gotype m) (Some a); GoBase (VBytes b)] s)
    (Trace2 W room (schema_of f) n mi xs b).
Proof. intros. apply decode2_runs; assumption. Qed.
Print Assumptions c92_v2_decode.
(** Decode on any input, with enough memory: what C48 says of the stack holds of the running program.  It returns nil or an
    error with a struct of the message at x, or panics (where the library does, C14). *)
Theorem c92_v2_returns : forall W f, names_apart true f -> compiles (schema_of f) = true ->
  (forall m, (m < length (schema_of f))%nat -> well_founded_at true (schema_of f) m) ->
  exists R, forall m mi a xs fp b n s, nth_error (messages_of f) mi = Some m -> struct_at (messages_of f) (heap s) a m xs fp ->
    struct_type (schema_of f) xs mi -> bytes_ok b -> int_ok W b -> ((length b + 1) * R <= n)%nat ->
    go2 W f unlimited (S n) (Some (gotype m)) ".Decode" [GoPtr (gotype m) (Some a); GoBase (VBytes b)] s = Panics \/
    exists v ys fp' s', go2 W f unlimited (S n) (Some (gotype m)) ".Decode" [GoPtr (gotype m) (Some a); GoBase (VBytes b)] s = Fine ([v], s') /\
      (v = GoNil \/ exists e, v = GoError (Some e)) /\ struct_at (messages_of f) (heap s') a m ys fp' /\ struct_type (schema_of f) ys mi.
Proof.
  intros W f NA CO WF. destruct (terminates2 W (schema_of f) CO WF) as (R & HR). exists R. intros m mi a xs fp b n s Hm Hs HT Hb Hi Hn.
  pose proof (c92_v2_decode W f unlimited m mi a xs fp b n s NA CO Hm Hs HT Hb Hi) as D.
  destruct (HR mi xs b n (in_schema f mi m Hm) HT Hb Hi Hn) as (y & E & Ry).
  pose proof (trace2_outcome W (schema_of f) n mi xs b) as O. rewrite E in O. injection O as O.
  destruct (trace2_tf W (schema_of f) n mi xs b CO HT (conj Hb Hi)) as (_ & K).
  destruct (Trace2 W unlimited (schema_of f) n mi xs b) as (l & t). cbn [snd] in *. rewrite <- O in Ry.
  destruct t as [r ys|e ys| | |]; cbn [outcome_of GenSpec.returns] in Ry; try destruct Ry; cbn [decode_ran] in D.
  - destruct D as (s' & D1 & D2 & (fp' & D3 & D4) & _). right. exists GoNil, ys, fp', s'. split; [exact D1|]. split; [left; reflexivity|]. split; [exact D3|]. apply K.
  - destruct D as (s' & D1 & (fp' & D3 & D4) & _). right. exists (GoError (Some e)), ys, fp', s'. split; [exact D1|]. split; [right; eexists; reflexivity|]. split; [exact D3|]. apply K.
  - left. exact D.
Qed.
Print Assumptions c92_v2_returns.
Theorem c92_v1_returns : forall W f, names_apart false f -> compiles (schema_of f) = true ->
  (forall m, (m < length (schema_of f))%nat -> Acc (fun b a => creates (schema_of f) a b) m) ->
  exists R K, forall m mi a xs fp b n s, nth_error (messages_of f) mi = Some m -> struct_at (messages_of f) (heap s) a m xs fp ->
    struct_type (schema_of f) xs mi -> bytes_ok b -> int_ok W b -> ((length b + 1) * R + K <= n)%nat ->
    go1 W f unlimited (S n) (Some (gotype m)) ".Decode" [GoPtr (gotype m) (Some a); GoBase (VBytes b)] s = Panics \/
    exists v ys fp' s', go1 W f unlimited (S n) (Some (gotype m)) ".Decode" [GoPtr (gotype m) (Some a); GoBase (VBytes b)] s = Fine ([v], s') /\
      (v = GoNil \/ exists e, v = GoError (Some e)) /\ struct_at (messages_of f) (heap s') a m ys fp' /\ struct_type (schema_of f) ys mi.
Proof.
  intros W f NA CO WF. destruct (terminates1 W (schema_of f) CO WF) as (R & K0 & HR). exists R, K0. intros m mi a xs fp b n s Hm Hs HT Hb Hi Hn.
  pose proof (c92_v1_decode W f unlimited m mi a xs fp b n s NA CO Hm Hs HT Hb Hi) as D.
  destruct (HR mi xs b n (in_schema f mi m Hm) HT Hb Hi Hn) as (y & E & Ry).
  pose proof (trace1_outcome W (schema_of f) n mi xs b) as O. rewrite E in O. injection O as O.
  destruct (trace1_tf W (schema_of f) n mi xs b CO HT (conj Hb Hi)) as (_ & K).
  destruct (Trace1 W unlimited (schema_of f) n mi xs b) as (l & t). cbn [snd] in *. rewrite <- O in Ry.
  destruct t as [r ys|e ys| | |]; cbn [outcome_of GenSpec.returns] in Ry; try destruct Ry; cbn [decode_ran] in D.
  - destruct D as (s' & D1 & D2 & (fp' & D3 & D4) & _). right. exists GoNil, ys, fp', s'. split; [exact D1|]. split; [left; reflexivity|]. split; [exact D3|]. apply K.
  - destruct D as (s' & D1 & (fp' & D3 & D4) & _). right. exists (GoError (Some e)), ys, fp', s'. split; [exact D1|]. split; [right; eexists; reflexivity|]. split; [exact D3|]. apply K.
  - left. exact D.
Qed.
Print Assumptions c92_v1_returns.
(** With a message type that contains itself without a repeated field, a map or a scalar in between, seven bytes overflow
    every stack (version 2). *)
Theorem c92_v2_overflow_refuted : forall W f m mi a xs fp n s, names_apart true f -> compiles (schema_of f) = true -> W = 64 \/ W = 32 ->
  nth_error (messages_of f) mi = Some m -> struct_at (messages_of f) (heap s) a m xs fp -> struct_type (schema_of f) xs mi ->
  ~ well_founded_at true (schema_of f) mi ->
  go2 W f unlimited (S n) (Some (gotype m)) ".Decode" [GoPtr (gotype m) (Some a); GoBase (VBytes bad_input)] s = Deep.
Proof.
  intros W f m mi a xs fp n s NA CO HW Hm Hs HT NW. assert (Hb : bytes_ok bad_input) by (repeat (constructor; [unfold isbyte; lia|]); constructor).
  assert (Hi : int_ok W bad_input) by (split; [exact HW|destruct HW as [-> | ->]; reflexivity]).
  pose proof (c92_v2_decode W f unlimited m mi a xs fp bad_input n s NA CO Hm Hs HT Hb Hi) as D.
  pose proof (overflows W (schema_of f) mi xs n CO HW (in_schema f mi m Hm) HT NW) as E. pose proof (trace2_outcome W (schema_of f) n mi xs bad_input) as O. rewrite E in O. injection O as O.
  destruct (Trace2 W unlimited (schema_of f) n mi xs bad_input) as (l & t). cbn [snd] in O. destruct t; try discriminate O. exact D.
Qed.
Print Assumptions c92_v2_overflow_refuted.
(** With a nil receiver Decode returns the error in the package's variable and does nothing. *)
Theorem c92_nil_receiver : forall W f room m b n s, has_message f m ->
  (names_apart false f -> go1 W f room (S n) (Some (gotype m)) ".Decode" [GoPtr (gotype m) None; GoBase (VBytes b)] s = Fine ([GoOwn (text "NilDecode")], s)) /\
  (names_apart true f -> go2 W f room (S n) (Some (gotype m)) ".Decode" [GoPtr (gotype m) None; GoBase (VBytes b)] s = Fine ([GoOwn (text "ErrDecodeNil")], s)).
Proof. intros W f room m b n s Hm. split; intros NA; [exact (decode_nil_runs false f room _ NA m b n s Hm)|exact (decode_nil_runs true f room _ NA m b n s Hm)]. Qed.
Print Assumptions c92_nil_receiver.
(** NewM() makes a new struct that holds what the tree model says; in version 1 it overflows the stack exactly if that does. *)
Theorem c92_new : forall W f room m mi n s, compiles (schema_of f) = true -> nth_error (messages_of f) mi = Some m ->
  (names_apart true f -> new_struct f m (zero_struct (schema_of f) mi) s (new2 W f room (S n) m s)) /\
  (names_apart false f -> match New false (schema_of f) (S n) mi with
    | GDone _ xs => new_struct f m xs s (new1 W f room (S n) m s)
    | GDeep => new1 W f room (S n) m s = Deep
    | _ => False
    end).
Proof.
  intros W f room m mi n s CO Hm. split; intros NA.
  - pose proof (new_runs true f room _ NA CO (sound2 W) m mi n s Hm) as H. rewrite New_v2 in H by exact (in_schema f mi m Hm).
    destruct H as (s' & a & fp & H). exists a, fp, s'. exact H.
  - pose proof (new_runs false f room _ NA CO (sound1 W) m mi n s Hm) as H. destruct (New false (schema_of f) (S n) mi); try exact H.
    destruct H as (s' & a & fp & H). exists a, fp, s'. exact H.
Qed.
Print Assumptions c92_new.

(** C93: x.Encode(b).  Whatever x points at (nil, or a struct whose parts may be shared): the encoder calls are those of
    the tree it stands for (C58 says which bytes they are), memory and everything else stay as they were, and the stack
    needed is exactly the depth of that tree. *)
Theorem c93_encode : forall W f room m mi x v n s, compiles (schema_of f) = true -> nth_error (messages_of f) mi = Some m ->
  pointer_to (messages_of f) m (heap s) x v -> has_type (schema_of f) (GMsg x) (One (Msg mi)) ->
  exists l, calls (schema_of f) (GMsg x) (One (Msg mi)) = Some l /\
    (names_apart false f -> go1 W f room n (Some (gotype m)) ".Encode" [v; GoBuffer] s = if Nat.leb (depth (GMsg x)) n then Fine ([], encoded s l) else Deep) /\
    (names_apart true f -> go2 W f room n (Some (gotype m)) ".Encode" [v; GoBuffer] s = if Nat.leb (depth (GMsg x)) n then Fine ([], encoded s l) else Deep).
Proof.
  intros W f room m mi x v n s CO Hm Hp HT. destruct (calls_total _ CO _ _ HT) as (l & C & _). { cbn [field_compiles]. apply Nat.ltb_lt. exact (in_schema f mi m Hm). }
  exists l. split; [exact C|]. split; intros NA.
  - destruct (public_encode false f room (V1Model.decode W) NA CO m mi x v n s Hm (position_of _ _ _ _ NA Hm) Hp HT) as (l' & C' & E). rewrite C in C'. injection C' as <-. exact E.
  - destruct (public_encode true f room (fun dst => V2Model.decode W (V1Model.oget dst)) NA CO m mi x v n s Hm (position_of _ _ _ _ NA Hm) Hp HT) as (l' & C' & E). rewrite C in C'. injection C' as <-. exact E.
Qed.
Print Assumptions c93_encode.
(** x.Error(b, err) encodes the error and nothing else, whatever x is. *)
Theorem c93_error : forall W f room m v p n s, has_message f m ->
  (names_apart false f -> go1 W f room (S n) (Some (gotype m)) ".Error" [v; GoBuffer; GoBase (VError p)] s = Fine ([], encoded s [VError p])) /\
  (names_apart true f -> go2 W f room (S n) (Some (gotype m)) ".Error" [v; GoBuffer; GoBase (VError p)] s = Fine ([], encoded s [VError p])).
Proof. intros W f room m v p n s Hm. split; intros NA; [exact (public_error false f room _ NA m v p n s Hm)|exact (public_error true f room _ NA m v p n s Hm)]. Qed.
Print Assumptions c93_error.

(** The round trip in memory, version 2: encode what v points at; then, in any memory, make a struct and decode the bytes
    into it.  It holds what v pointed at, it is made of new objects only, and no object that was there has changed. *)
Theorem c93_v2_round_trip : forall W g f m mi v xs s buf l r n, names_apart true f -> compiles (schema_of f) = true ->
  nth_error (messages_of f) mi = Some m -> pointer_to (messages_of f) m (heap s) (Some xs) v -> struct_type (schema_of f) xs mi ->
  readable (schema_of f) (GMsg (Some xs)) (One (Msg mi)) -> tidy false (GMsg (Some xs)) -> small_bytes (prims (GMsg (Some xs))) ->
  V2Model.wf buf -> V2Model.Bytes buf = Ok l -> bytes_ok r -> (depth (GMsg (Some xs)) <= n)%nat ->
  exists cs buf' bs, go2 W f unlimited n (Some (gotype m)) ".Encode" [v; GoBuffer] s = Fine ([], encoded s cs) /\
    V2Model.encode_all g buf cs = Ok buf' /\ V2Model.Bytes buf' = Ok (l ++ bs) /\
    (int_ok W (bs ++ r) -> forall s1, exists a s2 s3,
      new2 W f unlimited (S n) m s1 = Fine ([GoPtr (gotype m) (Some a)], s2) /\
      go2 W f unlimited (S n) (Some (gotype m)) ".Decode" [GoPtr (gotype m) (Some a); GoBase (VBytes (bs ++ r))] s2 = Fine ([GoNil], s3) /\
      inp s3 = r /\ made_anew f m xs a (heap s1) (heap s3)).
Proof.
  intros W g f m mi v xs s buf l r n NA CO Hm Hp HT HR HTi HS HW HB Hr HF.
  destruct (c93_encode W f unlimited m mi (Some xs) v n s CO Hm Hp HT) as (cs & C & _ & E). specialize (E NA). rewrite (proj2 (Nat.leb_le _ _) HF) in E.
  destruct (encode2_layout g _ buf mi xs CO HT HW HS) as (buf' & l' & E1 & E2 & _ & E3). rewrite HB in E1. injection E1 as <-.
  unfold Encode2 in E2. rewrite C in E2. injection E2 as E2. set (bs := layout (schema_of f) (GMsg (Some xs)) (One (Msg mi))) in *.
  exists cs, buf', bs. split; [exact E|]. split; [exact E2|]. split; [exact E3|]. intros Hi s1.
  destruct (proj1 (c92_new W f unlimited m mi n s1 CO Hm) NA) as (a & fp & s2 & N1 & N2 & N3 & _).
  assert (ZT : struct_type (schema_of f) (zero_struct (schema_of f) mi) mi) by (apply zero_struct_type; [exact CO|exact (in_schema f mi m Hm)]).
  assert (Hbs : bytes_ok (bs ++ r)) by (apply Forall_app; split; [apply GenThms4.layout_ok; assumption|exact Hr]).
  pose proof (c92_v2_decode W f unlimited m mi a _ fp (bs ++ r) n s2 NA CO Hm N2 ZT Hbs Hi) as D.
  assert (T : snd (Trace2 W unlimited (schema_of f) n mi (zero_struct (schema_of f) mi) (bs ++ r)) = TDone r xs).
  { pose proof (trace2_outcome W (schema_of f) n mi (zero_struct (schema_of f) mi) (bs ++ r)) as O.
    pose proof (decode2_zero W _ mi xs r n CO HT HR HTi Hr Hi HF) as Q. fold bs in Q. rewrite Q in O. destruct (snd (Trace2 _ _ _ _ _ _ _)); cbn [outcome_of] in O; try discriminate O. injection O as -> ->. reflexivity. }
  unfold decode_ran in D. destruct (Trace2 W unlimited (schema_of f) n mi (zero_struct (schema_of f) mi) (bs ++ r)) as (ms & t). cbn [snd] in T. subst t.
  destruct D as (s3 & D1 & D2 & (fp' & D3 & D4) & _). exists a, s2, s3. split; [exact N1|]. split; [exact D1|]. split; [exact D2|]. exists fp'. split; [exact D3|exact (only_trans _ _ _ _ _ _ N3 D4)].
Qed.
Print Assumptions c93_v2_round_trip.
(** Version 1: for messages without nil, with a stack on which every New returns. *)
Theorem c93_v1_round_trip : forall W g f m mi v xs s buf r K n, names_apart false f -> compiles (schema_of f) = true -> new_ok (schema_of f) K ->
  nth_error (messages_of f) mi = Some m -> pointer_to (messages_of f) m (heap s) (Some xs) v -> struct_type (schema_of f) xs mi ->
  readable (schema_of f) (GMsg (Some xs)) (One (Msg mi)) -> no_nil (GMsg (Some xs)) ->
  V1Model.wf buf -> bytes_ok r -> (depth (GMsg (Some xs)) + K <= n)%nat ->
  exists cs buf' bs, go1 W f unlimited n (Some (gotype m)) ".Encode" [v; GoBuffer] s = Fine ([], encoded s cs) /\
    V1Model.encode_all g buf cs = Ok buf' /\ V1Model.Bytes buf' = V1Model.Bytes buf ++ bs /\
    (int_ok W (bs ++ r) -> forall s1, exists a s2 s3,
      new1 W f unlimited (S n) m s1 = Fine ([GoPtr (gotype m) (Some a)], s2) /\
      go1 W f unlimited (S n) (Some (gotype m)) ".Decode" [GoPtr (gotype m) (Some a); GoBase (VBytes (bs ++ r))] s2 = Fine ([GoNil], s3) /\
      inp s3 = r /\ made_anew f m xs a (heap s1) (heap s3)).
Proof.
  intros W g f m mi v xs s buf r K n NA CO NO Hm Hp HT HR HN HW Hr HF.
  destruct (c93_encode W f unlimited m mi (Some xs) v n s CO Hm Hp HT) as (cs & C & E & _). specialize (E NA). rewrite (proj2 (Nat.leb_le (depth (GMsg (Some xs))) n) ltac:(lia)) in E.
  destruct (encode1_layout g _ buf mi xs CO HT HW) as (buf' & E2 & _ & E3).
  unfold Encode1 in E2. rewrite C in E2. injection E2 as E2. set (bs := layout (schema_of f) (GMsg (Some xs)) (One (Msg mi))) in *.
  exists cs, buf', bs. split; [exact E|]. split; [exact E2|]. split; [exact E3|]. intros Hi s1.
  pose proof (proj2 (c92_new W f unlimited m mi n s1 CO Hm) NA) as N. destruct (NO mi (in_schema f mi m Hm)) as (q & z & Ez).
  destruct (New_mono false (schema_of f) K (S n) mi ltac:(lia)) as [M|M]; [congruence|]. rewrite <- M, Ez in N. destruct N as (a & fp & s2 & N1 & N2 & N3 & _).
  assert (ZT : struct_type (schema_of f) z mi) by apply (New_v1_ok (schema_of f) CO _ _ _ _ Ez).
  assert (Hbs : bytes_ok (bs ++ r)) by (apply Forall_app; split; [apply GenThms4.layout_ok; assumption|exact Hr]).
  pose proof (c92_v1_decode W f unlimited m mi a _ fp (bs ++ r) n s2 NA CO Hm N2 ZT Hbs Hi) as D.
  assert (T : snd (Trace1 W unlimited (schema_of f) n mi z (bs ++ r)) = TDone r xs).
  { pose proof (trace1_outcome W (schema_of f) n mi z (bs ++ r)) as O.
    pose proof (decode1_reuse W (schema_of f) K mi xs z r n CO NO HT HR HN ZT Hr Hi HF) as Q. fold bs in Q. rewrite Q in O. destruct (snd (Trace1 _ _ _ _ _ _ _)); cbn [outcome_of] in O; try discriminate O. injection O as -> ->. reflexivity. }
  unfold decode_ran in D. destruct (Trace1 W unlimited (schema_of f) n mi z (bs ++ r)) as (ms & t). cbn [snd] in T. subst t.
  destruct D as (s3 & D1 & D2 & (fp' & D3 & D4) & _). exists a, s2, s3. split; [exact N1|]. split; [exact D1|]. split; [exact D2|]. exists fp'. split; [exact D3|exact (only_trans _ _ _ _ _ _ N3 D4)].
Qed.
Print Assumptions c93_v1_round_trip.

(** ---- An instance: enum p.E; p.M { repeated int32 a; E e; N n; map<string, N> d; bytes c; repeated N ns; }; p.N { string s; } ---- *)
Definition go_e : enumd := mkenum (text "p.E") [mkval (text "X") (text "p.X") 0; mkval (text "Y") (text "p.Y") 1].
Definition go_n : msgd := mkmsg (text "p.N") false [mkfield (text "s") (text "p.N.s") false (TScalar KString)] [] [].
Definition go_m : msgd := mkmsg (text "p.M") false
  [mkfield (text "a") (text "p.M.a") true (TScalar KInt32); mkfield (text "e") (text "p.M.e") false (TEnum (text "p.E"));
   mkfield (text "n") (text "p.M.n") false (TMsg (text "p.N")); mkfield (text "d") (text "p.M.d") true (TMap (TScalar KString) (TMsg (text "p.N")));
   mkfield (text "c") (text "p.M.c") false (TScalar KBytes); mkfield (text "ns") (text "p.M.ns") true (TMsg (text "p.N"))] [] [].
Definition go_ex : filed := mkfiled [go_e] [go_m; go_n].
Definition go_heap : list obj :=
  [OStruct [(text "S", GoBase (VString (text "u")))]; OArray [GoBase (VI32 3); GoBase (VI32 (-4))];
   OStruct [(text "S", GoBase (VString (text "v")))]; OMap [(VString (text "k"), GoPtr (text "PN") (Some 2%nat))];
   OStruct [(text "S", GoBase (VString []))]; OArray [GoPtr (text "PN") (Some 4%nat)];
   OStruct [(text "A", GoSlice (text "int32") (Some 1%nat)); (text "E", GoBase (VU32 1)); (text "N", GoPtr (text "PN") (Some 0%nat));
     (text "D", GoMap (text "PMDMap") (Some 3%nat)); (text "C", GoBase (VBytes [7])); (text "Ns", GoSlice (text "*PN") (Some 5%nat))]].
Definition go_st : st := mkst [] go_heap [] [] [].
Definition go_xs : list gval :=
  [GList [GPrim (VI32 3); GPrim (VI32 (-4))]; GPrim (VU32 1); GMsg (Some [GPrim (VString (text "u"))]);
   GMap (Some [(VString (text "k"), GMsg (Some [GPrim (VString (text "v"))]))]); GPrim (VBytes [7]); GList [GMsg (Some [GPrim (VString [])])]].
Lemma go_ex_apart v2 : names_apart v2 go_ex.
Proof.
  assert (HM : forall m, has_message go_ex m -> m = go_m \/ m = go_n).
  { intros m H. apply ms_has in H. cbn in H. intuition auto. }
  constructor.
  - intros n H. apply PkgThms3.identb_ok. revert H. destruct v2; vm_compute; intros H;
    repeat (destruct H as [<-|H]; [reflexivity|]); destruct H.
  - destruct v2; vm_compute; repeat (constructor; [cbn; intuition discriminate|]); constructor.
  - intros m H. destruct (HM m H) as [-> | ->]; vm_compute; repeat (constructor; [cbn; intuition discriminate|]); constructor.
  - intros m fd H Hf _ _. destruct (HM m H) as [-> | ->]; cbn [m_fields go_m go_n In] in Hf;
    repeat (destruct Hf as [<-|Hf]; [destruct v2; vm_compute; intuition discriminate|]); destruct Hf.
  - intros m fd k s H Hf _. destruct v2; vm_compute; intuition discriminate.
  - assert (KN : known_type go_ex (TMsg (text "p.N"))) by (exists go_n; split; [apply ms_has; right; left; reflexivity|reflexivity]).
    assert (KE : known_type go_ex (TEnum (text "p.E"))) by (exists go_e; split; [left; left; reflexivity|reflexivity]).
    intros m fd H Hf. destruct (HM m H) as [-> | ->]; cbn [m_fields go_m go_n In] in Hf;
    repeat (destruct Hf as [<-|Hf]; [try exact KN; try exact KE; try (split; discriminate); try (split; [reflexivity|split; [split; discriminate|exact KN]])|]); destruct Hf.
Qed.
Lemma go_ex_struct : exists fp, struct_at (messages_of go_ex) go_heap 6 go_m go_xs fp.
Proof.
  assert (KN : nth_error (messages_of go_ex) (position (text "p.N") (messages_of go_ex)) = Some go_n) by reflexivity.
  assert (RN : forall fd a p, f_many fd = false -> f_typ fd = TMsg (text "p.N") -> nth_error go_heap a = Some (OStruct [(text "S", GoBase (VString p))]) ->
    rep (messages_of go_ex) go_heap fd (GMsg (Some [GPrim (VString p)])) (GoPtr (camel (text "p.N")) (Some a)) [a]).
  { intros fd a p H1 H2 H3. eapply rep_msg with (vs := [_]) (fp := []); [exact H1|exact H2|exact KN|exact H3|]. apply (reps_cons _ _ _ _ _ [] [] [] [] []); [apply rep_base; reflexivity|apply reps_nil]. }
  eexists. eexists (_ :: _ :: _ :: _ :: _ :: _ :: nil). split; [reflexivity|]. split.
  - cbn [go_m m_fields go_xs]. apply reps_cons.
    { eapply rep_list; [reflexivity|reflexivity|reflexivity|vm_compute; reflexivity|]. cbn [length repeat]. repeat (apply reps_cons; [apply rep_base; reflexivity|]). apply reps_nil. }
    apply reps_cons; [apply rep_base; reflexivity|]. apply reps_cons.
    { apply RN; reflexivity. }
    apply reps_cons.
    { eapply rep_map with (vs := [_]); [reflexivity|reflexivity|]. cbn [map snd length repeat]. apply reps_cons; [|apply reps_nil].
      apply RN; reflexivity. }
    apply reps_cons; [apply rep_base; reflexivity|]. apply reps_cons; [|apply reps_nil].
    eapply rep_list; [reflexivity|reflexivity|reflexivity|vm_compute; reflexivity|]. cbn [length repeat]. apply reps_cons; [|apply reps_nil].
    apply RN; reflexivity.
  - cbn [app]. repeat (constructor; [cbn; intuition discriminate|]). constructor.
Qed.
Example c92_example : (forall v2, names_apart v2 go_ex) /\ compiles (schema_of go_ex) = true /\ new_ok (schema_of go_ex) 2 /\
  nth_error (messages_of go_ex) 0 = Some go_m /\ (exists fp, struct_at (messages_of go_ex) (heap go_st) 6 go_m go_xs fp) /\
  struct_type (schema_of go_ex) go_xs 0 /\ readable (schema_of go_ex) (GMsg (Some go_xs)) (One (Msg 0)) /\ tidy false (GMsg (Some go_xs)) /\
  no_nil (GMsg (Some go_xs)) /\ small_bytes (prims (GMsg (Some go_xs))) /\ depth (GMsg (Some go_xs)) = 2%nat.
Proof.
  split; [exact go_ex_apart|]. split; [reflexivity|]. split; [intros [|[|m]] H; [do 2 eexists; reflexivity|do 2 eexists; reflexivity|cbn in H; lia]|].
  split; [reflexivity|]. split; [exact go_ex_struct|].
  assert (HT : struct_type (schema_of go_ex) go_xs 0) by (vm_compute; repeat split; repeat constructor; try discriminate; intros []).
  split; [exact HT|]. split; [apply plain_readable; [|exact HT]; intros [|[|m]] fs H; try (injection H as <-; reflexivity); destruct m; discriminate H|].
  split; [vm_compute; repeat split; auto|]. split; [vm_compute; repeat split; auto; discriminate|]. split; [|reflexivity].
  intros p H. vm_compute in H. intuition (try discriminate). injection H0 as <-. reflexivity.
Qed.
(** What runs: Encode, and Decode of a prefix of what it wrote, in version 1: what came before the
    error is in the struct, the rest is as it was (C77), and the error is reported. *)
Example c93_example : exists s', go1 64 go_ex unlimited 2 (Some (gotype go_m)) ".Encode" [GoPtr (gotype go_m) (Some 6%nat); GoBuffer] go_st =
    Fine ([], encoded go_st [VU32 1; VBytes [7]; VSlice 2 12; VI32 3; VI32 (-4); VSlice 1 3; VString []; VString (text "u"); VMap 1 5 3; VString (text "k"); VString (text "v")]) /\
  go1 64 go_ex unlimited 3 (Some (gotype go_m)) ".Decode" [GoPtr (gotype go_m) (Some 6%nat); GoBase (VBytes [10; 9; 4; 10; 1; 8])] go_st = Fine ([GoError (Some ESlice)], s') /\
  nth_error (heap s') 6 = Some (OStruct [(text "A", GoSlice (text "int32") (Some 1%nat)); (text "E", GoBase (VU32 9)); (text "N", GoPtr (text "PN") (Some 0%nat));
     (text "D", GoMap (text "PMDMap") (Some 3%nat)); (text "C", GoBase (VBytes [8])); (text "Ns", GoSlice (text "*PN") (Some 5%nat))]).
Proof. eexists. split; [vm_compute; reflexivity|]. split; vm_compute; reflexivity. Qed.

(** Refuted: that legal and distinct names are enough for Decode to compile.  message M { ETemp e; } with enum ETemp: the
    generated variable ETemp hides the type ETemp where it is converted to it. *)
Definition shadow_m : msgd := mkmsg (text "M") false [mkfield (text "e") (text "M.e") false (TEnum (text "ETemp"))] [] [].
Definition shadow : filed := mkfiled [mkenum (text "ETemp") [mkval (text "X") (text "X") 0]] [shadow_m].
Theorem c92_shadowed_type_refuted : forall v2, NoDup (go_names (go_file v2 shadow)) /\ (forall n, In n (go_names (go_file v2 shadow)) -> identifier n) /\
  compiles (schema_of shadow) = true /\ ~ names_apart v2 shadow /\
  forall W room n s, heap s = [OStruct [(text "E", GoBase (VU32 0))]] ->
    go1 W shadow room (S (S n)) (Some (gotype shadow_m)) ".Decode" [GoPtr (gotype shadow_m) (Some 0%nat); GoBase (VBytes [10; 0])] s = Stuck /\
    go2 W shadow room (S (S n)) (Some (gotype shadow_m)) ".Decode" [GoPtr (gotype shadow_m) (Some 0%nat); GoBase (VBytes [10; 0])] s = Stuck.
Proof.
  intros v2. split; [destruct v2; vm_compute; repeat (constructor; [cbn; intuition discriminate|]); constructor|].
  split; [intros n H; apply PkgThms3.identb_ok; revert H; destruct v2; vm_compute; intros H; repeat (destruct H as [<-|H]; [reflexivity|]); destruct H|].
  split; [reflexivity|]. split.
  - intros NA. apply (na_temps _ _ NA shadow_m (mkfield (text "e") (text "M.e") false (TEnum (text "ETemp")))).
    + apply ms_has. left. reflexivity.
    + left. reflexivity.
    + eexists. reflexivity.
    + reflexivity.
    + destruct v2; vm_compute; auto 10.
  - intros W room n [e h i o k] H. cbn [heap] in H. subst h. split; vm_compute; reflexivity.
Qed.
Print Assumptions c92_shadowed_type_refuted.

(** Refuted: that Decode stores what it read whatever x points at.  Version 1 decodes into structs it finds, so two fields
    that point at one struct both end up with the last value. *)
Definition pair_m : msgd := mkmsg (text "M") false
  [mkfield (text "a") (text "M.a") false (TMsg (text "N")); mkfield (text "b") (text "M.b") false (TMsg (text "N"))] [] [].
Definition pair_n : msgd := mkmsg (text "N") false [mkfield (text "s") (text "N.s") false (TScalar KInt32)] [] [].
Definition pair_f : filed := mkfiled [] [pair_m; pair_n].
Theorem c92_shared_refuted : exists s xs s' xs' l, pointer_to (messages_of pair_f) pair_m (heap s) (Some xs) (GoPtr (gotype pair_m) (Some 0%nat)) /\
  Trace1 64 unlimited (schema_of pair_f) 2 0 xs [12; 2; 12; 4] = (l, TDone [] [GMsg (Some [GPrim (VI32 1)]); GMsg (Some [GPrim (VI32 2)])]) /\
  go1 64 pair_f unlimited 3 (Some (gotype pair_m)) ".Decode" [GoPtr (gotype pair_m) (Some 0%nat); GoBase (VBytes [12; 2; 12; 4])] s = Fine ([GoNil], s') /\
  pointer_to (messages_of pair_f) pair_m (heap s') (Some xs') (GoPtr (gotype pair_m) (Some 0%nat)) /\
  xs' = [GMsg (Some [GPrim (VI32 2)]); GMsg (Some [GPrim (VI32 2)])].
Proof.
  set (h := fun z => [OStruct [(text "A", GoPtr (text "N") (Some 1%nat)); (text "B", GoPtr (text "N") (Some 1%nat))]; OStruct [(text "S", GoBase (VI32 z))]]).
  assert (P : forall z, pointer_to (messages_of pair_f) pair_m (h z) (Some [GMsg (Some [GPrim (VI32 z)]); GMsg (Some [GPrim (VI32 z)])]) (GoPtr (gotype pair_m) (Some 0%nat))).
  { intros z. assert (KN : nth_error (messages_of pair_f) (position (text "N") (messages_of pair_f)) = Some pair_n) by reflexivity.
    assert (R : forall fd, f_many fd = false -> f_typ fd = TMsg (text "N") -> rep (messages_of pair_f) (h z) fd (GMsg (Some [GPrim (VI32 z)])) (GoPtr (camel (text "N")) (Some 1%nat)) [1%nat]).
    { intros fd H1 H2. eapply rep_msg with (vs := [_]) (fp := []); [exact H1|exact H2|exact KN|reflexivity|]. apply (reps_cons _ _ _ _ _ [] [] [] [] []); [apply rep_base; reflexivity|apply reps_nil]. }
    eexists. eapply rep_msg with (vs := [_; _]); [reflexivity|reflexivity|reflexivity|reflexivity|]. apply reps_cons; [apply R; reflexivity|]. apply reps_cons; [apply R; reflexivity|apply reps_nil]. }
  exists (mkst [] (h 0) [] [] []). do 4 eexists. split; [apply P|]. split; [vm_compute; reflexivity|]. split; [vm_compute; reflexivity|]. split; [|reflexivity]. apply (P 2).
Qed.
Print Assumptions c92_shared_refuted.
(** Refuted: that Encode always ends.  A struct that points at itself overflows every stack. *)
Definition self_m : msgd := mkmsg (text "M") false [mkfield (text "m") (text "M.m") false (TMsg (text "M"))] [] [].
Definition self_f : filed := mkfiled [] [self_m].
Theorem c93_cycle_refuted : forall W room n s, heap s = [OStruct [(text "M", GoPtr (text "M") (Some 0%nat))]] ->
  go1 W self_f room n (Some (gotype self_m)) ".Encode" [GoPtr (gotype self_m) (Some 0%nat); GoBuffer] s = Deep /\
  go2 W self_f room n (Some (gotype self_m)) ".Encode" [GoPtr (gotype self_m) (Some 0%nat); GoBuffer] s = Deep.
Proof.
  assert (C : forall v2 room prim n s, heap s = [OStruct [(text "M", GoPtr (text "M") (Some 0%nat))]] ->
    call_go (go_program v2 self_f) room prim n (Some (text "M")) (text ".Encode") [GoPtr (text "M") (Some 0%nat); GoBuffer] s = Deep).
  { intros v2 room prim.
    assert (E : forall call e i o k, (forall s, heap s = [OStruct [(text "M", GoPtr (text "M") (Some 0%nat))]] -> call (Some (text "M")) (text ".Encode") [GoPtr (text "M") (Some 0%nat); GoBuffer] s = Deep) ->
      enter (go_program v2 self_f) room prim call (encode_func self_m) [GoPtr (text "M") (Some 0%nat); GoBuffer] (mkst e [OStruct [(text "M", GoPtr (text "M") (Some 0%nat))]] i o k) = Deep).
    { intros call e i o k H. specialize (H (mkst [(n_b, GoBuffer); (n_x, GoPtr (text "M") (Some 0%nat))] [OStruct [(text "M", GoPtr (text "M") (Some 0%nat))]] i o k) eq_refl).
      revert H. destruct v2; vm_compute; intros ->; reflexivity. }
    assert (F : find_func (Some (text "M")) (text ".Encode") (go_program v2 self_f) = Some (encode_func self_m)) by (destruct v2; vm_compute; reflexivity).
    induction n as [|n IH]; intros s H; [reflexivity|]. destruct s as [e h i o k]. cbn [heap] in H. subst h. rewrite GoCalls.call_S, F. apply E. intros s H. unfold GoCalls.stepf. rewrite F. apply IH, H. }
  intros W room n s H. split; apply C; exact H.
Qed.
Print Assumptions c93_cycle_refuted.
