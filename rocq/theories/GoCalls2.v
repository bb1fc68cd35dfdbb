(** The calls of the public functions. *)
From Coq Require Import String.
From Verif Require Import Base Spec GoSpec GenTables GenModel GenSpec GenLemmas GenFields GenTerm4 GenTrace GenTraceInv TraceSpec GenTraceEnd NameModel NameSpec EmitModel EmitSpec EmitThms PkgThms GoAst GoEmit GoRunSpec GoCallSpec GoLink GoFrame GoExec GoScope GoSlices GoMsgs GoMaps GoDecode GoNew GoCalls GoEnc GoEnc2.
From Verif Require V1Model V2Model.

(** ---- the libraries' decoders ---- *)
Definition in32 (x : Z) : Prop := 0 <= x < 2 ^ 32.
Lemma in32_u32 x : in32 (u32 x). Proof. apply Z.mod_pos_bound. lia. Qed.
Lemma in32_0 : in32 0. Proof. unfold in32. lia. Qed.
Lemma in32_lor x y : in32 x -> in32 y -> in32 (Z.lor x y).
Proof.
  intros (X1 & X2) (Y1 & Y2). split; [apply Z.lor_nonneg; auto|].
  destruct (Z.eq_dec (Z.lor x y) 0) as [->|N]; [lia|]. apply Z.log2_lt_pow2; [assert (0 <= Z.lor x y) by (apply Z.lor_nonneg; auto); lia|].
  rewrite Z.log2_lor by assumption. apply Z.max_lub_lt; [destruct (Z.eq_dec x 0) as [->|]; [reflexivity|]|destruct (Z.eq_dec y 0) as [->|]; [reflexivity|]]; apply Z.log2_lt_pow2; lia.
Qed.
Lemma in32_land x : in32 (Z.land x (V1Model.continuation - 1)).
Proof. change (V1Model.continuation - 1) with (Z.ones 7). rewrite Z.land_ones by lia. pose proof (Z.mod_pos_bound x (2 ^ 7) ltac:(lia)). unfold in32. lia. Qed.
Ltac r32 := repeat first [apply in32_lor|apply in32_land|apply in32_u32|apply in32_0|assumption].
Lemma loop32_range fuel b : forall i x s r y, in32 x -> V1Model.loop32 fuel b i x s = Ok (r, y, None) -> in32 y.
Proof.
  induction fuel as [|fuel IH]; intros i x s r y Hx E; [discriminate E|]. cbn [V1Model.loop32] in E. destruct (Base.index b i) as [cb|]; [|discriminate E]. cbn [bind] in E.
  destruct (cb <? V1Model.continuation).
  - destruct ((i >? V1Model.VarIntLen32) && (cb >? 1)); [discriminate E|]. destruct (slice_from b (i + 1)) as [q|]; [|discriminate E]. cbn [bind] in E. injection E as _ <-. r32.
  - eapply IH; [|exact E]. r32.
Qed.
Lemma u32_1 b r y : V1Model.decodeUint32 b = Ok (r, y, None) -> in32 y.
Proof.
  unfold V1Model.decodeUint32. destruct (zlen b >? 1); [|discriminate]. destruct (Base.index b 0) as [b0|]; [|discriminate]. cbn [bind]. destruct (Base.index _ 0) as [k|]; [|discriminate]. cbn [bind].
  destruct (b0 =? k); [|discriminate]. apply loop32_range. apply in32_0.
Qed.
Lemma u32_2 b r y : V2Model.decodeUint32 b = Ok (r, y, None) -> in32 y.
Proof.
  unfold V2Model.decodeUint32. intros E.
  repeat match type of E with
         | bind ?x _ = _ => destruct x; [|discriminate E]; cbn [bind] in E
         | (if ?c then _ else _) = _ => destruct c; try discriminate E
         | Ok _ = Ok _ => injection E as _ <-
         | (let x := _ in _) = _ => cbv zeta in E
         end; r32.
Qed.
Lemma slice_1 b k r y : V1Model.decodeSlice b k = Ok (r, y, None) -> in32 y.
Proof.
  unfold V1Model.decodeSlice. intros E. destruct (zlen b >? 1); [|discriminate E]. repeat match type of E with bind (Base.index _ _) _ = _ => destruct (Base.index _ _); [|discriminate E]; cbn [bind] in E | (if _ =? _ then _ else _) = _ => destruct (_ =? _); [|discriminate E] end.
  destruct (slice_from b 2) as [q|]; [|discriminate E]. cbn [bind] in E. destruct (V1Model.decodeUint32 q) as [[[r1 y1] e1]|] eqn:Eu; [|discriminate E]. cbn [bind] in E.
  destruct e1; [discriminate E|]. injection E as <- <-. exact (u32_1 _ _ _ Eu).
Qed.
Lemma slice_2 b k r y : V2Model.decodeSlice b k = Ok (r, y, None) -> in32 y.
Proof.
  unfold V2Model.decodeSlice. intros E. destruct (zlen b >? 2); [|discriminate E]. repeat match type of E with bind (Base.index _ _) _ = _ => destruct (Base.index _ _); [|discriminate E]; cbn [bind] in E | (if _ =? _ then _ else _) = _ => destruct (_ =? _); [|discriminate E] end.
  destruct (slice_from b 2) as [q|]; [|discriminate E]. cbn [bind] in E. destruct (V2Model.decodeUint32 q) as [[[r1 y1] e1]|] eqn:Eu; [|discriminate E]. cbn [bind] in E.
  destruct e1; [discriminate E|]. injection E as <- <-. exact (u32_2 _ _ _ Eu).
Qed.
Lemma sound1 W : sound_prim (V1Model.decode W).
Proof.
  constructor.
  - intros dst q b r v E. destruct q; cbn [V1Model.decode] in E; unfold V1Model.out in E;
      try (destruct (V1Model.decodeNil b) as [[r' [|]]|]; try discriminate E; injection E as _ <-; reflexivity);
      match type of E with match ?x with _ => _ end = _ => destruct x as [[[? ?] [|]]|]; try discriminate E; injection E as _ <-; reflexivity end.
  - intros dst k b r n k' E. cbn [V1Model.decode] in E. unfold V1Model.out in E. destruct (V1Model.decodeSlice b [k]) as [[[r1 y] [|]]|] eqn:Es; try discriminate E. injection E as _ <- _. exact (slice_1 _ _ _ _ Es).
Qed.
Lemma sound2 W : sound_prim (fun dst => V2Model.decode W (V1Model.oget dst)).
Proof.
  constructor.
  - intros dst q b r v E. destruct q; cbn [V2Model.decode] in E; unfold V2Model.out in E;
      try (destruct (V2Model.decodeNil b) as [[r' [|]]|]; try discriminate E; injection E as _ <-; reflexivity);
      match type of E with match ?x with _ => _ end = _ => destruct x as [[[? ?] [|]]|]; try discriminate E; injection E as _ <-; reflexivity end.
  - intros dst k b r n k' E. cbn [V2Model.decode] in E. unfold V2Model.out in E. destruct (V2Model.decodeSlice b k) as [[[r1 y] [|]]|] eqn:Es; try discriminate E. injection E as _ <- _. exact (slice_2 _ _ _ _ Es).
Qed.
