(** The calls of the public functions: New, Encode, Decode, Error. *)
From Coq Require Import String.
From Verif Require Import Base Spec GoSpec GenTables GenModel GenSpec GenLemmas GenFields GenTerm4 GenTrace GenTraceInv TraceSpec GenTraceEnd NameModel NameSpec EmitModel EmitSpec EmitThms PkgThms GoAst GoEmit GoRunSpec GoCallSpec GoLink GoFrame GoExec GoScope GoSlices GoMsgs GoMaps GoDecode GoNew GoCalls GoEnc GoEnc2 GoCalls2.
From Verif Require V1Model V2Model.

Section Public.
Variables (v2 : bool) (f : filed) (room : Z -> bool) (prim : option bytes -> request -> bytes -> outcome).
Hypothesis NA : names_apart v2 f.
Hypothesis CO : compiles (schema_of f) = true.
Notation P := (go_program v2 f).
Notation ms := (messages_of f).
Notation Sch := (schema_of f).
Notation CALL := (call_go P room prim).
Notation STEP := (stepf v2 f room prim).

Lemma found m g : has_message f m -> own_func v2 m g -> find_func (fn_recv g) (fn_name g) P = Some g.
Proof. exact (own_found v2 f NA m g). Qed.
Lemma step_enc n : enc_spec f (CALL n) n -> enc_spec f (STEP n) n.
Proof.
  intros H fd es m x v fp s l M E Hm Em R HT C. specialize (H fd es m x v fp s l M E Hm Em R HT C). unfold stepf.
  pose proof (found m (encode_func m)) as F. cbn [fn_recv fn_name encode_func] in F. rewrite Em in F.
  rewrite F by (first [apply (ms_has f); exact (nth_error_In _ _ Hm)|unfold own_func; auto 10]). exact H.
Qed.
Lemma step_encmap n : enc_spec f (CALL n) n -> forall m fd kt vt, has_message f m -> In fd (m_fields m) -> f_typ fd = TMap kt vt -> encmap_spec f (STEP n) n fd kt vt.
Proof.
  intros H m fd kt vt HM Hf E x v fp s l R HT C. destruct (map_found v2 f NA m fd kt vt HM Hf E) as (_ & F & _). unfold stepf. rewrite F. change (fn_frame (encode_map_func fd kt vt)) with false. cbn iota.
  destruct (shape_of v2 f m fd NA CO HM Hf) as [? ? B2|? ? ? B2 ? ?|? ? B2|kt' vt' qk k1 k2 B1 B2 B3 B4 B5 B6 B7 B8 B9 B10 B11].
  1: rewrite E in B2; cbn [ftype_of] in B2; congruence.
  1: unfold is_map in B2; rewrite E in B2; discriminate B2.
  1: congruence.
  rewrite E in B2. injection B2 as <- <-.
  exact (mapenc_ok v2 f room prim (CALL n) n H fd kt vt x v fp s l E B3 B4 B5 B10 R HT C).
Qed.
Theorem enc_calls n : enc_spec f (CALL n) n.
Proof.
  induction n as [|n IH]; intros fd es m x v fp s l M E Hm Em R HT C.
  - assert (F : fits 0 x = false) by (destruct x as [| | |[xs|]]; try (cbn in HT; contradiction); reflexivity). rewrite F. reflexivity.
  - rewrite call_S. pose proof (found m (encode_func m)) as F. cbn [fn_recv fn_name encode_func] in F. rewrite Em in F.
    rewrite F by (first [apply (ms_has f); exact (nth_error_In _ _ Hm)|unfold own_func; auto 10]).
    exact (encfunc_ok v2 f room prim (STEP n) n NA CO (step_enc n IH) (step_encmap n IH) fd es m x v fp s l M E Hm Em R HT C).
Qed.
(** x.Encode(b) *)
Theorem public_encode m mi x v n s : nth_error ms mi = Some m -> position (m_full m) ms = mi -> pointer_to ms m (heap s) x v -> has_type Sch (GMsg x) (One (Msg mi)) ->
  exists l, calls Sch (GMsg x) (One (Msg mi)) = Some l /\
    CALL n (Some (camel (m_full m))) (text ".Encode") [v; GoBuffer] s = if Nat.leb (depth (GMsg x)) n then Fine ([], encoded s l) else Deep.
Proof.
  intros Hm <- (fp & R) HT.
  destruct (calls_total Sch CO _ _ HT) as (l & C). { cbn [field_compiles]. apply Nat.ltb_lt. unfold schema_of. rewrite map_length. apply nth_error_Some. congruence. }
  exists l. split; [apply C|]. exact (enc_calls n (mkfield [] [] false (TMsg (m_full m))) (m_full m) m (GMsg x) v fp s l eq_refl eq_refl Hm eq_refl R HT (proj1 C)).
Qed.
(** x.Error(b, err) *)
Theorem public_error m v p n s : has_message f m -> CALL (S n) (Some (camel (m_full m))) (text ".Error") [v; GoBuffer; GoBase (VError p)] s = Fine ([], encoded s [VError p]).
Proof.
  intros Hm. rewrite call_S. pose proof (found m (error_func m)) as F. cbn [fn_recv fn_name error_func] in F. rewrite F by (first [exact Hm|unfold own_func; auto 10]).
  unfold enter, error_func. cbn [fn_params fn_body declare ebind]. change (same n_x (text "_")) with false. change (same n_b (text "_")) with false. change (same n_err (text "_")) with false. cbn iota. destruct s. reflexivity.
Qed.
Hypothesis SP : sound_prim prim.
(** x.Decode(b) *)
Theorem public_decode m mi a xs fp b n s : nth_error ms mi = Some m -> struct_at ms (heap s) a m xs fp ->
  returns (CALL (S n) (Some (camel (m_full m))) (text ".Decode") [GoPtr (camel (m_full m)) (Some a); GoBase (VBytes b)] s) (t_decode room v2 prim Sch n mi xs b) s
    (fun xs' s' => exists fp', struct_at ms (heap s') a m xs' fp' /\ only_at (heap s) (heap s') (a :: fp) (a :: fp') /\ env s' = env s).
Proof.
  intros Hm Hs. assert (HM : has_message f m) by (apply (ms_has f); exact (nth_error_In _ _ Hm)). set (T := camel (m_full m)).
  rewrite call_S. pose proof (found m (decode_outer_func v2 m)) as F. cbn [fn_recv fn_name decode_outer_func] in F. fold T in F. rewrite F by (first [exact HM|unfold own_func; auto 10]).
  pose proof (step_dec v2 f room prim NA n (proj2 (calls_ok v2 f room prim SP NA CO n))) as D.
  unfold enter, decode_outer_func. cbn [fn_params fn_body declare ebind]. change (same n_x (text "_")) with false. change (same n_b (text "_")) with false. cbn iota.
  set (s0 := mkst [(n_b, GoBase (VBytes b)); (n_x, GoPtr T (Some a))] (heap s) (inp s) (out s) (made s)).
  match goal with |- context [seq _ _ ?q] => change q with s0 end. rewrite seq_cons.
  rewrite (exec_if_nil P room prim (STEP n) (Var n_x) (GoPtr T (Some a)) false _ _ s0 eq_refl eq_refl). cbn iota. rewrite (block_same P room prim (STEP n) [] s0 Next s0 eq_refl eq_refl). cbn [ebind].
  (* the call of decode *)
  assert (Fin : forall o s1, heap s1 = heap s -> inp s1 = b -> out s1 = out s -> made s1 = made s -> STEP n (Some T) (text ".decode") [GoPtr T (Some a); GoDecoder] s1 = o ->
     returns (let? (g, s2) := (let? (vs, s2) := o in Fine (Ret vs, s2)) in Fine (match g with Ret vs => vs | Next => [] end, set_env s2 (env s))) (t_decode room v2 prim Sch n mi xs b) s
       (fun xs' s' => exists fp', struct_at ms (heap s') a m xs' fp' /\ only_at (heap s) (heap s') (a :: fp) (a :: fp') /\ env s' = env s)).
  { intros o s1 H1 H2 H3 H4 Eo. rewrite <- H1 in Hs. specialize (D m mi s1 a xs fp Hm Hs). fold T in D. rewrite Eo, H2 in D. clear Eo.
    unfold returns, agrees in *. rewrite H1, H3, H4 in D. destruct (snd (t_decode room v2 prim Sch n mi xs b)) as [r x|e x| | |]; try exact I; try (rewrite D; reflexivity).
    - destruct D as (s' & -> & D1 & (fp' & D2 & D3 & D4) & D5 & D6). cbn [ebind]. eexists. split; [reflexivity|]. split; [exact D1|]. split; [|split; [exact D5|exact D6]]. exists fp'. auto.
    - destruct D as (s' & -> & (fp' & D2 & D3 & D4) & D5 & D6). cbn [ebind]. eexists. split; [reflexivity|]. split; [|split; [exact D5|exact D6]]. exists fp'. auto. }
  assert (G : forall w : bool, returns (let? (g, s1) := seq (exec P room prim (STEP n)) (if w then [Return [Met (Var n_x) ".decode" [Lib "Decoder" (Var n_b)]]]
      else [Define [n_d] (Lib "GetDecoder" (Var n_b)); Defer (Met (Var n_d) ".Return" []); Return [Met (Var n_x) ".decode" [Var n_d]]]) s0 in Fine (match g with Ret vs => vs | Next => [] end, set_env s1 (env s)))
      (t_decode room v2 prim Sch n mi xs b) s (fun xs' s' => exists fp', struct_at ms (heap s') a m xs' fp' /\ only_at (heap s) (heap s') (a :: fp) (a :: fp') /\ env s' = env s)).
  { intros [|].
    - rewrite seq_one. exact (Fin _ (set_inp s0 b) eq_refl eq_refl eq_refl eq_refl eq_refl).
    - set (s1 := set_env (set_inp s0 b) ((n_d, GoDecoder) :: env s0)).
      rewrite seq_cons. change (exec P room prim (STEP n) (Define [n_d] (Lib "GetDecoder" (Var n_b))) s0) with (@Fine (signal * st) (Next, s1)). cbn [ebind].
      rewrite seq_cons. change (exec P room prim (STEP n) (Defer (Met (Var n_d) ".Return" [])) s1) with (@Fine (signal * st) (Next, s1)). cbn [ebind]. rewrite seq_one.
      exact (Fin _ (set_inp (set_env s0 ((n_d, GoDecoder) :: env s0)) b) eq_refl eq_refl eq_refl eq_refl eq_refl). }
  exact (G v2).
Qed.
End Public.
