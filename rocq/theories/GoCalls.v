(** The generated program as a whole: every call, whatever the number of frames left. *)
From Coq Require Import String.
From Verif Require Import Base Spec GenTables GenModel GenTrace NameModel NameSpec EmitModel EmitSpec EmitThms PkgThms GoAst GoEmit GoRunSpec GoLink GoFrame GoExec GoScope GoSlices GoMsgs GoMaps GoDecode GoNew.

Section Calls.
Variables (v2 : bool) (f : filed) (room : Z -> bool) (prim : option bytes -> request -> bytes -> outcome).
Hypothesis SP : sound_prim prim.
Hypothesis NA : names_apart v2 f.
Hypothesis CO : compiles (schema_of f) = true.
Notation P := (go_program v2 f).
Notation ms := (messages_of f).
Notation Sch := (schema_of f).
Notation CALL := (call_go P room prim).

(** calls made by a function that has [n] frames left *)
Definition stepf (n : nat) (recv : option bytes) (g : bytes) (args : list gov) (s : st) : ex (list gov * st) :=
  match find_func recv g P with
  | None => Stuck
  | Some fn => if fn_frame fn then CALL n recv g args s else enter P room prim (CALL n) fn args s
  end.
Lemma call_S n recv g args s : CALL (S n) recv g args s = match find_func recv g P with None => Stuck | Some fn => enter P room prim (stepf n) fn args s end.
Proof. reflexivity. Qed.

Definition own_func (m : msgd) (g : func) : Prop := g = new_func v2 m \/ g = error_func m \/ g = encode_func m \/ g = decode_outer_func v2 m \/ g = decode_func v2 m.
Lemma own_found m g : has_message f m -> own_func m g -> find_func (fn_recv g) (fn_name g) P = Some g.
Proof.
  intros Hm H. apply (find_func_in v2 f (na_once _ _ NA)). apply (in_P_msg v2 f m); [exact Hm|]. unfold struct_decls. apply in_or_app. right.
  cbn [In]. destruct H as [->|[->|[->|[->| ->]]]]; auto 10.
Qed.
Lemma map_found m fd kt vt : has_message f m -> In fd (m_fields m) -> f_typ fd = TMap kt vt ->
  find_func None (new_name (map_name fd)) P = Some (mkfunc None (new_name (map_name fd)) [n_size] [XText n_u32] (Some (XMap (type_text (map_key fd kt)) (type_text (map_value fd vt)))) [Return [MakeM (type_text (map_key fd kt)) (type_text (map_value fd vt)) (Var n_size)]] false) /\
  find_func (Some (map_name fd)) (text ".Encode") P = Some (encode_map_func fd kt vt) /\
  find_func (Some (map_name fd)) (text ".decode") P = Some (decode_map_func fd kt vt).
Proof.
  intros Hm Hf E. assert (K : forall g, In (DFunc g) (map_decls fd) -> find_func (fn_recv g) (fn_name g) P = Some g).
  { intros g H. apply (find_func_in v2 f (na_once _ _ NA)). exact (in_P_map v2 f m fd _ Hm Hf H). }
  unfold map_decls in K. rewrite E in K. split; [|split].
  - apply (K (mkfunc None (new_name (map_name fd)) [n_size] _ _ _ false)). right. left. reflexivity.
  - apply (K (encode_map_func fd kt vt)). right. right. left. reflexivity.
  - apply (K (decode_map_func fd kt vt)). right. right. right. left. reflexivity.
Qed.

Lemma step_new n : new_spec v2 f (CALL n) n -> new_spec v2 f (stepf n) n.
Proof.
  intros H m mi s Hm. specialize (H m mi s Hm). unfold stepf.
  pose proof (own_found m (new_func v2 m)) as F. cbn [fn_recv fn_name new_func] in F.
  rewrite F by (first [apply (ms_has f); exact (nth_error_In _ _ Hm)|left; reflexivity]). exact H.
Qed.
Lemma step_dec n : dec_spec v2 f room prim (CALL n) n -> dec_spec v2 f room prim (stepf n) n.
Proof.
  intros H m mi s a xs fp Hm Hs. specialize (H m mi s a xs fp Hm Hs). unfold stepf.
  pose proof (own_found m (decode_func v2 m)) as F. cbn [fn_recv fn_name decode_func] in F.
  rewrite F by (first [apply (ms_has f); exact (nth_error_In _ _ Hm)|unfold own_func; auto 10]). exact H.
Qed.
Lemma step_maps n : new_spec v2 f (CALL n) n -> dec_spec v2 f room prim (CALL n) n ->
  forall m fd kt vt, has_message f m -> In fd (m_fields m) -> f_typ fd = TMap kt vt -> newmap_spec (stepf n) fd /\ decmap_spec v2 f room prim (stepf n) n fd kt vt.
Proof.
  intros HN HD m fd kt vt HM Hf E. destruct (map_found m fd kt vt HM Hf E) as (F1 & _ & F2). split.
  - intros z s. unfold stepf. rewrite F1. cbn [fn_frame]. unfold enter. cbn [fn_params fn_body declare ebind].
    change (same n_size (text "_")) with false. cbn iota. destruct s as [h e i o k]. reflexivity.
  - intros z b s Hb. unfold stepf. rewrite F2. change (fn_frame (decode_map_func fd kt vt)) with false. cbn iota.
    destruct (shape_of v2 f m fd NA CO HM Hf) as [? ? B2|? ? ? B2 ? ?|? ? B2|kt' vt' qk k1 k2 B1 B2 B3 B4 B5 B6 B7 B8 B9 B10 B11].
    1: rewrite E in B2; cbn [ftype_of] in B2; congruence.
    1: unfold is_map in B2; rewrite E in B2; discriminate B2.
    1: congruence.
    rewrite E in B2. injection B2 as <- <-.
    exact (mapfunc_ok v2 f room prim (CALL n) n SP NA HN HD m fd kt vt qk HM Hf E B3 B4 B5 B6 B7 z b s Hb).
Qed.
Theorem calls_ok n : new_spec v2 f (CALL n) n /\ dec_spec v2 f room prim (CALL n) n.
Proof.
  induction n as [|n [HN HD]].
  - split.
    + intros m mi s Hm. assert (Es : nth_error Sch mi = Some (map (field_of ms) (m_fields m))) by (unfold schema_of; rewrite nth_error_map, Hm; reflexivity).
      cbn [GenModel.New]. rewrite Es. destruct v2; [left; split; reflexivity|reflexivity].
    + intros m mi s a xs fp Hm Hs. reflexivity.
  - split.
    + intros m mi s Hm. assert (HM : has_message f m) by (apply (ms_has f); exact (nth_error_In _ _ Hm)).
      rewrite call_S. pose proof (own_found m (new_func v2 m)) as F. cbn [fn_recv fn_name new_func] in F. rewrite F by (first [exact HM|left; reflexivity]).
      pose proof (new_func_ok v2 f room prim (stepf n) n NA CO (step_new n HN) m mi s Hm) as H.
      destruct (GenModel.New v2 Sch (S n) mi); try exact H. right. exact H.
    + intros m mi s a xs fp Hm Hs. assert (HM : has_message f m) by (apply (ms_has f); exact (nth_error_In _ _ Hm)).
      rewrite call_S. pose proof (own_found m (decode_func v2 m)) as F. cbn [fn_recv fn_name decode_func] in F. rewrite F by (first [exact HM|unfold own_func; auto 10]).
      exact (decode_ok v2 f room prim (stepf n) n SP NA CO (step_new n HN) (step_dec n HD) (step_maps n HN HD) m mi s a xs fp Hm Hs).
Qed.
End Calls.
