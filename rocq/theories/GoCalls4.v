(** The calls of the public functions, for the two versions. *)
From Coq Require Import String.
From Verif Require Import Base Spec GoSpec GenTables GenModel GenSpec GenLemmas GenFields GenTerm GenTerm4 GenThms GenTrace GenTraceInv TraceSpec GenTraceEnd NameModel NameSpec EmitModel EmitSpec EmitThms PkgThms GoAst GoEmit GoRunSpec GoCallSpec GoLink GoFrame GoExec GoScope GoSlices GoMsgs GoMaps GoDecode GoNew GoCalls GoEnc GoEnc2 GoCalls2 GoCalls3.
From Verif Require V1Model V2Model.

(** ---- a message's number ---- *)
Lemma ms_units f : messages_of f = flat_map (either (fun _ => []) (fun m => [m])) (units f).
Proof.
  rewrite <- body_units. unfold body, messages_of, messages. replace (flat_map (fun _ : enumd => []) (d_enums f)) with (@nil msgd) by (induction (d_enums f); auto).
  cbn [app]. apply flat_ext. intros m. replace (flat_map (fun _ : enumd => []) (m_enums m)) with (@nil msgd) by (induction (m_enums m); auto). reflexivity.
Qed.
Lemma position_of v2 f m mi : names_apart v2 f -> nth_error (messages_of f) mi = Some m -> position (m_full m) (messages_of f) = mi.
Proof.
  intros NA. pose proof (units_once v2 f (na_once _ _ NA)) as U. rewrite ms_units. revert mi. induction (units f) as [|[e|k] us IH]; intros mi H; cbn [flat_map either app] in *.
  - destruct mi; discriminate H.
  - apply IH; [apply nodup_app_r in U; exact U|exact H].
  - destruct mi as [|mi]; cbn [nth_error] in H.
    + injection H as ->. cbn [position]. rewrite same_refl. reflexivity.
    + cbn [position]. rewrite same_false; [f_equal; apply IH; [apply nodup_app_r in U; exact U|exact H]|]. intros E.
      apply (nodup_app_not _ _ (camel (m_full k)) U).
      * unfold struct_decls. rewrite flat_map_app. apply in_or_app. right. left. reflexivity.
      * apply in_flat_map. apply nth_error_In in H. apply in_flat_map in H. destruct H as (u & Hu & H).
        exists u. split; [exact Hu|]. destruct u as [e|k']; cbn [either] in *; [destruct H|]. destruct H as [->|[]]. unfold struct_decls. rewrite flat_map_app. apply in_or_app. right. left. rewrite E. reflexivity.
Qed.
Lemma new_not_broken v2 S : compiles S = true -> forall fuel m, (m < length S)%nat -> GenModel.New v2 S fuel m <> GBroken /\ GenModel.New v2 S fuel m <> GPanic /\ forall e, GenModel.New v2 S fuel m <> GErr e.
Proof.
  intros C. induction fuel as [|fuel IH]; intros m Hm.
  - cbn [GenModel.New]. rewrite (fields_nth S m Hm). destruct v2; repeat split; discriminate.
  - destruct v2; [cbn [GenModel.New]; rewrite (fields_nth S m Hm); repeat split; discriminate|]. rewrite (new_each S fuel m _ (fields_nth S m Hm)).
    assert (K : forall g, In g (fields_of S m) -> field_compiles S g = true).
    { pose proof (compiles_msg S m C Hm) as K. unfold message_compiles in K. rewrite forallb_forall in K. exact K. }
    induction (fields_of S m) as [|g fs IHf]; [cbn; repeat split; discriminate|]. specialize (IHf (fun g H => K g (or_intror H))). cbn [each_new].
    assert (G : exists r x, (match g with One (Msg m0) => gbind (GenModel.New false S fuel m0) (fun _ x => GDone [] (GMsg (Some x))) | _ => GDone [] (zero g) end) = GDone r x \/
       (match g with One (Msg m0) => gbind (GenModel.New false S fuel m0) (fun _ x => GDone [] (GMsg (Some x))) | _ => GDone [] (zero g) end) = GDeep).
    { destruct g as [[k|k]|t|k t]; try (exists [], (zero (One (Scalar k))); left; reflexivity); try (do 2 eexists; left; reflexivity).
      pose proof (K _ (or_introl eq_refl)) as Kg. cbn [field_compiles] in Kg. apply Nat.ltb_lt in Kg. destruct (IH k Kg) as (N1 & N2 & N3).
      destruct (GenModel.New false S fuel k) as [r x|e| | |]; try (exfalso; first [congruence|eapply N3; reflexivity]); [do 2 eexists; left; reflexivity|exists [], (GMsg None); right; reflexivity]. }
    destruct G as (r & x & [-> | ->]); cbn [gbind]; [|repeat split; discriminate].
    destruct (each_new S fuel fs); cbn [gbind]; try exact IHf. repeat split; discriminate.
Qed.

Section Tops.
Variables (f : filed) (room : Z -> bool) (W : Z).
Notation ms := (messages_of f).
Notation Sch := (schema_of f).
Lemma in_schema mi m : nth_error ms mi = Some m -> (mi < length Sch)%nat.
Proof. intros H. unfold schema_of. rewrite map_length. apply nth_error_Some. congruence. Qed.
Lemma ran {m a fp s o} {t : run (list gval)} :
  returns o t s (fun xs' s' => exists fp', struct_at ms (heap s') a m xs' fp' /\ only_at (heap s) (heap s') (a :: fp) (a :: fp') /\ env s' = env s) ->
  snd t <> TBroken -> decode_ran ms m a fp s o t.
Proof.
  unfold returns, agrees, decode_ran. destruct t as (l & [r x|e x| | |]); cbn [snd fst]; auto.
  - intros (s' & E & Ei & (fp' & H1 & H2 & H3) & Em & Eo) _. exists s'. split; [exact E|]. split; [exact Ei|]. split; [exists fp'; auto|auto].
  - intros (s' & E & (fp' & H1 & H2 & H3) & Em & Eo) _. exists s'. split; [exact E|]. split; [exists fp'; auto|auto].
Qed.
Lemma limit_not_broken (t : run (list gval)) : snd t <> TBroken -> snd (limit room t) <> TBroken.
Proof. unfold limit. destruct (refused room (fst t)); [discriminate|auto]. Qed.
Theorem decode1_runs : names_apart false f -> compiles Sch = true -> forall m mi a xs fp b n s, nth_error ms mi = Some m -> struct_at ms (heap s) a m xs fp -> struct_type Sch xs mi -> bytes_ok b -> int_ok W b ->
  decode_ran ms m a fp s (call_go (go_program false f) room (V1Model.decode W) (S n) (Some (camel (m_full m))) (text ".Decode") [GoPtr (camel (m_full m)) (Some a); GoBase (VBytes b)] s) (Trace1 W room Sch n mi xs b).
Proof.
  intros NA CO m mi a xs fp b n s Hm Hs HT Hb Hi. apply ran; [exact (public_decode false f room _ NA CO (sound1 W) m mi a xs fp b n s Hm Hs)|].
  rewrite trace1_limit. apply limit_not_broken. destruct (trace1_tf W Sch n mi xs b CO HT (conj Hb Hi)) as (_ & K). intros E. rewrite E in K. exact K.
Qed.
Theorem decode2_runs : names_apart true f -> compiles Sch = true -> forall m mi a xs fp b n s, nth_error ms mi = Some m -> struct_at ms (heap s) a m xs fp -> struct_type Sch xs mi -> bytes_ok b -> int_ok W b ->
  decode_ran ms m a fp s (call_go (go_program true f) room (fun dst => V2Model.decode W (V1Model.oget dst)) (S n) (Some (camel (m_full m))) (text ".Decode") [GoPtr (camel (m_full m)) (Some a); GoBase (VBytes b)] s) (Trace2 W room Sch n mi xs b).
Proof.
  intros NA CO m mi a xs fp b n s Hm Hs HT Hb Hi. apply ran; [exact (public_decode true f room _ NA CO (sound2 W) m mi a xs fp b n s Hm Hs)|].
  rewrite trace2_limit. apply limit_not_broken. destruct (trace2_tf W Sch n mi xs b CO HT (conj Hb Hi)) as (_ & K). intros E. rewrite E in K. exact K.
Qed.
End Tops.
(** a nil receiver *)
Theorem decode_nil_runs v2 f room prim : names_apart v2 f -> forall m b n s, has_message f m ->
  call_go (go_program v2 f) room prim (S n) (Some (camel (m_full m))) (text ".Decode") [GoPtr (camel (m_full m)) None; GoBase (VBytes b)] s =
    Fine ([GoOwn (if v2 then text "ErrDecodeNil" else text "NilDecode")], s).
Proof.
  intros NA m b n s Hm. rewrite call_S. pose proof (own_found v2 f NA m (decode_outer_func v2 m)) as F. cbn [fn_recv fn_name decode_outer_func] in F. rewrite F by (first [exact Hm|unfold own_func; auto 10]).
  destruct s. destruct v2; reflexivity.
Qed.
(** NewM *)
Theorem new_runs v2 f room prim : names_apart v2 f -> compiles (schema_of f) = true -> sound_prim prim -> forall m mi n s, nth_error (messages_of f) mi = Some m ->
  match GenModel.New v2 (schema_of f) (S n) mi with
  | GDone _ xs => exists s' a fp, call_go (go_program v2 f) room prim (S n) None (new_name (camel (m_full m))) [] s = Fine ([GoPtr (camel (m_full m)) (Some a)], s') /\
      struct_at (messages_of f) (heap s') a m xs fp /\ only_at (heap s) (heap s') [] (a :: fp) /\ env s' = env s /\ inp s' = inp s /\ out s' = out s /\ made s' = made s
  | GDeep => call_go (go_program v2 f) room prim (S n) None (new_name (camel (m_full m))) [] s = Deep
  | _ => False
  end.
Proof.
  intros NA CO SP m mi n s Hm. pose proof (proj1 (calls_ok v2 f room prim SP NA CO (S n)) m mi s Hm) as H.
  destruct (new_not_broken v2 (schema_of f) CO (S n) mi (in_schema f mi m Hm)) as (N1 & N2 & N3).
  destruct (GenModel.New v2 (schema_of f) (S n) mi) as [r xs|e| | |]; try congruence; try exact H.
  destruct H as [(H & _)|H]; [discriminate H|exact H].
Qed.
