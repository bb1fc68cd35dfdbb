(** decode.templ: what internalDecode writes. *)
From Coq Require Import String Ascii.
From Verif Require Import Base Spec GenTables NameModel NameSpec EmitModel EmitSpec EmitThms GoAst GoEmit TplText TplModel TplGo TplExec GoLex GoLexThms TplThms.
Local Open Scope list_scope.

Definition scalar_kind (k : pkind) : Prop := k <> KGroup /\ k <> KEnum /\ k <> KMessage.
Definition tfine (many : bool) (t : ftyp) : Prop :=
  match t with
  | TScalar k => scalar_kind k
  | TEnum s => if many then exists w, camel (text "[]" ++ s) = text "[]" ++ w /\ nameb w = true else goodb (camel s) = true
  | TMsg s => goodb (camel s) = true
  | TMap _ _ => False
  end.
Definition ffine (fd : fieldd) : Prop :=
  goodb (goname fd) = true /\
  match f_typ fd with
  | TMap k v => f_many fd = true /\ goodb (camel (f_full fd)) = true /\ (exists k', k = TScalar k' /\ scalar_kind k') /\ tfine false v
  | t => tfine (f_many fd) t
  end.
Lemma fine_kindly many t : tfine many t -> kindly t.
Proof. destruct t; cbn; auto. Qed.
Lemma ffine_kindly fd : ffine fd -> kindly (f_typ fd).
Proof. intros (_ & H). destruct (f_typ fd) eqn:E; cbn; auto. Qed.
Lemma map_camel s : CamelCase (AppendString [s; text "Map"]) = Ok (camel s ++ text "Map").
Proof. rewrite append2, camel_ok, camel_map. reflexivity. Qed.
Lemma type_typed fd : ffine fd -> exists pre w, typed (type_text fd) pre w.
Proof.
  intros (G & H). unfold type_text, FindValue. destruct fd as [nm fu many t]. cbn [f_typ f_many f_full] in *. destruct t as [k|s|s|k v].
  - destruct H as (H1 & H2 & H3).
    assert (B : exists pre w, typed (text (entry (go_typeLUT k))) pre w).
    { destruct k; try congruence; (eexists; eexists; first [apply typed_name; reflexivity|apply (typed_slice (text "byte")), typed_name; reflexivity]). }
    assert (E : go_typeLUT k = Some (entry (go_typeLUT k))) by (destruct k; try reflexivity; congruence). rewrite E. destruct B as (pre & w & B).
    destruct many; [exists (op "[" :: op "]" :: pre), w; apply typed_slice, B|exists pre, w; exact B].
  - cbn in H. destruct many.
    + destruct H as (w & E & N). rewrite append2, camel_ok, E. eexists; eexists. apply typed_slice, typed_name, N.
    + rewrite camel_ok. eexists; eexists. apply typed_name, good_name, H.
  - rewrite camel_ok. cbn [bind]. destruct many.
    + rewrite append3. eexists; eexists. apply typed_slice, typed_ptr, good_name, H.
    + rewrite append2. eexists; eexists. apply typed_ptr, good_name, H.
  - rewrite map_camel. destruct H as (_ & H & _). eexists; eexists. apply typed_name. known.
Qed.
Lemma map_fine nm fu many k v : ffine (mkfield nm fu many (TMap k v)) -> ffine (map_key (mkfield nm fu many (TMap k v)) k) /\ ffine (map_value (mkfield nm fu many (TMap k v)) v).
Proof.
  intros (_ & (_ & _ & (k' & -> & K) & V)). cbn [f_typ] in *. split; (split; [reflexivity|]); cbn [map_key map_value f_typ f_many]; [exact K|]. destruct v; try exact V. destruct V.
Qed.
(** the groups of fields *)
Lemma decoding_groups fs : Forall ffine fs -> forall ms ss os,
  decoding_fields fs ms ss os = let g := get_fields go_decodeLUT fs in Some (ms ++ g_messages g, ss ++ g_slices g, os ++ g_values g).
Proof.
  induction 1 as [|fd fs (H1 & H) F IH]; intros ms ss os; [cbn; rewrite !app_nil_r; reflexivity|]. cbn [decoding_fields get_fields].
  destruct (f_many fd && negb (is_map fd)); [rewrite IH; cbn zeta; cbn [g_messages g_slices g_values]; rewrite <- app_assoc; reflexivity|].
  destruct (go_decodeLUT (kind_of (f_typ fd))) eqn:E; [rewrite IH; cbn zeta; cbn [g_messages g_slices g_values]; rewrite <- app_assoc; reflexivity|].
  assert (K : kind_of (f_typ fd) = KMessage).
  { destruct (f_typ fd) as [k| | |]; try reflexivity; [|discriminate E]. destruct H as (K1 & K2 & K3). destruct k; try discriminate E; congruence. }
  rewrite K, IH. cbn zeta. cbn [g_messages g_slices g_values]. rewrite <- app_assoc. reflexivity.
Qed.
Lemma decoding_call fs : Forall ffine fs -> call_of "GetDecodingFields" [VFieldList fs] =
  Some (VRec [("MessageFields"%string, VList (map VField (g_messages (get_fields go_decodeLUT fs)))); ("SliceFields"%string, VList (map VField (g_slices (get_fields go_decodeLUT fs))));
              ("Other"%string, VList (map VField (g_values (get_fields go_decodeLUT fs))))]).
Proof. intros F. unfold call_of. cbn [String.eqb Ascii.eqb Bool.eqb]. rewrite decoding_groups by exact F. reflexivity. Qed.
(** which field is in which group *)
Lemma groups_cases lut fs fd : let g := get_fields lut fs in
  (In fd (g_values g) -> In fd fs /\ f_many fd && negb (is_map fd) = false /\ lut (kind_of (f_typ fd)) <> None) /\
  (In fd (g_slices g) -> In fd fs /\ f_many fd = true /\ is_map fd = false) /\
  (In fd (g_messages g) -> In fd fs /\ f_many fd && negb (is_map fd) = false /\ lut (kind_of (f_typ fd)) = None).
Proof.
  cbn zeta. induction fs as [|a fs (I1 & I2 & I3)]; [cbn; tauto|]. cbn [get_fields In].
  destruct (f_many a && negb (is_map a)) eqn:M; [|destruct (lut (kind_of (f_typ a))) eqn:L]; cbn [g_values g_slices g_messages In].
  - apply andb_true_iff in M. destruct M as (M & M'). apply negb_true_iff in M'. split; [|split].
    + intros H. specialize (I1 H). tauto.
    + intros [<-|H]; [auto|]. specialize (I2 H). tauto.
    + intros H. specialize (I3 H). tauto.
  - split; [|split].
    + intros [<-|H]; [split; [auto|split; [exact M|congruence]]|]. specialize (I1 H). tauto.
    + intros H. specialize (I2 H). tauto.
    + intros H. specialize (I3 H). tauto.
  - split; [|split].
    + intros H. specialize (I1 H). tauto.
    + intros H. specialize (I2 H). tauto.
    + intros [<-|H]; [split; [auto|split; [exact M|exact L]]|]. specialize (I3 H). tauto.
Qed.
Lemma groups_some lut fs : some (g_values (get_fields lut fs)) || some (g_slices (get_fields lut fs)) || some (g_messages (get_fields lut fs)) = some fs.
Proof.
  destruct fs as [|a fs]; [reflexivity|]. cbn [get_fields]. destruct (f_many a && negb (is_map a)); [|destruct (lut (kind_of (f_typ a)))]; cbn [g_values g_slices g_messages some].
  - rewrite orb_true_r. reflexivity.
  - reflexivity.
  - apply orb_true_r.
Qed.
Lemma block_app l1 l2 : t_block t_stmt true (l1 ++ l2) = t_block t_stmt true l1 ++ t_block t_stmt true l2.
Proof. induction l1 as [|c l1 IH]; [reflexivity|]. cbn [app t_block]. rewrite IH, <- !app_assoc. reflexivity. Qed.
Lemma block_flat {A} (f : A -> list stmt) l : t_block t_stmt true (flat_map f l) = flat_map (fun a => t_block t_stmt true (f a)) l.
Proof. induction l as [|a l IH]; [reflexivity|]. cbn [flat_map]. rewrite block_app, IH. reflexivity. Qed.

Lemma declut_call k : call_of "GetLUTDecoder" [VKind k] = Some (VText (text (entry (go_decodeLUT k)))).
Proof. reflexivity. Qed.
Lemma custom_call : call_of "CustomDecode" [] = Some (VText []). Proof. reflexivity. Qed.


Local Opaque call_of truth equal loop.
Ltac same_types := repeat match goal with H : t_type (type_text _) = _ |- _ => rewrite H end.
Ltac same_tokens ::= prog; names; cbn; same_types; rewrite ?t_ptr, ?t_type_name by known; cbn; rewrite <- ?app_assoc; reflexivity.
Ltac step2 := step1; try match goal with |- context [call_of "GetLUTDecoder" [VKind _]] => rewrite !declut_call end; try match goal with |- context [call_of "CustomDecode" _] => rewrite !custom_call end.
Ltac ex1 ::= step2.
Arguments go_GetKind : simpl nomatch.
Arguments entry : simpl nomatch.
Arguments kind_of : simpl nomatch.
(** one field *)
Lemma value_kinds fd : ffine fd -> f_many fd && negb (is_map fd) = false -> go_decodeLUT (kind_of (f_typ fd)) <> None ->
  f_many fd = false /\ ((exists k, f_typ fd = TScalar k /\ scalar_kind k) \/ exists s, f_typ fd = TEnum s /\ goodb (camel s) = true).
Proof.
  intros (_ & H) M L. unfold is_map in M. destruct (f_typ fd) as [k|s|s|k v] eqn:E.
  - rewrite andb_true_r in M. split; [exact M|]. left. exists k. split; [reflexivity|exact H].
  - rewrite andb_true_r in M. split; [exact M|]. right. exists s. rewrite M in H. split; [reflexivity|exact H].
  - exfalso. apply L. reflexivity.
  - exfalso. apply L. reflexivity.
Qed.
Lemma message_kinds fd : ffine fd -> f_many fd && negb (is_map fd) = false -> go_decodeLUT (kind_of (f_typ fd)) = None ->
  (f_many fd = false /\ exists s, f_typ fd = TMsg s /\ goodb (camel s) = true) \/ exists k v, f_typ fd = TMap k v.
Proof.
  intros (_ & H) M L. unfold is_map in M. destruct (f_typ fd) as [k|s|s|k v] eqn:E.
  - exfalso. destruct H as (H1 & H2 & H3). cbn in L. destruct k; try discriminate L; congruence.
  - discriminate L.
  - rewrite andb_true_r in M. left. split; [exact M|]. exists s. split; [reflexivity|exact H].
  - right. exists k, v. reflexivity.
Qed.
Ltac err_piece g :=
  instantiate (1 := st0 true); instantiate (1 := t_block t_stmt true (match m_fields _ with [] => [] | _ => [Let n_err (text "error")] end)).
Lemma fine_kind many t : tfine many t -> kind_of t <> KGroup.
Proof. destruct t as [k| | |]; cbn; try discriminate. intros (H & _). exact H. Qed.
Ltac tpl_with rws toks := eapply writes_eq; [ex; rws; w|names; prog; cbn; toks; same_types; rewrite ?t_ptr, ?t_type_name by known; cbn; rewrite <- ?app_assoc; reflexivity|reflexivity].
Ltac map_field FF :=
  let Nf := fresh in let Mf := fresh in let Nm := fresh in let K := fresh in let V := fresh in let k' := fresh "k" in let Ek := fresh in let Q1 := fresh in let Q2 := fresh in
  let w1 := fresh "w" in let w2 := fresh "w" in let E1 := fresh in let E2 := fresh in let N1 := fresh in let N2 := fresh in let D1 := fresh in let D2 := fresh in
  destruct FF as (Nf & (Mf & Nm & (k' & Ek & K) & V)); cbn [f_many f_full f_typ] in *; unfold goname in Nf; cbn [f_name] in Nf; subst;
  assert (Q1 := proj1 K); assert (Q2 := fine_kind _ _ V);
  destruct (kind_word _ Q1) as (w1 & E1 & N1 & D1); destruct (kind_word _ Q2) as (w2 & E2 & N2 & D2);
  tpl_with ltac:(rewrite E1, E2) ltac:(unfold braces, parens; cbn; rewrite D1, D2).
Ltac internal v2 m F :=
  let FF := fresh "FF" in assert (FF := F); rewrite Forall_forall in FF;
  eapply writes_eq;
  [ ex; rewrite (decoding_call _ F); ex;
    let g := fresh "g" in set (g := get_fields go_decodeLUT (m_fields m)); w;
    eapply writes_both;
    [ instantiate (1 := st0 true); instantiate (1 := t_block t_stmt true (match m_fields m with [] => [] | _ => [Let n_err (text "error")] end));
      let Q := fresh in let E1 := fresh in let E2 := fresh in let E3 := fresh in
      assert (Q := groups_some go_decodeLUT (m_fields m)); fold g in Q;
      destruct (some (g_values g)) eqn:E1; [|destruct (some (g_slices g)) eqn:E2]; ex; rewrite ?E1, ?E2; cbn [orb] in Q; [| |destruct (some (g_messages g)) eqn:E3; cbn [orb] in Q];
        (destruct (m_fields m); try discriminate Q); cbn; (eapply writes_eq; [w|same_tokens|reflexivity])
    | w1; w1; eapply writes_both;
      [ apply (loop_writes _ VField (fun fd => t_block t_stmt true (decode_other v2 fd))); intros j fd Hfd;
        apply groups_cases in Hfd; destruct Hfd as (Hfd & M & L); specialize (FF _ Hfd); destruct (value_kinds fd FF M L) as (Mf & Ht); destruct FF as (Nf & _); destruct fd as [nm fu many t]; unfold goname in Nf; cbn in Mf, Ht, Nf; subst many; clear M L Hfd;
        destruct Ht as [(k & -> & (K1 & K2 & K3))|(s & -> & K)]; [destruct k; try congruence; tpl|tpl]
      | eapply writes_both;
        [ instantiate (1 := st0 true); instantiate (1 := t_block t_stmt true (match g_slices g with [] => [] | _ => [Let n_slice n_u32] end));
          destruct (g_slices g); cbn; (eapply writes_eq; [w|same_tokens|reflexivity])
        | eapply writes_both;
          [ apply (loop_writes _ VField (fun fd => t_block t_stmt true (decode_slice fd))); intros j fd Hfd;
            apply groups_cases in Hfd; destruct Hfd as (Hfd & M & L); specialize (FF _ Hfd); destruct (type_typed fd FF) as (pre & wd & Wn & Wt & l & Wl); assert (KK := ffine_kindly fd FF); destruct FF as (Nf & Ht); destruct fd as [nm fu many t]; unfold goname, is_map in *; cbn in L, M, Ht, Nf; subst many; clear Hfd;
            destruct t as [k|s|s|k v]; [destruct Ht as (K1 & K2 & K3); destruct k; try congruence; tpl|tpl|tpl|discriminate L]
          | eapply writes_both;
            [ apply (loop_writes _ VField (fun fd => t_block t_stmt true (decode_message v2 fd))); intros j fd Hfd;
              apply groups_cases in Hfd; destruct Hfd as (Hfd & M & L); specialize (FF _ Hfd); destruct (message_kinds fd FF M L) as [(Mf & s & Ht & K)|(k & v & Ht)]; destruct fd as [nm fu many t]; cbn in Ht; subst t;
              [destruct FF as (Nf & _); unfold goname in Nf; cbn in Mf, Nf; subst many; clear M L Hfd; tpl|clear M L Hfd; map_field FF]
            | w ] ] ] ] ]
  | | reflexivity ].
Lemma decode_tokens v2 m : nameb (camel (m_full m)) = true -> let g := get_fields go_decodeLUT (m_fields m) in
  t_func v2 (decode_func v2 m) =
  [id "func"; op "("; id "x"; op "*"; Id (camel (m_full m)); op ")"; id "decode"; op "("; id "d"; op "*"; id "polyglot"; op "."; id (if v2 then "BufferDecoder" else "Decoder"); op ")"; id "error"; op "{";
   id "if"; id "d"; op "."; id "Nil"; op "("; op ")"; op "{"; id "return"; id "nil"; op "}"] ++
  t_block t_stmt true (match m_fields m with [] => [] | _ => [Let n_err (text "error")] end) ++
  flat_map (fun fd => t_block t_stmt true (decode_other v2 fd)) (g_values g) ++
  t_block t_stmt true (match g_slices g with [] => [] | _ => [Let n_slice n_u32] end) ++
  flat_map (fun fd => t_block t_stmt true (decode_slice fd)) (g_slices g) ++
  flat_map (fun fd => t_block t_stmt true (decode_message v2 fd)) (g_messages g) ++ [semi; id "return"; id "nil"; op "}"].
Proof.
  intros N g. unfold t_func, decode_func. cbn [fn_recv fn_params fn_types fn_result fn_name fn_body combine map]. unfold t_param, braces. cbn [fst snd t_sig]. rewrite t_ptr by exact N. cbn [app t_block].
  rewrite !block_app, !block_flat. fold g. destruct v2; cbn; rewrite <- !app_assoc; reflexivity.
Qed.
Lemma t_internal v2 n m : goodb (camel (m_full m)) = true -> Forall ffine (m_fields m) ->
  writes (RUN v2 (S n) "internalDecode" (VMsg m)) (st0 true) (semi :: t_func v2 (decode_func v2 m)) (st0 true).
Proof.
  intros N F. rewrite run_S. destruct v2.
  - internal true m F. rewrite decode_tokens by known. reflexivity.
  - internal false m F. rewrite decode_tokens by known. reflexivity.
Qed.
