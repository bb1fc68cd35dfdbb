(** enums.templ, structs.templ of the TypeScript generator: what they write. *)
From Coq Require Import String Ascii.
From Verif Require Import Base Spec GenTables NameModel NameSpec NameThms3 EmitModel EmitSpec EmitThms TplSpec TsGenModel TsGenSpec TsGenThms GoAst GoEmit TsTplText TplModel TplGo TplExec GoLex GoLexThms TsLex TsLexThms TsTpl TsTplThms TsTplThms2 TsTplThms3 TsTplThms4.
From Verif Require TplThms TplThms7 TplThms8 RsTplThms5.
Import TplThms (some, truth_list, truth_b, truth_nil, sameb, equal_text, equal_kind, equal_card, both_assoc).
Import TplThms7 (digits_ok).
Import TplThms8 (structs_eq, height_nested).
Import RsTplThms5 (numbered_nth, numbered_length).
Local Open Scope list_scope.

(** numbers *)
Lemma JLex_int z : 0 <= z -> JLex (JNone false) (show_int z) [] (JNum (show_int z)).
Proof.
  intros Hz. unfold show_int. destruct (Z.ltb_spec z 0); [lia|]. destruct (digits_ok 70 z Hz ltac:(lia)) as (c & x & -> & H1 & H2).
  assert (M : forall w x, forallb digitb x = true -> JLex (JNum w) x [] (JNum (w ++ x))).
  { intros w y. revert w. induction y as [|a y IH]; intros w Hy; [rewrite app_nil_r; reflexivity|]. cbn [forallb] in Hy. apply andb_true_iff in Hy. destruct Hy as (Ha & Hy). unfold JLex. cbn [js_lex js_step].
    unfold wordb. rewrite Ha, orb_true_r. specialize (IH (w ++ [a]) Hy). unfold JLex in IH. rewrite IH. cbn [app]. rewrite <- app_assoc. reflexivity. }
  unfold JLex. cbn [js_lex js_step]. unfold js_fresh.
  assert (E : ((c =? 10) || (c =? 13)) = false /\ ((c =? 32) || (c =? 9)) = false /\ letterb c = false) by (unfold digitb in H1; unfold letterb; repeat split; lia). destruct E as (-> & -> & ->). rewrite H1.
  specialize (M [c] x H2). unfold JLex in M. rewrite M. reflexivity.
Qed.
Local Opaque ts_call_of truth equal loop show_int.
Definition ts_efine (e : enumd) : Prop := wname (camel (e_full e)) = true /\ forall v, In v (e_values e) -> wname (v_name v) = true.
Definition value_tokens (iv : Z * evald) : list token := [nl; Id (v_name (snd iv)); op "="; Lit (show_int (fst iv)); op ","].
Lemma t_enum o n e : ts_efine e -> writes (RUN o (S n) "enum" (VEnum e)) (JNone true) (j_decl (ts_enum e)) (JNone true).
Proof.
  intros (N & NV). rewrite run_S. unfold ts_enum. cbn [j_decl]. rewrite flat_map_map. cbn [fst snd]. change (fun a : Z * evald => [nl; Id (v_name (snd a)); op "="; Lit (show_int (fst a)); op ","]) with value_tokens.
  eapply writes_eq; [ex; w; mid; [|w]| |].
  - rewrite <- (numbered_length (e_values e) 0). apply (loop_nth_writes _ VStruct value_tokens). intros j iv Hj. destruct (numbered_nth _ _ _ _ Hj) as (v & Hv & ->).
    rewrite (at_nth _ _ _ Hv). assert (GV := NV v (nth_error_In _ _ Hv)). cbn [option_map]. generalize (JLex_int (Z.of_nat j)). intros LI. specialize (LI ltac:(lia)). unfold value_tokens. cbn [fst snd]. change (0 + Z.of_nat j) with (Z.of_nat j). set (i := show_int (Z.of_nat j)) in *.
    eapply writes_eq; [ex; w|jfin|reflexivity].
  - jfin.
  - reflexivity.
Qed.
(** structs.templ *)
Definition class_tokens (m : msgd) : list token :=
  [nl; id "export"; id "class"; Id (camel (m_full m)); op "{"; nl; id "constructor"; op "("] ++ flat_map j_param (m_fields m) ++ [nl; op ")"; op "{"] ++
  flat_map j_assign (m_fields m) ++ [nl; op "}"] ++ flat_map j_property (m_fields m) ++ encode_tokens m ++ decode_tokens m ++ [nl; op "}"].
Lemma class_ok m : j_decl (tclass m) = class_tokens m.
Proof.
  unfold tclass, class_tokens, encode_tokens, decode_tokens. cbn [j_decl]. rewrite !flat_map_map. cbn [fst]. 
  set (A := flat_map (fun a => j_param a) _). change (flat_map j_param (m_fields m)) with A. set (B := flat_map (fun a => j_assign a) _). change (flat_map j_assign (m_fields m)) with B. set (C := flat_map (fun a => j_property a) _). change (flat_map j_property (m_fields m)) with C.
  norm. reflexivity.
Qed.
Lemma structs_tokens m : flat_map j_decl (structs (fun m => [tclass m]) m) =
  flat_map (fun a => if m_entry a then [] else flat_map j_decl (structs (fun m => [tclass m]) a)) (m_nested m) ++ class_tokens m.
Proof.
  rewrite structs_eq, flat_map_app, flat_map_flat. f_equal; [apply flat_map_ext; intros a; destruct (m_entry a); reflexivity|]. cbn [flat_map]. rewrite app_nil_r. apply class_ok.
Qed.
Lemma t_structs1 o n m : wname (camel (m_full m)) = true -> Forall ffine (m_fields m) ->
  (forall a, In a (m_nested m) -> m_entry a = false -> writes (RUN o (S (S n)) "structs" (VMsg a)) (JNone true) (flat_map j_decl (structs (fun m => [tclass m]) a)) (JNone true)) ->
  writes (RUN o (S (S (S n))) "structs" (VMsg m)) (JNone true) (flat_map j_decl (structs (fun m => [tclass m]) m)) (JNone true).
Proof.
  intros N F IH. rewrite run_S, structs_tokens. unfold class_tokens. assert (TE := t_encode o n m N F). assert (TD := t_decode o n m N F).
  eapply writes_eq; [ex; w; mid; [|w; mid; [|w; mid; [|w; mid; [|w; mid; [exact TE|w; mid; [exact TD|w]]]]]]| |].
  - apply (loop_nth_writes _ VStruct (fun a => if m_entry a then [] else flat_map j_decl (structs (fun m => [tclass m]) a))). intros j a Hj. rewrite (at_nth _ _ _ Hj). cbn [option_map]. specialize (IH a (nth_error_In _ _ Hj)). clear Hj. ex.
    destruct (m_entry a); cbn [negb]; [eapply writes_eq; [ex; w|reflexivity|reflexivity]|]. specialize (IH eq_refl). eapply writes_eq; [ex; w; mid; [exact IH|w]|norm; rewrite ?app_nil_r; reflexivity|reflexivity].
  - apply (loop_nth_writes _ VStruct j_param). intros j fd Hj. rewrite (at_nth _ _ _ Hj). cbn [option_map]. rewrite Forall_forall in F. assert (Q := F fd (nth_error_In _ _ Hj)). clear Hj F IH TE TD.
    assert (FC := find_call o fd Q). destruct (typed_ffine _ Q) as (pre & s & tw & LT & CT & ET). destruct Q as (Nf & Ht). unfold j_param. rewrite ET. shape fd. jnames. named o nm Nf. eapply writes_eq; [ex; rewrite FC; ex; w|jfin|reflexivity].
  - apply (loop_nth_writes _ VStruct j_assign). intros j fd Hj. rewrite (at_nth _ _ _ Hj). cbn [option_map]. rewrite Forall_forall in F. assert (Q := F fd (nth_error_In _ _ Hj)). clear Hj F IH TE TD.
    destruct Q as (Nf & Ht). unfold j_assign, mine. shape fd. jnames. named o nm Nf. eapply writes_eq; [ex; w|jfin|reflexivity].
  - apply (loop_nth_writes _ VStruct j_property). intros j fd Hj. rewrite (at_nth _ _ _ Hj). cbn [option_map]. rewrite Forall_forall in F. assert (Q := F fd (nth_error_In _ _ Hj)). clear Hj F IH TE TD.
    assert (FC := find_call o fd Q). destruct (typed_ffine _ Q) as (pre & s & tw & LT & CT & ET). destruct Q as (Nf & Ht). unfold j_property, j_assign, mine. rewrite ET. shape fd. jnames. named o nm Nf. eapply writes_eq; [ex; rewrite FC; ex; w|jfin|reflexivity].
  - norm. rewrite ?app_nil_r. jfin.
  - reflexivity.
Qed.
Definition ts_mfine (m : msgd) : Prop := wname (camel (m_full m)) = true /\ Forall ffine (m_fields m).
Lemma t_structs o h : forall m n, (height m <= h)%nat -> (forall k, inside m k -> ts_mfine k) ->
  writes (RUN o (S (S (h + n))) "structs" (VMsg m)) (JNone true) (flat_map j_decl (structs (fun m => [tclass m]) m)) (JNone true).
Proof.
  induction h as [|h IH]; intros m n Hh H; [destruct m; cbn in Hh; lia|]. destruct (H m (inside_self m)) as (H1 & H2). cbn [Nat.add]. apply t_structs1; [exact H1|exact H2|].
  intros a Ha Ea. apply IH; [assert (L := height_nested _ _ Ha); lia|]. intros k Hk. apply H. exact (inside_nested _ _ _ Ha Ea Hk).
Qed.
