(** enums.templ, structs.templ: what they write. *)
From Coq Require Import String Ascii.
From Verif Require Import Base Spec GenTables NameModel NameSpec EmitModel EmitSpec EmitThms TplSpec GoAst GoEmit RsGenModel RsAst RsEmit RsTplText TplModel TplGo TplExec GoLex GoLexThms RsLex RsLexThms RsTpl RsTplThms RsTplThms2 RsTplThms3 RsTplThms4.
From Verif Require TplThms TplThms2 TplThms7 TplThms8.
Import TplThms (some, truth_list, truth_b, truth_nil, sameb, equal_text, equal_kind, equal_card, both_assoc).
Import TplThms7 (digits_ok).
Import TplThms8 (structs_eq, height_nested).
Local Open Scope list_scope.

(** numbers *)
Lemma RLex_int z : 0 <= z -> RLex RNone (show_int z) [] (RNum (show_int z)).
Proof.
  intros Hz. unfold show_int. destruct (Z.ltb_spec z 0); [lia|]. destruct (digits_ok 70 z Hz ltac:(lia)) as (c & x & -> & H1 & H2).
  assert (M : forall w x, forallb digitb x = true -> RLex (RNum w) x [] (RNum (w ++ x))).
  { intros w y. revert w. induction y as [|a y IH]; intros w Hy; [rewrite app_nil_r; reflexivity|]. cbn [forallb] in Hy. apply andb_true_iff in Hy. destruct Hy as (Ha & Hy). unfold RLex. cbn [rs_lex rs_step].
    unfold wordb. rewrite Ha, orb_true_r. specialize (IH (w ++ [a]) Hy). unfold RLex in IH. rewrite IH. cbn [app]. rewrite <- app_assoc. reflexivity. }
  unfold RLex. cbn [rs_lex rs_step]. unfold rs_fresh.
  assert (E : ((c =? 10) || (c =? 32) || (c =? 9) || (c =? 13)) = false /\ letterb c = false) by (unfold digitb in H1; unfold letterb; split; lia). destruct E as (-> & ->). rewrite H1.
  specialize (M [c] x H2). unfold RLex in M. rewrite M. reflexivity.
Qed.
Local Opaque rs_call_of truth equal loop show_int.
Lemma numbered_nth {A} (l : list A) : forall i j p, nth_error (numbered i l) j = Some p -> exists a, nth_error l j = Some a /\ p = (i + Z.of_nat j, a).
Proof.
  induction l as [|a l IH]; intros i j p H; [destruct j; discriminate H|]. destruct j as [|j]; cbn [numbered nth_error] in H.
  - injection H as <-. exists a. split; [reflexivity|]. f_equal. lia.
  - destruct (IH _ _ _ H) as (b & E & ->). exists b. split; [exact E|]. f_equal. lia.
Qed.
Lemma numbered_length {A} (l : list A) : forall i, length (numbered i l) = length l. Proof. induction l as [|a l IH]; intros i; [reflexivity|]. cbn [numbered length]. rewrite IH. reflexivity. Qed.
Definition rs_efine (e : enumd) : Prop := wname (camel (e_full e)) = true /\ forall v, In v (e_values e) -> wname (v_name v) = true.
Definition const_tokens (iv : Z * evald) : list token := [Id (v_name (snd iv)); op "="; Lit (show_int (fst iv)); op ","].
Lemma enum_tokens e : flat_map r_decl (rs_enum_decl e) =
  [op "#"; op "["; id "derive"; op "("; id "Debug"; op ","; id "Eq"; op ","; id "PartialEq"; op ","; id "TryFromPrimitive"; op ","; id "Copy"; op ","; id "Clone"; op ")"; op "]";
   op "#"; op "["; id "repr"; op "("; id "u32"; op ")"; op "]"; id "pub"; id "enum"; Id (camel (e_full e)); op "{"] ++ flat_map const_tokens (numbered 0 (e_values e)) ++ [op "}"].
Proof.
  unfold rs_enum_decl. cbn [flat_map r_decl]. rewrite app_nil_r, flat_map_map. unfold parens. cbn [map commas]. norm. unfold const_tokens. cbn [fst snd]. reflexivity.
Qed.
Lemma t_enum p n e : rs_efine e -> writes (RUN p (S n) "enum" (VEnum e)) RNone (flat_map r_decl (rs_enum_decl e)) RNone.
Proof.
  intros (N & NV). rewrite run_S, enum_tokens. eapply writes_eq; [ex; w; mid; [|w]| |].
  - rewrite <- (numbered_length (e_values e) 0). apply (loop_nth_writes _ VStruct const_tokens). intros j iv Hj. destruct (numbered_nth _ _ _ _ Hj) as (v & Hv & ->).
    rewrite (at_nth _ _ _ Hv). assert (GV := NV v (nth_error_In _ _ Hv)). cbn [option_map]. generalize (RLex_int (Z.of_nat j)). intros LI. specialize (LI ltac:(lia)). unfold const_tokens. cbn [fst snd]. change (0 + Z.of_nat j) with (Z.of_nat j). set (i := show_int (Z.of_nat j)) in *.
    eapply writes_eq; [ex; w|reflexivity|reflexivity].
  - norm. reflexivity.
  - reflexivity.
Qed.
(** structs.templ *)
Definition sfield_tokens (p : bytes) (fd : fieldd) : list token := r_vis (privacy p) ++ Id (rsname fd) :: op ":" :: r_type (rs_type_of_field fd) ++ [op ","].
Lemma structs_tokens p m : flat_map r_decl (structs (rs_structs_decl p) m) =
  flat_map (fun a => if m_entry a then [] else flat_map r_decl (structs (rs_structs_decl p) a)) (m_nested m) ++
  [id "pub"; id "struct"; Id (camel (m_full m)); op "{"] ++ flat_map (sfield_tokens p) (m_fields m) ++ [op "}"] ++
  r_decl (DEncode (camel (m_full m)) (rs_encode_body m)) ++ r_decl (DDecode (camel (m_full m)) (rs_decode_body m)).
Proof.
  rewrite structs_eq, flat_map_app, flat_map_flat. f_equal; [apply flat_map_ext; intros a; destruct (m_entry a); reflexivity|].
  unfold rs_structs_decl. cbn [flat_map]. rewrite app_nil_r. set (A := r_decl (DEncode _ _)). set (B := r_decl (DDecode _ _)). cbn [r_decl]. rewrite flat_map_map. norm. reflexivity.
Qed.
Lemma t_structs1 p n m : wname (camel (m_full m)) = true -> Forall ffine (m_fields m) ->
  (forall a, In a (m_nested m) -> m_entry a = false -> writes (RUN p (S (S n)) "structs" (VMsg a)) RNone (flat_map r_decl (structs (rs_structs_decl p) a)) RNone) ->
  writes (RUN p (S (S (S n))) "structs" (VMsg m)) RNone (flat_map r_decl (structs (rs_structs_decl p) m)) RNone.
Proof.
  intros N F IH. rewrite run_S, structs_tokens. assert (TE := t_encode p n m N F). assert (TD := t_decode p n m N F).
  eapply writes_eq; [ex; w; mid; [|w; mid; [|w; mid; [exact TE|w; mid; [exact TD|w]]]]| |].
  - apply (loop_nth_writes _ VStruct (fun a => if m_entry a then [] else flat_map r_decl (structs (rs_structs_decl p) a))). intros j a Hj. rewrite (at_nth _ _ _ Hj). cbn [option_map]. specialize (IH a (nth_error_In _ _ Hj)). clear Hj. ex.
    destruct (m_entry a); cbn [negb]; [eapply writes_eq; [ex; w|reflexivity|reflexivity]|]. specialize (IH eq_refl). eapply writes_eq; [ex; w; mid; [exact IH|w]|norm; rewrite ?app_nil_r; reflexivity|reflexivity].
  - apply (loop_nth_writes _ VStruct (sfield_tokens p)). intros j fd Hj. rewrite (at_nth _ _ _ Hj). cbn [option_map]. rewrite Forall_forall in F. assert (Q := F fd (nth_error_In _ _ Hj)). clear Hj F IH TE TD.
    destruct (typed_ffine _ Q) as (_ & (pre & s & tw & LT & CT & ET)). fold (type_of fd) in LT. assert (FC := find_call p fd Q). destruct Q as (Nf & Ht). unfold sfield_tokens. rewrite ET. unfold privacy.
    change (same p (text "private")) with (sameb p (text "private")). change (same p (text "public")) with (sameb p (text "public")).
    shape fd. destruct (sameb p (text "private")) eqn:P1; [|destruct (sameb p (text "public")) eqn:P2];
      (eapply writes_eq; [ex; rewrite FC; ex; rewrite ?P1, ?P2; ex; w|cbn [r_vis map commas]; unfold rsname; cbn [f_name]; unfold parens; norm; rewrite ?app_nil_r; reflexivity|reflexivity]).
  - norm. rewrite ?app_nil_r. reflexivity.
  - reflexivity.
Qed.
Definition rs_mfine (m : msgd) : Prop := wname (camel (m_full m)) = true /\ Forall ffine (m_fields m).
Lemma t_structs p h : forall m n, (height m <= h)%nat -> (forall k, inside m k -> rs_mfine k) ->
  writes (RUN p (S (S (h + n))) "structs" (VMsg m)) RNone (flat_map r_decl (structs (rs_structs_decl p) m)) RNone.
Proof.
  induction h as [|h IH]; intros m n Hh H; [destruct m; cbn in Hh; lia|]. destruct (H m (inside_self m)) as (H1 & H2). cbn [Nat.add]. apply t_structs1; [exact H1|exact H2|].
  intros a Ha Ea. apply IH; [assert (L := height_nested _ _ Ha); lia|]. intros k Hk. apply H. exact (inside_nested _ _ _ Ha Ea Hk).
Qed.
