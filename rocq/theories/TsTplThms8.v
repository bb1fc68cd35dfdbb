(** The files of a request: their texts; the imported names, each once. *)
From Coq Require Import String Ascii Sorted.
From Verif Require Import Base Spec GenTables NameModel NameSpec NameThms3 EmitModel EmitSpec EmitThms TplSpec RsTplSpec TsTplSpec TsGenModel TsGenSpec TsGenThms GoAst GoEmit TsTplText TplModel TplGo TplExec GoLex GoLexThms TsLex TsLexThms TsTpl TsTplThms TsTplThms2 TsTplThms3 TsTplThms4 TsTplThms5 TsTplThms6 TsTplThms7.
From Verif Require RsTplThms7.
Import RsTplThms7 (ident_word, camel_word).
Local Open Scope list_scope.

(** ---- keys ---- *)
Lemma before_cons x a y b : before_str (String x a) (String y b) = true <-> (N_of_ascii x < N_of_ascii y)%N \/ x = y /\ before_str a b = true.
Proof.
  cbn [before_str]. destruct (ascii_dec x y) as [->|E]; [split; [auto|intros [H|(_ & H)]; [exfalso; exact (N.lt_irrefl _ H)|exact H]]|]. rewrite N.ltb_lt. split; [auto|]. intros [H|(H & _)]; [exact H|congruence].
Qed.
Lemma before_trans a : forall b c, before_str a b = true -> before_str b c = true -> before_str a c = true.
Proof.
  induction a as [|x a IH]; intros [|y b] [|z c] H1 H2; try discriminate; try reflexivity. rewrite before_cons in *.
  destruct H1 as [H1|(-> & H1)], H2 as [H2|(-> & H2)]; [left; exact (N.lt_trans _ _ _ H1 H2)|left; exact H1|left; exact H2|right; split; [reflexivity|exact (IH _ _ H1 H2)]].
Qed.
Lemma before_irrefl a : before_str a a = false.
Proof. induction a as [|x a IH]; [reflexivity|]. cbn [before_str]. destruct (ascii_dec x x); [exact IH|congruence]. Qed.
Lemma before_total a : forall b, a <> b -> before_str a b = false -> before_str b a = true.
Proof.
  induction a as [|x a IH]; intros [|y b] N H; try congruence; try discriminate; try reflexivity. rewrite before_cons. cbn [before_str] in H. destruct (ascii_dec x y) as [->|E].
  - right. split; [reflexivity|]. apply IH; [congruence|exact H].
  - left. apply N.ltb_ge in H. destruct (N.lt_trichotomy (N_of_ascii x) (N_of_ascii y)) as [L|[L|L]]; [exfalso; exact (N.lt_irrefl _ (N.lt_le_trans _ _ _ L H))| |exact L].
    exfalso. apply E. rewrite <- (ascii_N_embedding x), <- (ascii_N_embedding y), L. reflexivity.
Qed.
Notation before a b := (before_str a b = true).
Lemma insert_in k l x : In x (insert_key k l) <-> x = k \/ In x l.
Proof.
  induction l as [|m l IH]; cbn [insert_key]; [cbn; intuition|]. destruct (String.eqb_spec k m) as [->|E]; [cbn; intuition|]. destruct (before_str k m); cbn [In]; [intuition|]. rewrite IH. intuition.
Qed.
Lemma insert_sorted k l : StronglySorted (fun a b => before a b) l -> StronglySorted (fun a b => before a b) (insert_key k l).
Proof.
  induction 1 as [|m l S IH F]; cbn [insert_key]; [repeat constructor|]. destruct (String.eqb_spec k m) as [->|E]; [constructor; assumption|]. destruct (before_str k m) eqn:B.
  - constructor; [constructor; assumption|]. constructor; [exact B|]. eapply Forall_impl; [|exact F]. cbn. intros x H. exact (before_trans _ _ _ B H).
  - constructor; [exact IH|]. apply Forall_forall. intros x Hx. apply insert_in in Hx. destruct Hx as [->|Hx]; [exact (before_total _ _ E B)|]. rewrite Forall_forall in F. exact (F x Hx).
Qed.
Lemma keys_sorted d : StronglySorted (fun a b => before a b) (keys d).
Proof. induction d as [|k d IH]; [constructor|]. exact (insert_sorted k _ IH). Qed.
Lemma keys_in d x : In x (keys d) <-> In x d.
Proof. induction d as [|k d IH]; [tauto|]. cbn [keys fold_right]. rewrite insert_in. fold (keys d). rewrite IH. cbn. intuition. Qed.
Lemma keys_once d : NoDup (keys d).
Proof.
  assert (S := keys_sorted d). induction S as [|m l S IH F]; constructor; [|exact IH]. intros H. rewrite Forall_forall in F. specialize (F m H). cbn in F. rewrite before_irrefl in F. discriminate F.
Qed.
(** ---- a request ---- *)
Lemma request_from fs : Forall ts_nameable fs -> forall d0, (forall n, In n d0 -> importable n) -> exists ts d1, Generate fs d0 = Ok (ts, d1) /\
  forall k f t, nth_error fs k = Some f -> nth_error ts k = Some t -> forall o s fuel hs, ts_source_file s = f -> (depth f + 4 <= fuel)%nat ->
    (forall n d, writes (run get_of (ts_call_of o) JT (S n) "headers" (ts_head_data true s d)) (JNone false) hs (JNone true)) ->
    exists l, ts_file_text o true fuel s (imported t) = Some l /\ js_tokens l = hs ++ j_import (keys (imported t)) ++ flat_map j_decl (declared t).
Proof.
  induction 1 as [|f fs F H IH]; intros d0 I; unfold Generate in *; cbn [TsGenModel.each].
  - exists [], d0. split; [reflexivity|]. intros [|k] f t E; discriminate E.
  - destruct (run_file f d0 (nameable_good _ F)) as (d & E & ID).
    assert (W : forall n, In n d -> importable n \/ wstr n). { intros n Hn. apply ID in Hn. destruct Hn as [Hn|Hn]; [right; exact (body_words _ n (fields_fine _ F) Hn)|left; apply I, Hn]. }
    assert (I' : forall n, In n d -> importable n).
    { intros n Hn. destruct (W n Hn) as [X|X]; [exact X|]. clear W Hn. unfold wstr in X. unfold importable, identifier. destruct (text n) as [|c t] eqn:T; [discriminate X|]. cbn [wname] in X. apply andb_true_iff in X. destruct X as (X1 & X2).
      exists c, t. split; [reflexivity|]. rewrite forallb_forall in X2. split; [unfold letter, NameSpec.lower, upper; unfold letterb in X1; lia|]. apply Forall_forall. intros y Hy. specialize (X2 y Hy). unfold wordb, letterb, digitb in X2. unfold ident_char, letter, NameSpec.lower, upper, digit. lia. }
    destruct (IH d I') as (ts & d1 & E1 & P). exists (mktsfile d (tbody f) :: ts), d1. split; [unfold TsGenModel.andthen; rewrite E; cbn; rewrite E1; reflexivity|].
    intros [|k] g t E2 E3 o s fuel hs S D HH; cbn [nth_error] in E2, E3.
    + injection E2 as <-. injection E3 as <-. subst f. destruct (text_headed o s fuel d0 hs F I D HH) as (d' & B & l & X1 & X2 & X3). rewrite E in X1. injection X1 as <- <-. exists l. auto.
    + exact (P k g t E2 E3 o s fuel hs S D HH).
Qed.
Lemma request_texts fs : Forall ts_nameable fs -> exists ts, generate fs = Ok ts /\
  forall k f t, nth_error fs k = Some f -> nth_error ts k = Some t -> forall o s fuel hs, ts_source_file s = f -> (depth f + 4 <= fuel)%nat ->
    (forall n d, writes (run get_of (ts_call_of o) JT (S n) "headers" (ts_head_data true s d)) (JNone false) hs (JNone true)) ->
    exists l, ts_file_text o true fuel s (imported t) = Some l /\ js_tokens l = hs ++ j_import (keys (imported t)) ++ flat_map j_decl (declared t).
Proof.
  intros F. destruct (request_from fs F [] ltac:(intros n [])) as (ts & d1 & E & P). exists ts. split; [unfold generate; rewrite E; reflexivity|exact P].
Qed.
