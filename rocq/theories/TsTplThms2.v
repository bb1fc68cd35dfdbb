(** decodeMap.templ, decode.templ of the TypeScript generator: what they write. *)
From Coq Require Import String Ascii.
From Verif Require Import Base Spec GenTables NameModel NameSpec NameThms3 EmitModel EmitSpec EmitThms TsGenModel TsGenSpec TsGenThms GoAst GoEmit TsTplText TplModel TplGo TplExec GoLex GoLexThms TsLex TsLexThms TsTpl TsTplThms.
From Verif Require TplThms.
Import TplThms (some, truth_list, truth_b, truth_nil, sameb, equal_text, equal_kind, equal_card, both_assoc).
Local Open Scope list_scope.

Lemma flat_map_map {A B C} (f : B -> list C) (g : A -> B) l : flat_map f (map g l) = flat_map (fun a => f (g a)) l.
Proof. induction l as [|a l IH]; [reflexivity|]. cbn [map flat_map]. rewrite IH. reflexivity. Qed.
Lemma flat_map_flat {A B C} (f : B -> list C) (g : A -> list B) l : flat_map f (flat_map g l) = flat_map (fun a => flat_map f (g a)) l.
Proof. induction l as [|a l IH]; [reflexivity|]. cbn [flat_map]. rewrite flat_map_app, IH. reflexivity. Qed.
Ltac shape fd := destruct fd as [nm fu many t]; unfold is_map, TsGenModel.is_map in *; cbn [f_typ f_name f_full f_many] in *.
(** the name of the field, as a word *)
Ltac named o nm Nf := let J := fresh "J" in assert (J := jn_word _ Nf); let L := fresh "LJ" in assert (L := lower_jn o _ Nf); let w := fresh "nw" in set (w := jn nm) in *; clearbody w.
Ltac words_of k H := let dw := fresh "dw" in let ew := fresh "ew" in let kw := fresh "kw" in let W := fresh "W" in destruct (scalar_has k H) as (dw & ew & kw & W);
  let A := fresh in assert (A := w_dec _ _ _ _ W); let A := fresh in assert (A := w_decn _ _ _ _ W); let A := fresh in assert (A := w_decs _ _ _ _ W);
  let A := fresh in assert (A := w_enc _ _ _ _ W); let A := fresh in assert (A := w_encn _ _ _ _ W); let A := fresh in assert (A := w_encs _ _ _ _ W);
  let A := fresh in assert (A := w_kind _ _ _ _ W); let A := fresh in assert (A := w_kindn _ _ _ _ W); let A := fresh in assert (A := w_kindc _ _ _ _ W); let A := fresh in assert (A := w_lut _ _ _ _ W);
  let A := fresh in assert (A := w_lutc _ _ _ _ W); clear W.
Ltac lits := repeat match goal with |- context [id ?s] => change (id s) with (Id (text s)) end; repeat match goal with |- context [or_empty ?s] => change (or_empty s) with (entry s) end.
Ltac closing := repeat match goal with
  | H : text (entry ?e) = _ |- context [text (entry ?e)] => rewrite H
  | H : j_kind ?e = _ |- context [j_kind ?e] => rewrite H
  | H : j_ftype ?e = _ |- context [j_ftype ?e] => rewrite H end.
Local Opaque ts_call_of truth equal loop.
Ltac mid := eapply (writes_both _ _ _ _ (JNone true)).
Ltac jnames := repeat match goal with |- context [jname (mkfield ?nm ?a ?b ?c)] => change (jname (mkfield nm a b c)) with (jn nm) end.
Ltac jfin := unfold dec_of, enc_of; cbn [kind_of TsGenModel.kind_of]; lits; closing; norm; reflexivity.
Lemma t_map o n fd : ffine fd -> is_map fd = true -> writes (RUN o (S n) "decodeMap" (VField fd)) (JNone true) (j_dstmt (dmessage fd)) (JNone true).
Proof.
  intros F M. rewrite run_S. destruct fd as [nm fu many t]. unfold is_map in M. cbn [f_typ] in M. destruct t as [k|s|s|k v]; try discriminate M. clear M.
  destruct (map_fine _ _ _ _ _ F) as (FK & FV). destruct F as (Nf & ((k' & E & K) & _)). cbn [f_name] in *. subst k.
  assert (K1 := js_word _ FK). assert (V1 := js_word _ FV). assert (TV := trim_word _ V1). unfold dmessage. cbn [f_typ j_dstmt ditem dec_of kind_of]. unfold j_reads, temp, j_ftype, j_type. cbn [f_typ]. jnames. named o nm Nf.
  destruct (scalar_not k' K) as (N1 & N2 & N3 & N4). words_of k' (or_introl K : scalar_kind k' \/ k' = KEnum).
  destruct v as [kv|sv'|sv'|? ?]; [| | |destruct FV].
  - cbn [tfine] in FV. destruct (scalar_not kv FV) as (N1' & N2' & N3' & N4'). words_of kv (or_introl FV : scalar_kind kv \/ kv = KEnum).
    eapply writes_eq; [ex; w| |reflexivity]. cbn [ditem dec_of kind_of j_ditem]. unfold let_, decoded_is. jfin.
  -
    eapply writes_eq; [ex; w| |reflexivity]. cbn [ditem dec_of kind_of j_ditem]. unfold let_, decoded_is. jfin.
  -
    eapply writes_eq; [ex; w| |reflexivity]. cbn [ditem dec_of kind_of j_ditem]. unfold let_, decoded_is. jfin.
Qed.
