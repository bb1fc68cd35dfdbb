(** C100: the text of generated TypeScript files. *)
From Coq Require Import String Sorted.
From Verif Require Import Base Spec GenTables NameModel NameSpec EmitModel EmitSpec EmitThms GoAst GoEmit TsGenModel TsGenSpec TsTplText TplModel TplGo GoLex TsLex TsTpl TplSpec RsTplSpec TsTplSpec TsTplThms6 TsTplThms7 TsTplThms8 PropTpl PropRsRun PropRsTpl GoSlices.
From Verif Require PkgThms3 RsTplThms7.
Local Open Scope list_scope.

(** C100: for every request whose files have the names a TypeScript file can have, Generate succeeds, and the text of each file
    (executing the templates with the names that the generator has recorded by then), read by TypeScript's lexical rules with the
    line breaks kept, is the import of the recorded names followed by the declarations of TsGenModel (what C80, C81 and C82 are about),
    token by token, with no other token before, between or after them. *)
Theorem c100_text : forall fs, Forall ts_nameable fs -> exists ts, generate fs = Ok ts /\
  forall k f t, nth_error fs k = Some f -> nth_error ts k = Some t ->
  forall other s fuel, ts_source_file s = f -> js_line (ts_version s) -> js_line (ts_path s) -> (depth f + 4 <= fuel)%nat ->
  exists l, ts_file_text other true fuel s (imported t) = Some l /\
    js_tokens l = j_import (keys (imported t)) ++ flat_map j_decl (declared t).
Proof.
  intros fs F. destruct (request_texts fs F) as (ts & E & P). exists ts. split; [exact E|]. intros k f t E1 E2 other s fuel S V L D.
  apply (P k f t E1 E2 other s fuel [] S D). intros n d. apply t_headers; apply line_lineb; assumption.
Qed.
Print Assumptions c100_text.
(** The import lists every recorded name, each once, in the order of their bytes. *)
Theorem c100_imports : forall d, (forall n, In n (keys d) <-> In n d) /\ NoDup (keys d) /\ StronglySorted (fun a b => before_str a b = true) (keys d).
Proof. intros d. split; [intros n; apply keys_in|]. split; [apply keys_once|apply keys_sorted]. Qed.
Print Assumptions c100_imports.
(** Files as protoc passes them have such names. *)
Theorem c100_legal_files : forall f, ts_legal_file f -> ts_nameable f.
Proof. exact RsTplThms7.rs_legal_nameable. Qed.
Print Assumptions c100_legal_files.
(** With the version that is embedded at this commit (it ends in a newline) the tokens of EVERY file start with
    "," "DO" "NOT" "EDIT" ".": no TypeScript module starts with a comma. *)
Theorem c100_current_version_refuted : forall v2 fs, Forall ts_nameable fs -> exists ts, generate fs = Ok ts /\
  forall k f t, nth_error fs k = Some f -> nth_error ts k = Some t ->
  forall other s fuel, ts_source_file s = f -> ts_version s = current_version v2 -> js_line (ts_path s) -> (depth f + 4 <= fuel)%nat ->
  exists l, ts_file_text other true fuel s (imported t) = Some l /\
    js_tokens l = [nl; op ","; id "DO"; id "NOT"; id "EDIT"; op "."] ++ j_import (keys (imported t)) ++ flat_map j_decl (declared t).
Proof.
  intros v2 fs F. destruct (request_texts fs F) as (ts & E & P). exists ts. split; [exact E|]. intros k f t E1 E2 other s fuel S V L D.
  apply (P k f t E1 E2 other s fuel ts_spill S D). intros n d. apply (t_headers_bad _ _ _ _ (text (if v2 then "v2.0.5" else "v1.3.0"))); [rewrite V; destruct v2; reflexivity|destruct v2; reflexivity|apply line_lineb, L].
Qed.
Print Assumptions c100_current_version_refuted.
(** A decoded map never gets its entries: the text of a file with a map field has a variable for the map that is declared empty and
    handed to the constructor, and not mentioned anywhere else; the entries are set in another variable, that of its size. *)
Definition map_msg : msgd := mkmsg (text "p.M") false [mkfield (text "entries") (text "p.M.entries") true (TMap (TScalar KString) (TScalar KUint32))] [] [].
Definition map_file : filed := mkfiled [] [map_msg].
Definition ts_at (v : bytes) (f : filed) : tsource := mktsource v (text "a/b.proto") (text "example") f.
Definition token_dec (a b : token) : {a = b} + {a <> b}.
Proof. decide equality; first [apply (list_eq_dec Z.eq_dec)|apply Z.eq_dec]. Defined.
Fixpoint starts (p l : list token) : bool :=
  match p, l with [], _ => true | _, [] => false | a :: p, b :: l => (if token_dec a b then true else false) && starts p l end.
Fixpoint occurs (p l : list token) : nat := match l with [] => 0 | _ :: r => (if starts p l then 1 else 0) + occurs p r end.
Theorem c100_map_entries_refuted : exists t l, ts_legal_file map_file /\ generate [map_file] = Ok [t] /\
  ts_file_text (fun c => c) true 6 (ts_at (text "v2.0.5") map_file) (imported t) = Some l /\
  occurs [nl; id "const"; id "entriesTemp"; op ":"; op "{"; id "value"; op ":"; id "Map"; op "<"; id "string"; op ","; id "number"; op ">"; op "}"; op "="; op "{"; id "value"; op ":"; id "new"; id "Map"; op "("; op ")"; op "}"] (js_tokens l) = 1%nat /\
  occurs [nl; id "entries"; op "."; id "value"; op "."; id "set"; op "("; id "key"; op ","; id "value"; op ")"] (js_tokens l) = 1%nat /\
  occurs [id "new"; id "PM"; op "("; nl; id "entriesTemp"; op "."; id "value"; op ","; nl; op ")"] (js_tokens l) = 1%nat /\
  occurs [id "entriesTemp"] (js_tokens l) = 2%nat.
Proof.
  eexists. eexists. split; [|split; [vm_compute; reflexivity|split; [vm_compute; reflexivity|vm_compute; auto]]].
  split.
  - intros e [].
  - intros m e [<-|[]] [].
  - intros m H. apply ms_has in H. cbn in H. destruct H as [<-|[]]. split; [apply plain_ok; reflexivity|]. intros fd [<-|[]]. split; [apply PkgThms3.identb_ok; reflexivity|]. cbn [f_typ]. split; [eexists; split; [reflexivity|]|]; repeat split; discriminate.
Qed.
Print Assumptions c100_map_entries_refuted.

(** The file of C99's example; its tokens are those of its declarations, whatever header it has. *)
Example c100_example : ts_legal_file rtpl_ex /\ Forall ts_nameable [rtpl_ex; map_file] /\ depth rtpl_ex = 2%nat /\ js_line (text "a/b.proto") /\ js_line (text "v2.0.5") /\
  exists t u l, generate [map_file; rtpl_ex] = Ok [u; t] /\ ts_file_text (fun c => c) true 6 (ts_at (text "v2.0.5") rtpl_ex) (imported t) = Some l /\ zlen l = 8898 /\ zlen (js_tokens l) = 1916.
Proof.
  assert (M : ts_legal_file map_file).
  { split; [intros e []|intros m e [<-|[]] []|]. intros m H. apply ms_has in H. cbn in H. destruct H as [<-|[]]. split; [apply plain_ok; reflexivity|]. intros fd [<-|[]]. split; [apply PkgThms3.identb_ok; reflexivity|]. cbn [f_typ]. split; [eexists; split; [reflexivity|]|]; repeat split; discriminate. }
  split; [exact rtpl_legal|]. split; [constructor; [apply c100_legal_files, rtpl_legal|constructor; [apply c100_legal_files, M|constructor]]|]. split; [reflexivity|].
  assert (J : forall l, forallb (fun c => negb (c =? 10) && negb (c =? 13) && (c <? 128)) l = true -> js_line l). { intros l H c Hc. rewrite forallb_forall in H. specialize (H c Hc). lia. }
  split; [apply J; reflexivity|]. split; [apply J; reflexivity|]. eexists. eexists. eexists. split; [vm_compute; reflexivity|]. split; [vm_compute; reflexivity|]. split; vm_compute; reflexivity.
Qed.
