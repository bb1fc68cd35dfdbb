(** C99: the text of generated Rust files. *)
From Coq Require Import String.
From Verif Require Import Base Spec GenTables NameModel NameSpec EmitModel EmitSpec EmitThms GoAst GoEmit GoSlices RsGenModel RsAst RsEmit RsTplText TplModel TplGo GoLex RsLex RsTpl TplSpec RsTplSpec RsTplThms7 PropTpl PropRsRun.
From Verif Require PkgThms3.
Local Open Scope list_scope.

(** C99: for every file whose names are Rust names and every value of the option privacy, executing the templates succeeds, and
    the text, read by Rust's lexical rules, is the items of [rs_program] (the program that C97 and C98 are about), token by token,
    with no other token before, between or after them. *)
Theorem c99_text : forall s fuel, rs_nameable (rs_source_file s) -> one_line (rs_version s) -> one_line (rs_path s) ->
  (depth (rs_source_file s) + 4 <= fuel)%nat ->
  exists l, rs_file_text true fuel s = Some l /\
    rs_tokens l = r_file (rs_program (rs_privacy s) (rs_deps s) (rs_source_file s)).
Proof. intros s fuel F V P D. apply text_header; assumption. Qed.
Print Assumptions c99_text.
(** Files as protoc passes them have such names. *)
Theorem c99_legal_files : forall f, rs_legal_file f -> rs_nameable f.
Proof. exact rs_legal_nameable. Qed.
Print Assumptions c99_legal_files.
(** With the version that is embedded at this commit (it ends in a newline) the tokens of EVERY file start with
    "," "DO" "NOT" "EDIT" ".": no Rust item starts with a comma. *)
Theorem c99_current_version_refuted : forall v2 s fuel, rs_nameable (rs_source_file s) -> rs_version s = current_version v2 ->
  one_line (rs_path s) -> (depth (rs_source_file s) + 4 <= fuel)%nat ->
  exists l, rs_file_text true fuel s = Some l /\
    rs_tokens l = [op ","; id "DO"; id "NOT"; id "EDIT"; op "."] ++ r_file (rs_program (rs_privacy s) (rs_deps s) (rs_source_file s)).
Proof.
  intros v2 s fuel F V P D. apply (text_spilled s fuel (text (if v2 then "v2.0.5" else "v1.3.0"))); [exact F|exact D| | |exact P].
  - rewrite V. destruct v2; reflexivity.
  - destruct v2; intros X; vm_compute in X; intuition discriminate.
Qed.
Print Assumptions c99_current_version_refuted.

(** The file of C97's example, with a message that has an enum and a nested message. *)
Definition rtpl_n : msgd := mkmsg (text "p.Outer") false [mkfield (text "inNer") (text "p.Outer.inNer") true (TMsg (text "p.Outer.Inner"))] [mkenum (text "p.Outer.K") [mkval (text "A_B") (text "p.Outer.A_B") 3]]
  [mkmsg (text "p.Outer.Inner") false [mkfield (text "by_name") (text "p.Outer.Inner.by_name") true (TMap (TScalar KString) (TScalar KUint32))] [] []].
Definition rtpl_ex : filed := mkfiled (d_enums rs_ex) (d_msgs rs_ex ++ [rtpl_n]).
Lemma rtpl_legal : rs_legal_file rtpl_ex.
Proof.
  assert (E : rs_legal_enum rs_ex_e) by (split; [apply plain_ok; reflexivity|]; intros v Hv; cbn in Hv; repeat (destruct Hv as [<-|Hv]; [apply PkgThms3.identb_ok; reflexivity|]); destruct Hv).
  assert (K : rs_legal_enum (mkenum (text "p.Outer.K") [mkval (text "A_B") (text "p.Outer.A_B") 3])) by (split; [apply plain_ok; reflexivity|]; intros v Hv; cbn in Hv; repeat (destruct Hv as [<-|Hv]; [apply PkgThms3.identb_ok; reflexivity|]); destruct Hv).
  split.
  - intros e [<-|[]]. exact E.
  - intros m e Hm He. cbn in Hm. destruct Hm as [<-|[<-|[<-|[]]]]; [destruct He..|]. destruct He as [<-|[]]. exact K.
  - intros m H. apply ms_has in H. cbn in H.
    repeat (destruct H as [<-|H]; [split; [apply plain_ok; reflexivity|]; intros fd Hf; cbn in Hf;
      repeat (destruct Hf as [<-|Hf]; [split; [apply PkgThms3.identb_ok; reflexivity|]; cbn [f_typ];
        first [repeat split; discriminate | apply plain_ok; reflexivity
              | split; [eexists; split; [reflexivity|]; repeat split; discriminate|]; cbn [rs_legal_type]; first [repeat split; discriminate|apply plain_ok; reflexivity]]|]); destruct Hf|]).
    destruct H.
Qed.
Definition rtpl_source (v p : bytes) : rsource := mkrsource v (text "a/b.proto") (text "example") p (mkdeps true true) rtpl_ex.
Example c99_example : rs_legal_file rtpl_ex /\ depth rtpl_ex = 2%nat /\ one_line (text "a/b.proto") /\ one_line (text "v2.0.5") /\
  (exists l, rs_file_text true 6 (rtpl_source (text "v2.0.5") (text "public")) = Some l /\ zlen l = 7777 /\ zlen (rs_tokens l) = 2091).
Proof.
  split; [exact rtpl_legal|]. split; [reflexivity|]. split; [vm_compute; intuition discriminate|]. split; [vm_compute; intuition discriminate|].
  eexists. split; [vm_compute; reflexivity|]. split; vm_compute; reflexivity.
Qed.
