(** C88, C89: whole requests to the Go generator. *)
From Coq Require Import String.
From Verif Require Import Base Utf8 NameModel NameSpec GenTables EmitModel EmitSpec EmitThms EmitThms3 PkgModel PkgSpec PkgThms PkgThms2 PkgThms3.

(** C88: the response.  One output per file protoc asked for, in the order of the request and named after it;
    each has the package clause of its file, the two imports and the declarations of C70. *)
Theorem c88_outputs : forall v2 files os, Generate v2 files = Some os ->
  Forall2 (fun f o => o_name o = p_prefix f ++ str ".polyglot.go" /\ o_path o = p_gopath f /\
             o_header o = Some (package_name f, RequiredImports v2) /\ o_decls o = go_file v2 (p_desc f))
    (filter p_generate files) os.
Proof.
  intros v2 files os H. apply generate_some in H. destruct H as [-> _]. induction (filter p_generate files) as [|f fs IH]; [constructor|].
  cbn [map]. constructor; [|exact IH]. split; [apply append2|]. repeat split; reflexivity.
Qed.
Print Assumptions c88_outputs.
(** The name in the package clause is the last component of the protobuf package, as it is there; only a file
    without a package uses the name protoc-gen-go would use. *)
Theorem c88_package_clause : forall f n, p_package f = [] \/ full_name (p_package f) -> clause_of f n <-> package_name f = n.
Proof. exact clause_iff. Qed.
Print Assumptions c88_package_clause.
(** All or nothing: there is an error, and then no output, exactly if a field in a file protoc asked for is a group. *)
Theorem c88_fails_iff : forall v2 files, (forall f, In f files -> p_generate f = true -> plain_file (p_desc f)) ->
  Generate v2 files = None <-> exists f, In f files /\ p_generate f = true /\ has_group (p_desc f).
Proof. exact generate_none. Qed.
Print Assumptions c88_fails_iff.
(** What a file generates does not depend on the other files. *)
Theorem c88_independent : forall v2 a b os, Generate v2 (a ++ b) = Some os <->
  exists x y, Generate v2 a = Some x /\ Generate v2 b = Some y /\ os = x ++ y.
Proof.
  intros v2 a b os. rewrite generate_some, filter_app, map_app. split.
  - intros (-> & H). exists (map (output v2) (filter p_generate a)), (map (output v2) (filter p_generate b)).
    split; [apply generate_some; split; [reflexivity|]; intros f Hf; apply H, in_or_app; left; exact Hf|].
    split; [apply generate_some; split; [reflexivity|]; intros f Hf; apply H, in_or_app; right; exact Hf|reflexivity].
  - intros (x & y & Hx & Hy & ->). apply generate_some in Hx, Hy. destruct Hx as [-> Hx], Hy as [-> Hy]. split; [reflexivity|].
    intros f Hf. apply in_app_or in Hf. destruct Hf; auto.
Qed.
Print Assumptions c88_independent.
(** Generated names are never those of imports, predeclared types, keywords or those local variables that
    do not come from a field name (for those that do, FTemp and FSize, see C92): they do not
    start with a lower case letter. *)
Theorem c88_no_capture : forall v2 f n, In n (go_names (go_file v2 f)) ->
  (forall c t, n = c :: t -> ~ lower c) /\ ~ In n go_keywords /\ ~ In n go_predeclared /\ ~ In n (map snd (RequiredImports v2)).
Proof.
  intros v2 f n H. apply names_no_lower in H. split; [|split; [apply no_lower_keyword, H|split; [apply no_lower_predeclared, H|]]].
  - intros c t E L. specialize (H c t E). unfold is_lower, lower in *. lia.
  - cbn [RequiredImports map snd In]. intros [<-|[<-|[]]]; specialize (H _ _ eq_refl); discriminate H.
Qed.
Print Assumptions c88_no_capture.

(** package a.b; message M { enum E { X = 0; }  repeated M ms = 1; map<string, E> es = 2; } *)
Definition good_desc : filed :=
  mkfiled [] [mkmsg (str "a.b.M") false
    [mkfield (str "ms") (str "a.b.M.ms") true (TMsg (str "a.b.M"));
     mkfield (str "es") (str "a.b.M.es") true (TMap (TScalar KString) (TEnum (str "a.b.M.E")))]
    [mkenum (str "a.b.M.E") [mkval (str "X") (str "a.b.M.X") 0]] []].
Definition good_proto : protofile := mkproto (str "out/m") (str "a.b") (str "pb") (str "example.com/out") true good_desc.
Definition other_proto : protofile := mkproto (str "dep") (str "type") (str "dep") (str "example.com/dep") false (mkfiled [] []).
Lemma good_fields (P : msgd -> fieldd -> Prop) :
  (forall m fd, In m (d_msgs good_desc) -> In fd (m_fields m) -> P m fd) -> forall m fd, has_message good_desc m -> In fd (m_fields m) -> P m fd.
Proof.
  intros H m fd (t & Ht & Hi) Hf. cbn in Ht. destruct Ht as [<-|[]]. inversion Hi as [|? n k Hn]; subst; [|destruct Hn].
  apply H; [left; reflexivity|exact Hf].
Qed.
Lemma good_plain : plain_file good_desc.
Proof.
  unfold plain_file. apply (good_fields (fun m fd => full_name (f_full fd) /\ plain_type (f_typ fd))). intros m fd [<-|[]] Hf.
  assert (I : forall s, identb s = true -> identifier s) by exact identb_ok.
  assert (F : forall s, identb s = true -> full_name s) by (intros s E; apply Full_one, I, E).
  assert (F2 : forall s t, identb s = true -> full_name t -> full_name (s ++ 46 :: t)) by (intros s t E Ht; apply Full_dot; [apply I, E|exact Ht]).
  assert (AB : full_name (str "a.b.M")) by (apply (F2 (str "a") (str "b.M") eq_refl), (F2 (str "b") (str "M") eq_refl), (F (str "M")); reflexivity).
  destruct Hf as [<-|[<-|[]]]; cbn [f_full f_typ plain_type].
  - split; [|exact AB]. apply (F2 (str "a") (str "b.M.ms") eq_refl), (F2 (str "b") (str "M.ms") eq_refl), (F2 (str "M") (str "ms") eq_refl), (F (str "ms")); reflexivity.
  - split; [apply (F2 (str "a") (str "b.M.es") eq_refl), (F2 (str "b") (str "M.es") eq_refl), (F2 (str "M") (str "es") eq_refl), (F (str "es")); reflexivity|].
    split; [repeat split; discriminate|]. apply (F2 (str "a") (str "b.M.E") eq_refl), (F2 (str "b") (str "M.E") eq_refl), (F2 (str "M") (str "E") eq_refl), (F (str "E")); reflexivity.
Qed.
Example c88_example : exists o, Generate true [other_proto; good_proto] = Some [o] /\ o_name o = str "out/m.polyglot.go" /\
  o_header o = Some (str "b", [(str "github.com/loopholelabs/polyglot/v2", str "polyglot"); (str "errors", str "errors")]) /\
  clause_of good_proto (str "b") /\ plain_file good_desc /\
  Generate true [mkproto [] [] [] [] true (mkfiled [] [mkmsg (str "M") false [mkfield (str "g") (str "M.g") false (TScalar KGroup)] [] []]); good_proto] = None.
Proof.
  eexists. split; [vm_compute; reflexivity|]. split; [reflexivity|]. split; [reflexivity|]. split; [|split; [exact good_plain|reflexivity]].
  right. split; [discriminate|]. apply (lc_dot (str "a") (str "b")), lc_one. vm_compute. intuition discriminate.
Qed.

(** C89: which generated packages follow Go's rules for declarations.  Exactly those with one generated file
    (per Go import path), whose package clause is a usable name, which has a message, whose Go names are legal
    and distinct, and in which every field refers to types of the same file. *)
Theorem c89_package_iff : forall v2 files os path,
  (forall f, In f files -> p_generate f = true -> plain_file (p_desc f)) -> Generate v2 files = Some os ->
  filter (out_of path) os <> [] ->
  package_ok (filter (out_of path) os) <-> exists f, filter (of_package path) files = [f] /\ usable (package_name f) /\ proto_ok v2 (p_desc f).
Proof. exact package_iff. Qed.
Print Assumptions c89_package_iff.
(** Refuted: that two files can make one package. *)
Theorem c89_two_files_refuted : forall v2 files os path f g,
  (forall f, In f files -> p_generate f = true -> plain_file (p_desc f)) -> Generate v2 files = Some os ->
  filter (of_package path) files = [f; g] -> ~ package_ok (filter (out_of path) os).
Proof.
  intros v2 files os path f g HP HG E. rewrite package_iff; [|exact HP|exact HG|].
  - intros (h & E' & _). rewrite E in E'. discriminate E'.
  - apply generate_some in HG. destruct HG as [-> _]. rewrite outputs_of, E. discriminate.
Qed.
Print Assumptions c89_two_files_refuted.
(** Refuted: that a file without messages compiles (the import of polyglot is not used). *)
Theorem c89_no_message_refuted : forall v2 files os path f,
  (forall f, In f files -> p_generate f = true -> plain_file (p_desc f)) -> Generate v2 files = Some os ->
  filter (of_package path) files = [f] -> d_msgs (p_desc f) = [] -> ~ package_ok (filter (out_of path) os).
Proof.
  intros v2 files os path f HP HG E Em. rewrite package_iff; [|exact HP|exact HG|].
  - intros (h & E' & _ & H). rewrite E in E'. injection E' as <-. destruct (po_message _ _ H) as (m & t & Ht & _). rewrite Em in Ht. destruct Ht.
  - apply generate_some in HG. destruct HG as [-> _]. rewrite outputs_of, E. discriminate.
Qed.
Print Assumptions c89_no_message_refuted.
(** Refuted: that a field may have a type of another file.  References are not qualified, whatever package the
    other file is in: unless this file happens to have a type of the same Go name, nothing is declared. *)
Theorem c89_imported_type_refuted : forall v2 files os path f m fd s,
  (forall f, In f files -> p_generate f = true -> plain_file (p_desc f)) -> Generate v2 files = Some os ->
  filter (of_package path) files = [f] -> has_message (p_desc f) m -> In fd (m_fields m) -> f_typ fd = TMsg s ->
  (forall n, CamelCase s = Ok n -> ~ go_type_of (p_desc f) n) -> ~ package_ok (filter (out_of path) os).
Proof.
  intros v2 files os path f m fd s HP HG E Hm Hf Et N. rewrite package_iff; [|exact HP|exact HG|].
  - intros (h & E' & _ & H). rewrite E in E'. injection E' as <-. pose proof (po_refers _ _ H m fd Hm Hf) as R. rewrite Et in R. destruct R as (n & En & R). exact (N n En R).
  - apply generate_some in HG. destruct HG as [-> _]. rewrite outputs_of, E. discriminate.
Qed.
Print Assumptions c89_imported_type_refuted.
(** Refuted: that the package clause is always legal: it is a keyword if the last component of the package is. *)
Theorem c89_keyword_package_refuted : forall v2 files os path f n,
  (forall f, In f files -> p_generate f = true -> plain_file (p_desc f)) -> Generate v2 files = Some os ->
  filter (of_package path) files = [f] -> last_component (p_package f) n -> In n go_keywords -> ~ package_ok (filter (out_of path) os).
Proof.
  intros v2 files os path f n HP HG E L K. rewrite package_iff; [|exact HP|exact HG|].
  - intros (h & E' & (_ & _ & H) & _). rewrite E in E'. injection E' as <-. apply H. apply last_component_iff in L. unfold package_name. rewrite L.
    destruct n as [|c t]; [vm_compute in K; intuition discriminate|exact K].
  - apply generate_some in HG. destruct HG as [-> _]. rewrite outputs_of, E. discriminate.
Qed.
Print Assumptions c89_keyword_package_refuted.
(** the example above follows the rules, with either version *)
Lemma good_types n : go_type_of good_desc n -> In n (map str ["ABME"; "ABM"; "ABMEsMap"]%string).
Proof.
  intros H. apply (go_types_iff false) in H. vm_compute in H. vm_compute. tauto.
Qed.
Example c89_example : forall v2, exists o, Generate v2 [other_proto; good_proto] = Some [o] /\ package_ok (filter (out_of (str "example.com/out")) [o]).
Proof.
  intros v2. exists (output v2 good_proto). split; [destruct v2; vm_compute; reflexivity|]. apply (package_iff v2 [other_proto; good_proto]).
  - intros f [<-|[<-|[]]] E; [discriminate E|exact good_plain].
  - destruct v2; vm_compute; reflexivity.
  - destruct v2; discriminate.
  - assert (U : forall n, identb n = true -> n <> PkgSpec.blank -> ~ In n go_keywords -> usable n) by (intros n E N K; split; [apply identb_ok, E|split; assumption]).
    exists good_proto. split; [reflexivity|]. split; [apply U; [reflexivity|discriminate|vm_compute; intuition discriminate]|]. split.
    + eexists. eexists. split; [left; reflexivity|apply inside_self].
    + intros n H. apply good_types in H. cbn [map In] in H. destruct H as [<-|[<-|[<-|[]]]]; (apply U; [reflexivity|discriminate|vm_compute; intuition discriminate]).
    + intros e x n He Hx En. assert (e = mkenum (str "a.b.M.E") [mkval (str "X") (str "a.b.M.X") 0]).
      { destruct He as [[]|(t & [<-|[]] & [<-|[]])]. reflexivity. }
      subst e. destruct Hx as [<-|[]]. vm_compute in En. injection En as <-. apply identb_ok. reflexivity.
    + destruct v2; vm_compute; repeat (constructor; [cbn; intuition discriminate|]); constructor.
    + intros m fd n Hm Hf. revert n. revert m fd Hm Hf. apply (good_fields (fun m fd => forall n, CamelCase (f_name fd) = Ok n -> usable n /\ ~ In n (map str ["Error"; "Encode"; "Decode"]%string))).
      intros m fd [<-|[]] [<-|[<-|[]]] n En; vm_compute in En; injection En as <-; (split; [apply U; [reflexivity|discriminate|vm_compute; intuition discriminate]|vm_compute; intuition discriminate]).
    + intros m (t & [<-|[]] & Hi). inversion Hi as [|? n k Hn]; subst; [|destruct Hn]. vm_compute. repeat (constructor; [cbn; intuition discriminate|]). constructor.
    + apply (good_fields (fun m fd => refers good_desc (f_many fd) (f_typ fd))). intros m fd [<-|[]] [<-|[<-|[]]]; cbn [refers f_typ f_many].
      * eexists. split; [vm_compute; reflexivity|]. apply (go_types_iff false). vm_compute. auto.
      * split; [exact I|]. eexists. split; [vm_compute; reflexivity|]. apply (go_types_iff false). vm_compute. auto.
Qed.
