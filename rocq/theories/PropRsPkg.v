(** C90, C91: whole requests to the Rust generator. *)
From Coq Require Import String.
From Verif Require Import Base Utf8 NameModel NameSpec NameThms3 GenTables EmitModel EmitSpec EmitThms EmitThms2 EmitThms3 PkgModel PkgSpec PkgThms PkgThms2 PkgThms3 RsPkgModel RsPkgSpec RsPkgThms RsPkgThms2 RsPkgThms3.

(** C90: the response.  One output per file protoc asked for, in the order of the request and named after it, with
    the declarations of C71; HashMap is imported if a top-level message leads to a map, TryFromPrimitive if there
    is a top-level enum. *)
Theorem c90_outputs : forall env rustfmt fuel files os, RsGenerate env rustfmt fuel files = Done _ os ->
  Forall2 (fun f o => q_name o = r_prefix f ++ str "_polyglot.rs" /\ q_decls o = rs_file (r_desc f) /\
             forall n, In n (q_imports o) <-> imported env (r_desc f) n)
    (filter r_generate files) os.
Proof.
  intros env rustfmt fuel files os H. apply rs_generate_done in H. induction H as [|f o fs os H _ IH]; constructor; [|exact IH].
  destruct H as (d & Hd & _ & _ & ->). cbn [q_name q_decls q_imports]. split; [apply append2|]. split; [reflexivity|].
  intros n. apply (imports_iff env fuel), Hd.
Qed.
Print Assumptions c90_outputs.
(** Given enough stack there is a response exactly if no field is a group and following the types of fields from
    every top-level message comes to an end (if rustfmt accepts everything). *)
Theorem c90_succeeds_iff : forall env files, (forall f, In f files -> r_generate f = true -> rs_plain (r_desc f)) ->
  (exists fuel os, RsGenerate env (fun _ => true) fuel files = Done _ os) <->
  forall f, In f files -> r_generate f = true ->
    ~ has_group (r_desc f) /\ forall m, In m (d_msgs (r_desc f)) -> ends env (map f_typ (m_fields m)).
Proof.
  intros env files HP. split.
  - intros (fuel & os & H) f Hf Eg. apply rs_generate_done in H.
    assert (K : exists o, answers env (fun _ => true) fuel f o).
    { assert (I : In f (filter r_generate files)) by (apply filter_In; auto). clear - H I. induction H as [|? ? ? ? H _ IH]; [destruct I|].
      destruct I as [<-|I]; [eexists; exact H|exact (IH I)]. }
    destruct K as (o & d & Hd & Hr & _). split; [apply (rs_rendered_iff (r_desc f) (HP f Hf Eg)), Hr|]. apply analysis_ends. exists fuel, d. exact Hd.
  - intros H. assert (K : exists fuel, forall f, In f (filter r_generate files) -> exists d, DependencyAnalysis env fuel (r_desc f) = Some d).
    { assert (H' : forall f, In f (filter r_generate files) -> exists n d, DependencyAnalysis env n (r_desc f) = Some d).
      { intros f Hf. apply filter_In in Hf. apply analysis_ends. intros m Hm. apply (H f); tauto. }
      clear - H'. induction (filter r_generate files) as [|f fs IH]; [exists O; intros f []|].
      destruct IH as (n & Hn); [intros g Hg; apply H'; right; exact Hg|]. destruct (H' f (or_introl eq_refl)) as (n' & d & E).
      exists (max n n'). intros g [<-|Hg]; [exists d; apply (analysis_more env n'); [lia|exact E]|].
      destruct (Hn g Hg) as (d' & E'). exists d'. apply (analysis_more env n); [lia|exact E']. }
    destruct K as (fuel & K). exists fuel. enough (exists os, Forall2 (answers env (fun _ => true) fuel) (filter r_generate files) os) as (os & Ho).
    { exists os. apply rs_generate_done, Ho. }
    assert (R : forall f, In f (filter r_generate files) -> forallb rs_rendered (rs_file (r_desc f)) = true).
    { intros f Hf. apply filter_In in Hf. apply rs_rendered_iff; [apply HP; tauto|apply H; tauto]. }
    clear - K R. induction (filter r_generate files) as [|f fs IH]; [exists []; constructor|].
    destruct IH as (os & Ho); [intros g Hg; apply K; right; exact Hg|intros g Hg; apply R; right; exact Hg|].
    destruct (K f (or_introl eq_refl)) as (d & Hd). eexists. constructor; [|exact Ho]. exists d. split; [exact Hd|]. split; [apply R; left; reflexivity|]. split; reflexivity.
Qed.
Print Assumptions c90_succeeds_iff.
(** rustfmt can only reject the response: all or nothing. *)
Theorem c90_rustfmt : forall env rustfmt fuel files os,
  RsGenerate env rustfmt fuel files = Done _ os <->
  RsGenerate env (fun _ => true) fuel files = Done _ os /\ Forall (fun o => rustfmt o = true) os.
Proof.
  intros env rustfmt fuel files os. rewrite !rs_generate_done. split.
  - induction 1 as [|f o fs os H _ (A & B)]; [split; constructor|]. destruct H as (d & H1 & H2 & H3 & H4). split; constructor; try assumption.
    exists d. auto.
  - intros (A & B). induction A as [|f o fs os H _ IH]; [constructor|]. inversion B as [|? ? B1 B2]; subst. constructor; [|apply IH, B2].
    destruct H as (d & H1 & H2 & _ & H4). exists d. auto.
Qed.
Print Assumptions c90_rustfmt.
(** Refuted: that the generator handles recursive messages.  If a top-level message of a file protoc asked for
    leads to a message that leads to itself, no stack is big enough. *)
Theorem c90_recursive_refuted : forall env rustfmt fuel files f m s n os,
  In f files -> r_generate f = true -> In m (d_msgs (r_desc f)) ->
  reaches env (map f_typ (m_fields m)) s -> message_named env s = Some n -> reaches env (map f_typ (m_fields n)) s ->
  RsGenerate env rustfmt fuel files <> Done _ os.
Proof.
  intros env rustfmt fuel files f m s n os Hf Eg Hm R En Rn H. apply rs_generate_done in H.
  assert (K : exists o, answers env rustfmt fuel f o).
  { assert (I : In f (filter r_generate files)) by (apply filter_In; auto). clear - H I. induction H as [|? ? ? ? H _ IH]; [destruct I|].
    destruct I as [<-|I]; [eexists; exact H|exact (IH I)]. }
  destruct K as (o & d & Hd & _). apply (cycle_never_ends env s n En Rn _ R). revert m Hm R.
  enough (E : forall m, In m (d_msgs (r_desc f)) -> ends env (map f_typ (m_fields m))) by (intros m Hm _; exact (E m Hm)).
  apply analysis_ends. exists fuel, d. exact Hd.
Qed.
Print Assumptions c90_recursive_refuted.
(** The option privacy: fields are usable in other crates only if it is public, in other modules of the crate
    unless it is private; by default, in no other module. *)
Theorem c90_privacy : forall privacy,
  may_use (field_visibility privacy) SameModule /\
  (may_use (field_visibility privacy) SameCrate <-> privacy <> str "private") /\
  (may_use (field_visibility privacy) OtherCrate <-> privacy = str "public") /\
  forall p, may_use (field_visibility default_privacy) p <-> p = SameModule.
Proof.
  intros privacy. unfold field_visibility at 1 2 3. change (text "private") with (str "private"). change (text "public") with (str "public").
  split; [|split; [|split]].
  - destruct (list_eq_dec Z.eq_dec privacy (str "private")); [reflexivity|]. destruct (list_eq_dec Z.eq_dec privacy (str "public")); [exact I|discriminate].
  - destruct (list_eq_dec Z.eq_dec privacy (str "private")) as [->|N].
    + cbn [may_use]. split; [discriminate|intros H; destruct (H eq_refl)].
    + split; [intros _; exact N|]. intros _. destruct (list_eq_dec Z.eq_dec privacy (str "public")); [exact I|discriminate].
  - destruct (list_eq_dec Z.eq_dec privacy (str "private")) as [->|N]; [split; discriminate|].
    destruct (list_eq_dec Z.eq_dec privacy (str "public")) as [->|N']; [split; [reflexivity|intros _; exact I]|]. cbn [may_use]. split; [intros H; destruct (H eq_refl)|intros H; destruct (N' H)].
  - intros p. assert (E : field_visibility default_privacy = Private) by (vm_compute; reflexivity). rewrite E. reflexivity.
Qed.
Print Assumptions c90_privacy.

(** package a; enum E { X = 0; }  message M { repeated N ns = 1; E e = 2; }  message N { map<string, uint32> c = 1; } *)
Definition rs_N : msgd := mkmsg (str "a.N") false [mkfield (str "c") (str "a.N.c") true (TMap (TScalar KString) (TScalar KUint32))] [] [].
Definition rs_M : msgd := mkmsg (str "a.M") false
  [mkfield (str "ns") (str "a.M.ns") true (TMsg (str "a.N")); mkfield (str "e") (str "a.M.e") false (TEnum (str "a.E"))] [] [].
Definition rs_E : enumd := mkenum (str "a.E") [mkval (str "X") (str "a.X") 0].
Definition rs_good : filed := mkfiled [rs_E] [rs_M; rs_N].
Definition rs_env : list msgd := [rs_M; rs_N].
Definition rs_request : list rsproto := [mkrsproto (str "dep") false (mkfiled [] []); mkrsproto (str "out/m") true rs_good].
Lemma rs_message m : has_message rs_good m -> m = rs_M \/ m = rs_N.
Proof. intros (t & Ht & Hi). cbn in Ht. destruct Ht as [<-|[<-|[]]]; (inversion Hi as [|? n k Hn]; subst; [auto|destruct Hn]). Qed.
Lemma rs_enum e : shallow_enum rs_good e -> e = rs_E.
Proof. intros [[<-|[]]|(t & [<-|[<-|[]]] & [])]. reflexivity. Qed.
Lemma rs_letter s : identb s = true -> letter_name (97 :: 46 :: s).
Proof.
  intros E. split; [apply (Full_dot [97] s)|exists 97, (46 :: s); split; [reflexivity|unfold letter, lower, upper; lia]].
  - apply (identb_ok [97]). reflexivity.
  - apply Full_one, identb_ok, E.
Qed.
Lemma rs_good_plain : rs_plain rs_good.
Proof.
  assert (A : forall s, identb s = true -> identifier s) by exact identb_ok. split.
  - intros m Hm. destruct (rs_message m Hm) as [->| ->]; apply rs_letter; reflexivity.
  - intros m fd Hm Hf. destruct (rs_message m Hm) as [->| ->].
    + destruct Hf as [<-|[<-|[]]]; (split; [apply A; reflexivity|]); cbn [f_typ rs_plain_type]; apply rs_letter; reflexivity.
    + destruct Hf as [<-|[]]. split; [apply A; reflexivity|]. cbn. repeat split; discriminate.
  - intros e He. rewrite (rs_enum e He). split; [apply rs_letter; reflexivity|]. split; [discriminate|]. intros x [<-|[]]. apply A. reflexivity.
Qed.
Lemma rs_good_maps : imports_maps rs_env rs_good.
Proof. exists rs_N. split; [right; left; reflexivity|]. eapply ma_here. left. reflexivity. Qed.
Example c90_example : exists o, RsGenerate rs_env (fun _ => true) 5 rs_request = Done _ [o] /\ q_name o = str "out/m_polyglot.rs" /\
  q_imports o = map str ["Cursor"; "DecodingError"; "Encoder"; "Decoder"; "Kind"; "TryFromPrimitive"; "TryFrom"; "HashMap"]%string /\
  (forall f, In f rs_request -> r_generate f = true -> rs_plain (r_desc f)).
Proof.
  eexists. split; [vm_compute; reflexivity|]. split; [reflexivity|]. split; [reflexivity|].
  intros f [<-|[<-|[]]] E; [discriminate E|exact rs_good_plain].
Qed.
(** message R { repeated R rs = 1; } *)
Example c90_recursive_example : exists env f m s n, message_named env s = Some n /\ In m (d_msgs f) /\
  reaches env (map f_typ (m_fields m)) s /\ reaches env (map f_typ (m_fields n)) s /\
  RsGenerate env (fun _ => true) 1000 [mkrsproto (str "r") true f] = Overflow _.
Proof.
  pose (r := mkmsg (str "R") false [mkfield (str "rs") (str "R.rs") true (TMsg (str "R"))] [] []).
  exists [r], (mkfiled [] [r]), r, (str "R"), r. split; [reflexivity|]. split; [left; reflexivity|].
  split; [apply re_here; left; reflexivity|]. split; [apply re_here; left; reflexivity|]. vm_compute. reflexivity.
Qed.

(** C91: which generated Rust modules follow Rust's rules for items, exactly. *)
Theorem c91_module_iff : forall env rustfmt fuel files os f o,
  (forall f, In f files -> r_generate f = true -> rs_plain (r_desc f)) ->
  RsGenerate env rustfmt fuel files = Done _ os -> In (f, o) (combine (filter r_generate files) os) ->
  module_ok o <-> rs_proto_ok env (r_desc f).
Proof.
  intros env rustfmt fuel files os f o HP H I. apply rs_generate_done in H.
  assert (A : answers env rustfmt fuel f o).
  { clear HP. induction H as [|x y xs ys Hxy _ IH]; [destruct I|]. destruct I as [E|I]; [injection E as <- <-; exact Hxy|exact (IH I)]. }
  apply in_combine_l in I. apply filter_In in I. destruct A as (d & Hd & Hr & _ & ->).
  apply (module_iff env (r_desc f) _ fuel d Hd); [reflexivity|reflexivity|apply HP; tauto|exact Hr].
Qed.
Print Assumptions c91_module_iff.
(** Refuted: that any file compiles which has no name clash.  A file whose only enums are inside messages does
    not import what their definition needs. *)
Theorem c91_nested_enum_refuted : forall env rustfmt fuel files os f o e,
  (forall f, In f files -> r_generate f = true -> rs_plain (r_desc f)) ->
  RsGenerate env rustfmt fuel files = Done _ os -> In (f, o) (combine (filter r_generate files) os) ->
  d_enums (r_desc f) = [] -> shallow_enum (r_desc f) e -> ~ module_ok o.
Proof.
  intros env rustfmt fuel files os f o e HP H I E S. rewrite (c91_module_iff _ _ _ _ _ _ _ HP H I). intros K.
  apply (ro_enums _ _ K); [exists e; exact S|exact E].
Qed.
Print Assumptions c91_nested_enum_refuted.
(** A map in a message that no top-level message leads to: the map type is not imported. *)
Theorem c91_nested_map_refuted : forall env rustfmt fuel files os f o,
  (forall f, In f files -> r_generate f = true -> rs_plain (r_desc f)) ->
  RsGenerate env rustfmt fuel files = Done _ os -> In (f, o) (combine (filter r_generate files) os) ->
  has_maps (r_desc f) -> ~ imports_maps env (r_desc f) -> ~ rust_type_of (r_desc f) (str "HashMap") -> ~ module_ok o.
Proof.
  intros env rustfmt fuel files os f o HP H I M N T. rewrite (c91_module_iff _ _ _ _ _ _ _ HP H I). intros K.
  destruct (ro_maps _ _ K M) as [X|X]; [exact (N X)|exact (T X)].
Qed.
Print Assumptions c91_nested_map_refuted.
(** A message or enum called like something the generated code uses. *)
Theorem c91_used_name_refuted : forall env rustfmt fuel files os f o n,
  (forall f, In f files -> r_generate f = true -> rs_plain (r_desc f)) ->
  RsGenerate env rustfmt fuel files = Done _ os -> In (f, o) (combine (filter r_generate files) os) ->
  rust_type_of (r_desc f) n ->
  In n (map str ["Cursor"; "DecodingError"; "Encoder"; "Decoder"; "Kind"; "Self"; "Encode"; "Decode"; "String"; "Vec"; "Option"; "Result"; "Box"]%string) ->
  ~ module_ok o.
Proof.
  intros env rustfmt fuel files os f o n HP H I T Hn. rewrite (c91_module_iff _ _ _ _ _ _ _ HP H I). intros K.
  destruct (ro_free _ _ K n T) as (A & B & C). cbn [map In] in Hn.
  assert (D : In n (map str ["Cursor"; "DecodingError"; "Encoder"; "Decoder"; "Kind"]%string) \/ In n (map str ["Self"; "Encode"; "Decode"]%string) \/ In n rust_std).
  { unfold rust_std. cbn [map In]. tauto. }
  destruct D as [D|[D|D]]; [apply A; left; exact D|exact (B D)|exact (C D)].
Qed.
Print Assumptions c91_used_name_refuted.
(** A field whose type is in another file: references are not qualified. *)
Theorem c91_imported_type_refuted : forall env rustfmt fuel files os f o m fd s,
  (forall f, In f files -> r_generate f = true -> rs_plain (r_desc f)) ->
  RsGenerate env rustfmt fuel files = Done _ os -> In (f, o) (combine (filter r_generate files) os) ->
  has_message (r_desc f) m -> In fd (m_fields m) -> f_typ fd = TMsg s -> ~ rust_named env (r_desc f) s -> ~ module_ok o.
Proof.
  intros env rustfmt fuel files os f o m fd s HP H I Hm Hf Et N. rewrite (c91_module_iff _ _ _ _ _ _ _ HP H I). intros K.
  pose proof (ro_refers _ _ K m fd Hm Hf) as R. rewrite Et in R. exact (N R).
Qed.
Print Assumptions c91_imported_type_refuted.
(** A field or enum value that is a word of the language is written as it is. *)
Theorem c91_keyword_refuted : forall env rustfmt fuel files os f o m fd,
  (forall f, In f files -> r_generate f = true -> rs_plain (r_desc f)) ->
  RsGenerate env rustfmt fuel files = Done _ os -> In (f, o) (combine (filter r_generate files) os) ->
  has_message (r_desc f) m -> In fd (m_fields m) -> In (SnakeCase (f_name fd)) rust_keywords -> ~ module_ok o.
Proof.
  intros env rustfmt fuel files os f o m fd HP H I Hm Hf E. rewrite (c91_module_iff _ _ _ _ _ _ _ HP H I). intros K.
  exact (proj2 (ro_fields _ _ K m fd Hm Hf) E).
Qed.
Print Assumptions c91_keyword_refuted.
Lemma rs_good_types n : rust_type_of rs_good n -> In n (map str ["AE"; "AM"; "AN"]%string).
Proof. unfold rust_type_of. rewrite <- rs_types_iff. intros H. vm_compute in H. vm_compute. tauto. Qed.
(** the file of the example above follows the rules *)
Example c91_example : rs_proto_ok rs_env rs_good.
Proof.
  assert (T : forall n, In n (map str ["AE"; "AM"; "AN"]%string) -> rust_type_of rs_good n).
  { intros n H. unfold rust_type_of. rewrite <- rs_types_iff. vm_compute in H. vm_compute. tauto. }
  split.
  - vm_compute. repeat (constructor; [cbn; intuition discriminate|]). constructor.
  - intros n H. apply rs_good_types in H. cbn [map In] in H.
    destruct H as [<-|[<-|[<-|[]]]]; (split; [intros [K|[[K _]|[K _]]]; [| |discriminate K]; vm_compute in K; intuition discriminate|]);
      (split; intros K; vm_compute in K; intuition discriminate).
  - intros m fd Hm Hf. destruct (rs_message m Hm) as [->| ->]; [destruct Hf as [<-|[<-|[]]]|destruct Hf as [<-|[]]]; (split; [discriminate|intros K; vm_compute in K; intuition discriminate]).
  - intros m Hm. destruct (rs_message m Hm) as [->| ->]; vm_compute; repeat (constructor; [cbn; intuition discriminate|]); constructor.
  - intros e x He Hx. rewrite (rs_enum e He) in Hx. destruct Hx as [<-|[]]. split; [discriminate|intros K; vm_compute in K; intuition discriminate].
  - intros e He. rewrite (rs_enum e He). vm_compute. repeat (constructor; [cbn; intuition discriminate|]). constructor.
  - intros m fd Hm Hf. destruct (rs_message m Hm) as [->| ->]; [destruct Hf as [<-|[<-|[]]]|destruct Hf as [<-|[]]]; cbn [f_typ rust_refers].
    + exists (str "AN"). split; [vm_compute; reflexivity|]. left. apply T. vm_compute. auto.
    + exists (str "AE"). split; [vm_compute; reflexivity|]. left. apply T. vm_compute. auto.
    + split; exact I.
  - intros _. left. exact rs_good_maps.
  - intros _. discriminate.
Qed.

(** message K { enum E { X = 0; } }, package a: no clash, yet not compilable; message Kind without a package:
    neither; message O { message I { map<string, string> m = 1; } }: neither *)
Definition rs_nested : filed := mkfiled [] [mkmsg (str "a.K") false [] [mkenum (str "a.K.E") [mkval (str "X") (str "a.K.X") 0]] []].
Definition rs_kind : filed := mkfiled [] [mkmsg (str "Kind") false [] [] []].
Definition rs_inner : filed := mkfiled [] [mkmsg (str "a.O") false [] []
  [mkmsg (str "a.O.I") false [mkfield (str "m") (str "a.O.I.m") true (TMap (TScalar KString) (TScalar KString))] [] []]].
Example c91_refuted_examples :
  (d_enums rs_nested = [] /\ exists e, shallow_enum rs_nested e) /\ rust_type_of rs_kind (str "Kind") /\
  (has_maps rs_inner /\ (forall env, ~ imports_maps env rs_inner) /\ ~ rust_type_of rs_inner (str "HashMap")) /\
  forall f, In f [rs_nested; rs_kind; rs_inner] -> exists o, RsGenerate [] (fun _ => true) 5 [mkrsproto (str "x") true f] = Done _ [o].
Proof.
  split; [split; [reflexivity|]|split; [|split; [split; [|split]|]]].
  - eexists. right. eexists. split; [left; reflexivity|left; reflexivity].
  - right. eexists. split; [eexists; split; [left; reflexivity|apply inside_self]|vm_compute; reflexivity].
  - do 4 eexists. split; [eexists; split; [left; reflexivity|eapply inside_nested; [left; reflexivity|reflexivity|apply inside_self]]|]. split; [left; reflexivity|reflexivity].
  - intros env (m & Hm & H). destruct Hm as [<-|[]]. cbn in H. exact (no_ahead_nil env H).
  - unfold rust_type_of. rewrite <- rs_types_iff. intros H. vm_compute in H. intuition discriminate.
  - intros f [<-|[<-|[<-|[]]]]; eexists; vm_compute; reflexivity.
Qed.
