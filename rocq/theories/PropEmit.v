(** Properties C69-C72: which descriptors the generators support, what they declare, which names are
    legal, and how enum values are numbered.  Specifications: CompSpec.v, EmitSpec.v, NameSpec.v. *)
From Coq Require Import String.
From Verif Require Import Base Spec Utf8 NameModel NameSpec NameThms NameThms2 NameThms3 NameThms4 GenTables.
From Verif Require Import EmitModel EmitSpec EmitThms EmitThms2 EmitThms3.
From Verif Require Import GenModel RsGenModel CompSpec CompThms.

(** C69: generated Go compiles (as far as types go) if and only if every message is supported. *)
Theorem c69_go_compiles_iff : forall S, compiles S = true <-> forall fs, In fs S -> go_message S fs.
Proof. exact go_compiles_iff. Qed.
Print Assumptions c69_go_compiles_iff.
(** Generated Rust compiles if and only if every field is supported and no message contains itself. *)
Theorem c69_rust_compiles_iff : forall S, rs_compiles S <->
  (forall fs f, In fs S -> In f fs -> rust_field S f) /\ forall m, ~ contains S m m.
Proof. exact rust_compiles_iff. Qed.
Print Assumptions c69_rust_compiles_iff.
(** Refuted: that every protobuf message is supported.  Go: repeated bytes, repeated enum, a map to bytes,
    a message of maps only.  Rust: repeated int32, a map with integer keys, a map to strings, a linked list. *)
Theorem c69_all_supported_refuted :
  Forall (fun fs => compiles [fs] = false)
    [[Many (Scalar KBytes)]; [Many (Scalar KEnum)]; [One (Scalar KBool); MapOf KString (Scalar KBytes)]; [MapOf KString (Scalar KInt32)]] /\
  Forall (fun fs => ~ rs_compiles [fs])
    [[RMany (RScalar KInt32)]; [RMapOf KInt32 (RScalar KInt32)]; [RMapOf KString (RScalar KString)]; [ROne (RMsg 0)]].
Proof.
  split; [repeat (apply Forall_cons; [reflexivity|]); apply Forall_nil|].
  repeat (apply Forall_cons; [intros H; apply rust_compiles_iff in H; destruct H as [H1 H2]|]); try apply Forall_nil;
    try (specialize (H1 _ _ (or_introl eq_refl) (or_introl eq_refl)); inversion H1; intuition discriminate).
  apply (H2 0%nat). apply contains_one. left. reflexivity.
Qed.
Print Assumptions c69_all_supported_refuted.
(** supported in both: a message of each kind of field *)
Example c69_example :
  compiles [[One (Scalar KBytes); Many (Scalar KString); Many (Msg 0); MapOf KString (Scalar KEnum); One (Msg 0)]] = true /\
  go_message [[One (Scalar KBytes)]] [One (Scalar KBytes)] /\
  rs_compiles [[ROne (REnum 3); RMany (RScalar KString); RMapOf KString (RMsg 1)]; [ROne (RMsg 0)]].
Proof.
  split; [reflexivity|]. split.
  - split; [|right; exists (One (Scalar KBytes)); split; [left; reflexivity|discriminate]]. intros f [<-|[]]. constructor. split; discriminate.
  - apply rust_compiles_iff. split.
    + intros fs f [<-|[<-|[]]] Hf; cbn in Hf; repeat (destruct Hf as [<-|Hf]; [constructor; cbn; auto|]); destruct Hf.
    + assert (A : forall a b, contains [[ROne (REnum 3); RMany (RScalar KString); RMapOf KString (RMsg 1)]; [ROne (RMsg 0)]] a b -> a = 1%nat /\ b = 0%nat).
      { assert (B : forall a b, In (ROne (RMsg b)) (nth a [[ROne (REnum 3); RMany (RScalar KString); RMapOf KString (RMsg 1)]; [ROne (RMsg 0)]] []) -> a = 1%nat /\ b = 0%nat).
        { intros a b H. destruct a as [|[|[|a]]]; cbn in H; repeat (destruct H as [H|H]; [first [discriminate H|injection H as <-; auto]|]); destruct H. }
        induction 1 as [a b H|a b c H _ IH]; [apply B, H|]. apply B in H. destruct IH. lia. }
      intros m H. apply A in H. lia.
Qed.

(** C70: what generated Go declares.  One struct per message, at any depth, with its fields in order ... *)
Theorem c70_structs : forall v2 f n fs, In (GoStruct n fs) (go_file v2 f) <->
  exists m, has_message f m /\ CamelCase (m_full m) = Ok n /\ fs = map (fun fd => (camel (f_name fd), FindValue fd)) (m_fields m).
Proof. exact go_struct_iff. Qed.
Print Assumptions c70_structs.
Theorem c70_one_struct_per_message : forall v2 f, length (filter is_struct (go_file v2 f)) = message_count f.
Proof. exact go_struct_count. Qed.
Print Assumptions c70_one_struct_per_message.
(** ... and these types: enums at top level or directly in a top-level message, messages at any depth,
    and one type per map field. *)
Theorem c70_types_iff : forall v2 f n, In n (go_types (go_file v2 f)) <->
  (exists e, shallow_enum f e /\ CamelCase (e_full e) = Ok n) \/
  (exists m, has_message f m /\ CamelCase (m_full m) = Ok n) \/
  (exists m fd k v p, has_message f m /\ In fd (m_fields m) /\ f_typ fd = TMap k v /\ CamelCase (f_full fd) = Ok p /\ n = p ++ str "Map").
Proof. exact go_types_iff. Qed.
Print Assumptions c70_types_iff.
Theorem c70_rust_types_iff : forall f n, In n (flat_map rs_type (rs_file f)) <->
  (exists e, shallow_enum f e /\ CamelCase (e_full e) = Ok n) \/ (exists m, has_message f m /\ CamelCase (m_full m) = Ok n).
Proof. exact rs_types_iff. Qed.
Print Assumptions c70_rust_types_iff.
Theorem c70_rust_structs : forall f n fs, In (RsStruct n fs) (rs_file f) <->
  exists m, has_message f m /\ CamelCase (m_full m) = Ok n /\
    fs = map (fun fd => (SnakeCase (f_name fd), rs_findValue (f_many fd) (f_typ fd))) (m_fields m).
Proof. exact rs_struct_iff. Qed.
Print Assumptions c70_rust_structs.
(** The other Go declarations: map types, constructors, methods, and one variable. *)
Theorem c70_maps_iff : forall v2 f n k v, In (GoMap n k v) (go_file v2 f) <->
  exists m fd kt vt p, has_message f m /\ In fd (m_fields m) /\ f_typ fd = TMap kt vt /\ CamelCase (f_full fd) = Ok p /\ n = p ++ str "Map" /\
    k = FindValue (map_key fd kt) /\ v = FindValue (map_value fd vt).
Proof. exact go_map_iff. Qed.
Print Assumptions c70_maps_iff.
Theorem c70_constructors_iff : forall v2 f n, In (GoFunc n) (go_file v2 f) <->
  (exists m p, has_message f m /\ CamelCase (m_full m) = Ok p /\ n = str "New" ++ p) \/
  (exists m fd kt vt p, has_message f m /\ In fd (m_fields m) /\ f_typ fd = TMap kt vt /\ CamelCase (f_full fd) = Ok p /\ n = str "New" ++ p ++ str "Map").
Proof. exact go_func_iff. Qed.
Print Assumptions c70_constructors_iff.
Theorem c70_methods_iff : forall v2 f n x, In (GoMethod n x) (go_file v2 f) <->
  (exists m, has_message f m /\ CamelCase (m_full m) = Ok n /\ In x (map str ["Error"; "Encode"; "Decode"; "decode"]%string)) \/
  (exists m fd kt vt p, has_message f m /\ In fd (m_fields m) /\ f_typ fd = TMap kt vt /\ CamelCase (f_full fd) = Ok p /\ n = p ++ str "Map" /\
     In x (map str ["Encode"; "decode"]%string)).
Proof. exact go_method_iff. Qed.
Print Assumptions c70_methods_iff.
Theorem c70_variable : forall v2 f n, In (GoVar n) (go_file v2 f) <-> n = str (if v2 then "ErrDecodeNil" else "NilDecode")%string.
Proof. exact go_var_iff. Qed.
Print Assumptions c70_variable.
(** The types of fields: scalars in Go (enums, messages and maps: below), all of Rust's. *)
Theorem c70_go_scalar_types : forall fd k, f_typ fd = TScalar k ->
  FindValue fd = match go_scalar k with Some s => Ok ((if f_many fd then str "[]" else []) ++ str s) | None => Panic end.
Proof. exact go_scalar_text. Qed.
Print Assumptions c70_go_scalar_types.
Theorem c70_rust_types : forall many t x, rs_findValue many t = Ok x <-> rust_text many t x.
Proof. exact rs_text_iff. Qed.
Print Assumptions c70_rust_types.
(** The types and constructors a field mentions are declared: message types at any depth, ... *)
Theorem c70_message_references : forall v2 f fd m, f_typ fd = TMsg (m_full m) -> has_message f m ->
  exists n, FindValue fd = Ok ((if f_many fd then str "[]*" else str "*") ++ n) /\ In n (go_types (go_file v2 f)) /\
    In (GoFunc (str "New" ++ n)) (go_file v2 f).
Proof. exact msg_ref. Qed.
Print Assumptions c70_message_references.
(** ... map types ... *)
Theorem c70_map_references : forall v2 f m fd k v, has_message f m -> In fd (m_fields m) -> f_typ fd = TMap k v ->
  exists n, FindValue fd = Ok n /\ In (GoMap n (FindValue (map_key fd k)) (FindValue (map_value fd v))) (go_file v2 f) /\
    In (GoFunc (str "New" ++ n)) (go_file v2 f).
Proof. exact map_ref. Qed.
Print Assumptions c70_map_references.
(** ... and the enums that are not too deep. *)
Theorem c70_enum_references : forall v2 f fd e, f_typ fd = TEnum (e_full e) -> f_many fd = false -> shallow_enum f e ->
  exists n, FindValue fd = Ok n /\ In n (go_types (go_file v2 f)).
Proof. exact enum_ref. Qed.
Print Assumptions c70_enum_references.

(** message A { message B { enum E { X = 0; }  E e = 1; } } *)
Definition deep_enum : enumd := mkenum (str "A.B.E") [mkval (str "X") (str "A.B.X") 0].
Definition deep_field : fieldd := mkfield (str "e") (str "A.B.e") false (TEnum (str "A.B.E")).
Definition deep_file : filed :=
  mkfiled [] [mkmsg (str "A") false [] [] [mkmsg (str "A.B") false [deep_field] [deep_enum] []]].
(** Refuted: that every enum is declared.  One declared two levels deep is not, in either language,
    although the struct for B mentions it. *)
Theorem c70_deep_enum_refuted : forall v2, has_enum deep_file deep_enum /\
  In (GoStruct (str "AB") [(str "E", Ok (str "ABE"))]) (go_file v2 deep_file) /\ ~ In (str "ABE") (go_types (go_file v2 deep_file)) /\
  In (RsStruct (str "AB") [(str "e", Ok (str "ABE"))]) (rs_file deep_file) /\ ~ In (str "ABE") (map rs_item (rs_file deep_file)).
Proof.
  intros v2. split.
  { right. exists (mkmsg (str "A.B") false [deep_field] [deep_enum] []). split; [|left; reflexivity]. eexists. split; [left; reflexivity|].
    eapply inside_nested; [left; reflexivity|reflexivity|apply inside_self]. }
  split; [destruct v2; vm_compute; auto 20|]. split; [destruct v2; vm_compute; intuition discriminate|].
  split; [vm_compute; auto 20|vm_compute; intuition discriminate].
Qed.
Print Assumptions c70_deep_enum_refuted.
(** Refuted: that a repeated enum names the declared type: its first letter stays in lower case. *)
Theorem c70_repeated_enum_refuted : forall c s name full, lower c ->
  exists r, CamelCase (c :: s) = Ok ((c - 32) :: r) /\
    FindValue (mkfield name full true (TEnum (c :: s))) = Ok (str "[]" ++ c :: r).
Proof.
  intros c s name full H. destruct (camel_slice c s H) as (r & E1 & E2). exists r. split; [rewrite camel_ok, E1; reflexivity|].
  unfold FindValue. cbn [f_typ f_many]. rewrite append2, camel_ok, E2. reflexivity.
Qed.
Print Assumptions c70_repeated_enum_refuted.
(** Refuted: that package-level names are unique.  Two files of one package always clash; so do a
    message and the constructor of another. *)
Theorem c70_two_files_refuted : forall v2 f g, ~ NoDup (go_names (go_file v2 f ++ go_file v2 g)).
Proof.
  intros v2 f g H. unfold go_names in H. rewrite flat_map_app in H. unfold go_file at 1 in H. cbn [flat_map go_name app] in H.
  inversion H as [|? ? N _]; subst. apply N. apply in_or_app. right. unfold go_file. cbn [flat_map go_name app]. left. reflexivity.
Qed.
Print Assumptions c70_two_files_refuted.
Theorem c70_constructor_clash_refuted : forall v2,
  let f := mkfiled [] [mkmsg (str "Foo") false [] [] []; mkmsg (str "NewFoo") false [] [] []] in
  In (GoFunc (str "NewFoo")) (go_file v2 f) /\ In (GoStruct (str "NewFoo") []) (go_file v2 f) /\ ~ NoDup (go_names (go_file v2 f)).
Proof.
  intros v2 f. split; [destruct v2; vm_compute; auto 20|]. split; [destruct v2; vm_compute; auto 20|].
  intros H. destruct v2; vm_compute in H; do 2 (apply NoDup_cons_iff in H; destruct H as [_ H]);
    apply NoDup_cons_iff in H; destruct H as [N _]; apply N; left; reflexivity.
Qed.
Print Assumptions c70_constructor_clash_refuted.
(** message P { message Q { map<string, P> m = 1; }  repeated Q qs = 1; enum F { G = 0; }  F f = 2; } in package a *)
Example c70_example : let q := mkmsg (str "a.P.Q") false [mkfield (str "m") (str "a.P.Q.m") true (TMap (TScalar KString) (TMsg (str "a.P")))] []
                                 [mkmsg (str "a.P.Q.MEntry") true [] [] []] in
  let p := mkmsg (str "a.P") false [mkfield (str "qs") (str "a.P.qs") true (TMsg (str "a.P.Q")); mkfield (str "f") (str "a.P.f") false (TEnum (str "a.P.F"))]
             [mkenum (str "a.P.F") [mkval (str "G") (str "a.P.G") 0]] [q] in
  let f := mkfiled [] [p] in
  has_message f q /\ message_count f = 2%nat /\
  go_names (go_file true f) = map str ["ErrDecodeNil"; "APF"; "APG"; "APQMMap"; "NewAPQMMap"; "APQ"; "NewAPQ"; "AP"; "NewAP"]%string /\
  In (GoStruct (str "AP") [(str "Qs", Ok (str "[]*APQ")); (str "F", Ok (str "APF"))]) (go_file true f) /\
  In (GoMap (str "APQMMap") (Ok (str "string")) (Ok (str "*AP"))) (go_file true f).
Proof.
  intros q p f. split; [exists p; split; [left; reflexivity|eapply inside_nested; [left; reflexivity|reflexivity|apply inside_self]]|].
  split; [reflexivity|]. split; [vm_compute; reflexivity|]. split; vm_compute; auto 20.
Qed.

(** repeated bytes data; map<string, sint64> m *)
Example c70_types_example : FindValue (mkfield (str "data") (str "M.data") true (TScalar KBytes)) = Ok (str "[][]byte") /\
  rust_text true (TMap (TScalar KString) (TScalar KSint64)) (str "HashMap<String, i64>") /\ rust_text true (TMsg (str "a.M")) (str "Vec<AM>").
Proof. split; [reflexivity|]. split; apply rs_text_iff; vm_compute; reflexivity. Qed.

(** C71: legal names.  A field and a method of one Go struct clash if and only if the field's name is a
    spelling of "error", "encode" or "decode". *)
Theorem c71_member_clash_iff : forall v2 f m fd n x, has_message f m -> In fd (m_fields m) -> identifier (f_name fd) ->
  CamelCase (m_full m) = Ok n -> CamelCase (f_name fd) = Ok x ->
  (In (GoMethod n x) (go_file v2 f) <->
   In (f_name fd) (spellings 101 (str "rror") ++ spellings 101 (str "ncode") ++ spellings 100 (str "ecode"))).
Proof.
  intros v2 f m fd n x Hm Hf Hi En Ex.
  assert (L : forall s, forallb is_lower s = true -> Forall lower s) by (intros s H; apply all_lower, H).
  rewrite !in_app_iff, <- !camel_word_iff by (assumption || (unfold lower; lia) || (apply L; reflexivity)). rewrite Ex. split.
  - intros H. apply method_names in H. cbn in H. destruct H as [<-|[<-|[<-|[<-|[]]]]]; [left; reflexivity|right; left; reflexivity|right; right; reflexivity|].
    exfalso. pose proof (camel_never_lower _ _ Ex _ _ eq_refl). discriminate.
  - intros H. apply (method_in v2 f m n x Hm En). cbn. destruct H as [H|[H|H]]; injection H as ->; auto.
Qed.
Print Assumptions c71_member_clash_iff.
Theorem c71_error_field_refuted : forall v2,
  let f := mkfiled [] [mkmsg (str "M") false [mkfield (str "error") (str "M.error") false (TScalar KString)] [] []] in
  In (GoStruct (str "M") [(str "Error", Ok (str "string"))]) (go_file v2 f) /\ In (GoMethod (str "M") (str "Error")) (go_file v2 f).
Proof. intros v2 f. destruct v2; split; vm_compute; auto 20. Qed.
Print Assumptions c71_error_field_refuted.
(** Go names are never reserved words; Rust type names only if they are "Self" ... *)
Theorem c71_go_reserved : forall s r, CamelCase s = Ok r -> ~ In r go_keywords.
Proof. exact go_keyword. Qed.
Print Assumptions c71_go_reserved.
Theorem c71_rust_type_reserved_iff : forall s r, identifier s -> CamelCase s = Ok r ->
  (In r rust_keywords <-> In s (spellings 115 (str "elf"))).
Proof.
  intros s r Hs E. rewrite <- camel_word_iff; [|exact Hs|unfold lower; lia|apply all_lower; reflexivity]. rewrite E. split.
  - intros H. rewrite (rust_type_keyword s r E H). reflexivity.
  - intros H. injection H as ->. vm_compute. auto 40.
Qed.
Print Assumptions c71_rust_type_reserved_iff.
(** ... but Rust and TypeScript field names are whenever the protobuf name is (a prefix may be in capitals). *)
Theorem c71_rust_field_reserved_iff : forall s, identifier s ->
  (In (SnakeCase s) rust_keywords <-> exists w u v, In w rust_keywords /\ w <> str "Self" /\ w = u ++ v /\ s = map raise u ++ v).
Proof. exact rust_field_keyword. Qed.
Print Assumptions c71_rust_field_reserved_iff.
Theorem c71_ts_field_reserved_iff : forall other s, identifier s ->
  (In (LowercaseCamelCase other s) ts_keywords <-> exists c w, In (c :: w) ts_keywords /\ (s = c :: w \/ s = raise c :: w)).
Proof. exact ts_field_keyword. Qed.
Print Assumptions c71_ts_field_reserved_iff.
Example c71_example : In (SnakeCase (str "type")) rust_keywords /\ In (SnakeCase (str "TYpe")) rust_keywords /\
  ~ In (SnakeCase (str "typ")) rust_keywords /\ In (LowercaseCamelCase (fun r => r) (str "Class")) ts_keywords /\
  In (str "_Error") (spellings 101 (str "rror")) /\ identifier (str "type").
Proof.
  split; [vm_compute; auto 50|]. split; [vm_compute; auto 50|]. split; [vm_compute; intuition discriminate|]. split; [vm_compute; auto 50|].
  split; [vm_compute; auto 10|]. exists 116, (str "ype"). split; [reflexivity|]. split; [left; unfold letter, lower, upper; lia|].
  apply Forall_forall. intros c Hc. cbn in Hc. unfold ident_char, letter, lower, upper. lia.
Qed.

(** C72: enum values.  In Go and in Rust the constant for the i-th declared value is i, whatever number
    the protobuf file gives it. *)
Theorem c72_go_constants : forall v2 f n t v, In (GoConst n t v) (go_file v2 f) <->
  exists e i x, shallow_enum f e /\ nth_error (e_values e) i = Some x /\ v = Z.of_nat i /\ CamelCase (v_full x) = Ok n /\ CamelCase (e_full e) = Ok t.
Proof. exact go_const_iff. Qed.
Print Assumptions c72_go_constants.
Theorem c72_rust_variants : forall f n vs, In (RsEnum n vs) (rs_file f) <->
  exists e, shallow_enum f e /\ CamelCase (e_full e) = Ok n /\ length vs = length (e_values e) /\
    forall i x, nth_error (e_values e) i = Some x -> nth_error vs i = Some (v_name x, Z.of_nat i).
Proof. exact rs_enum_iff. Qed.
Print Assumptions c72_rust_variants.
(** so Go and Rust agree, and the discriminants Rust accepts are the numbers below the number of values
    (the bound in the model of decoding, RsGenModel.REnum) *)
Theorem c72_languages_agree : forall v2 f e i x, shallow_enum f e -> nth_error (e_values e) i = Some x ->
  exists t n vs, CamelCase (e_full e) = Ok t /\ In (GoConst n t (Z.of_nat i)) (go_file v2 f) /\ CamelCase (v_full x) = Ok n /\
    In (RsEnum t vs) (rs_file f) /\ nth_error vs i = Some (v_name x, Z.of_nat i) /\
    forall k, In k (map snd vs) <-> 0 <= k < zlen (e_values e).
Proof.
  intros v2 f e i x He Hx. exists (camel (e_full e)), (camel (v_full x)), (map (fun iv => (v_name (snd iv), fst iv)) (numbered 0 (e_values e))).
  split; [apply camel_ok|]. split; [apply go_const_iff; exists e, i, x; repeat split; auto; apply camel_ok|]. split; [apply camel_ok|].
  split; [apply in_rs_file; right; right; left; exists e; split; [exact He|left; reflexivity]|].
  split; [rewrite nth_error_map, numbered_nth, Hx; reflexivity|].
  intros k. rewrite map_map. cbn [snd]. rewrite in_map_iff. split.
  - intros ((j & y) & <- & H). apply numbered_in in H. destruct H as (m & Hm & ->). cbn [fst].
    assert (m < length (e_values e))%nat by (apply nth_error_Some; congruence). unfold zlen. lia.
  - intros Hk. destruct (nth_error (e_values e) (Z.to_nat k)) as [y|] eqn:E.
    + exists (k, y). split; [reflexivity|]. apply numbered_in. exists (Z.to_nat k). split; [exact E|lia].
    + apply nth_error_None in E. unfold zlen in Hk. lia.
Qed.
Print Assumptions c72_languages_agree.
(** Refuted: that the constants are the numbers of the protobuf file, or at least do not change when
    another value is removed (as protobuf allows). *)
Theorem c72_declared_numbers_refuted : forall v2,
  let x := mkval (str "X") (str "X") 0 in let y := mkval (str "Y") (str "Y") 5 in
  In (GoConst (str "Y") (str "E") 1) (go_file v2 (mkfiled [mkenum (str "E") [x; y]] [])) /\ v_number y = 5 /\
  In (RsEnum (str "E") [(str "X", 0); (str "Y", 1)]) (rs_file (mkfiled [mkenum (str "E") [x; y]] [])).
Proof. intros v2 x y. split; [destruct v2; vm_compute; auto|]. split; [reflexivity|vm_compute; auto]. Qed.
Print Assumptions c72_declared_numbers_refuted.
Theorem c72_removal_shifts_refuted : forall v2 name l x y r ms n t, CamelCase (v_full y) = Ok n -> CamelCase name = Ok t ->
  In (GoConst n t (zlen l + 1)) (go_file v2 (mkfiled [mkenum name (l ++ x :: y :: r)] ms)) /\
  In (GoConst n t (zlen l)) (go_file v2 (mkfiled [mkenum name (l ++ y :: r)] ms)).
Proof.
  intros v2 name l x y r ms n t En Et. split; apply go_const_iff; eexists.
  - exists (length l + 1)%nat, y. split; [left; left; reflexivity|]. cbn [e_values e_full]. rewrite nth_error_app2 by lia.
    replace (length l + 1 - length l)%nat with 1%nat by lia. repeat split; auto. unfold zlen. lia.
  - exists (length l), y. split; [left; left; reflexivity|]. cbn [e_values e_full]. rewrite nth_error_app2, Nat.sub_diag by lia.
    repeat split; auto.
Qed.
Print Assumptions c72_removal_shifts_refuted.
