(** Go's rules for the declarations of a package (The Go Programming Language Specification: Source file
    organization, Packages, Import declarations, Declarations and scope, Struct types, Method declarations),
    and what they ask of protobuf files. *)
From Coq Require Import String.
From Verif Require Import Base Utf8 NameModel NameSpec GenTables EmitModel EmitSpec PkgModel.

Definition blank : bytes := str "_".
Definition not_blank (n : bytes) : bool := negb (if list_eq_dec Z.eq_dec n blank then true else false).
(** a name that can be declared and referred to *)
Definition usable (n : bytes) : Prop := identifier n /\ n <> blank /\ ~ In n go_keywords.
(** predeclared types *)
Definition go_predeclared : list bytes := map str
  ["any"; "bool"; "byte"; "comparable"; "complex64"; "complex128"; "error"; "float32"; "float64"; "int"; "int8"; "int16"; "int32"; "int64";
   "rune"; "string"; "uint"; "uint8"; "uint16"; "uint32"; "uint64"; "uintptr"]%string.
(** the type name in "[]*T" and the like *)
Fixpoint type_name (t : bytes) : bytes :=
  match t with c :: r => if (c =? 91) || (c =? 93) || (c =? 42) then type_name r else c :: r | [] => [] end.
(** the type names a declaration mentions *)
Definition mention (t : res bytes) : list bytes := match t with Ok t => [type_name t] | Panic => [] end.
Definition mentions (d : godecl) : list bytes :=
  match d with
  | GoConst _ t _ => [t]
  | GoMap _ k v => mention k ++ mention v
  | GoStruct _ fs => flat_map (fun f => mention (snd f)) fs
  | GoMethod r _ => [r]
  | _ => []
  end.
Definition all_decls (fs : list gofile) : list godecl := flat_map o_decls fs.

Record package_ok (fs : list gofile) : Prop := {
  (* there is a package name, the same in all files *)
  clauses : exists p, usable p /\ forall f, In f fs -> exists is, o_header f = Some (p, is);
  (* every import is used, in the file that has it *)
  imports_used : forall f p is path name, In f fs -> o_header f = Some (p, is) -> In (path, name) is -> In name (flat_map qualifiers (o_decls f));
  (* every package that is used is imported *)
  imports_there : forall f p is name, In f fs -> o_header f = Some (p, is) -> In name (flat_map qualifiers (o_decls f)) -> In name (map snd is);
  (* names at package level are identifiers, and declared once (the blank identifier aside) ... *)
  names_ok : forall n, In n (go_names (all_decls fs)) -> identifier n /\ ~ In n go_keywords;
  names_once : NoDup (filter not_blank (go_names (all_decls fs)));
  (* ... and no import has one of them *)
  no_shadow : forall f p is n, In f fs -> o_header f = Some (p, is) -> In n (map snd is) -> ~ In n (go_names (all_decls fs));
  (* types can be referred to; so can their fields and methods, which are declared once *)
  types_ok : forall n, In n (go_types (all_decls fs)) -> usable n;
  members_ok : forall n x, In n (go_types (all_decls fs)) -> In x (go_members (all_decls fs) n) -> usable x;
  members_once : forall n, In n (go_types (all_decls fs)) -> NoDup (go_members (all_decls fs) n);
  (* every type mentioned is declared *)
  resolved : forall n, In n (flat_map mentions (all_decls fs)) -> In n (go_types (all_decls fs)) \/ In n go_predeclared
}.

(** ---- in terms of the protobuf files ---- *)
(** the last component of a dotted name *)
Inductive last_component : bytes -> bytes -> Prop :=
| lc_one s : ~ In 46 s -> last_component s s
| lc_dot a s n : last_component s n -> last_component (a ++ 46 :: s) n.
(** descriptors as protoc makes them: fields of enum and message type name the type; map keys and values are
    singular and not groups *)
Definition plain_value (t : ftyp) : Prop :=
  match t with TScalar k => k <> KEnum /\ k <> KMessage /\ k <> KGroup | TEnum s | TMsg s => full_name s | TMap _ _ => False end.
Definition plain_type (t : ftyp) : Prop :=
  match t with
  | TScalar k => k <> KEnum /\ k <> KMessage
  | TEnum s | TMsg s => full_name s
  | TMap k v => plain_value k /\ plain_value v
  end.
Definition plain_file (f : filed) : Prop := forall m fd, has_message f m -> In fd (m_fields m) -> full_name (f_full fd) /\ plain_type (f_typ fd).
Definition has_group (f : filed) : Prop := exists m fd, has_message f m /\ In fd (m_fields m) /\ f_typ fd = TScalar KGroup.
(** [s] is the Go name of a message of the file, of an enum at top level or directly in a top-level message, or
    of a map field *)
Definition go_type_of (f : filed) (n : bytes) : Prop :=
  (exists e, shallow_enum f e /\ CamelCase (e_full e) = Ok n) \/
  (exists m, has_message f m /\ CamelCase (m_full m) = Ok n) \/
  (exists m fd k v p, has_message f m /\ In fd (m_fields m) /\ f_typ fd = TMap k v /\ CamelCase (f_full fd) = Ok p /\ n = p ++ str "Map").
(** what a field refers to is there: the Go name of its enum or message type.  For repeated enums the brackets
    come first, and keep the first letter as it is. *)
Fixpoint refers (f : filed) (many : bool) (t : ftyp) : Prop :=
  match t with
  | TScalar _ => True
  | TMsg full => exists n, CamelCase full = Ok n /\ go_type_of f n
  | TEnum full => if many then exists n, CamelCase (str "[]" ++ full) = Ok (str "[]" ++ n) /\ (go_type_of f n \/ In n go_predeclared)
                  else exists n, CamelCase full = Ok n /\ go_type_of f n
  | TMap k v => refers f false k /\ refers f false v
  end.
(** the files protoc asked for, of one Go package *)
Definition of_package (path : bytes) (f : protofile) : bool :=
  p_generate f && if list_eq_dec Z.eq_dec (p_gopath f) path then true else false.
Definition out_of (path : bytes) (o : gofile) : bool := if list_eq_dec Z.eq_dec (o_path o) path then true else false.
(** the name in the package clause: the last component of the protobuf package, if there is one *)
Definition clause_of (f : protofile) (n : bytes) : Prop :=
  (p_package f = [] /\ n = p_goname f) \/ (n <> [] /\ last_component (p_package f) n).
(** what Go's rules ask of a protobuf file *)
Record proto_ok (v2 : bool) (f : filed) : Prop := {
  (* a message, or the import of polyglot is not used *)
  po_message : exists m, has_message f m;
  (* Go names of types that can be used, Go names of enum values that are identifiers *)
  po_types : forall n, go_type_of f n -> usable n;
  po_values : forall e x n, shallow_enum f e -> In x (e_values e) -> CamelCase (v_full x) = Ok n -> identifier n;
  po_once : NoDup (filter not_blank (go_names (go_file v2 f)));
  (* fields: usable, different, and different from the methods *)
  po_fields : forall m fd n, has_message f m -> In fd (m_fields m) -> CamelCase (f_name fd) = Ok n ->
    usable n /\ ~ In n (map str ["Error"; "Encode"; "Decode"]%string);
  po_fields_once : forall m, has_message f m -> NoDup (map (fun fd => CamelCase (f_name fd)) (m_fields m));
  (* the types of fields are in the same file *)
  po_refers : forall m fd, has_message f m -> In fd (m_fields m) -> refers f (f_many fd) (f_typ fd)
}.
