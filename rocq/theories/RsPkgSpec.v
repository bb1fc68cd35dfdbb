(** Rust's rules for the items of a module (The Rust Reference: Names and Namespaces, Use declarations, Structs,
    Enumerations), and what they ask of a protobuf file. *)
From Coq Require Import String.
From Verif Require Import Base Utf8 NameModel NameSpec GenTables EmitModel EmitSpec PkgModel PkgSpec RsPkgModel.

Definition rust_usable (n : bytes) : Prop := identifier n /\ n <> PkgSpec.blank /\ ~ In n rust_keywords.
(** names of the standard prelude and primitive types that generated code relies on *)
Definition rust_std : list bytes := map str ["String"; "Vec"; "Option"; "Result"; "Box"; "Sized"]%string.
Definition rust_primitive : list bytes := map str ["bool"; "u8"; "i32"; "u32"; "i64"; "u64"; "f32"; "f64"]%string.
(** the names in the text of a type *)
Definition name_char (c : Z) : bool := is_lower c || is_upper c || is_digit c || (c =? 95).
Fixpoint words_from (cur : bytes) (s : bytes) : list bytes :=
  match s with
  | [] => match cur with [] => [] | _ => [cur] end
  | c :: t => if name_char c then words_from (cur ++ [c]) t else match cur with [] => words_from [] t | _ => cur :: words_from [] t end
  end.
Definition words (s : bytes) : list bytes := words_from [] s.
Definition rs_mentions (d : rsdecl) : list bytes :=
  match d with RsStruct _ fs => flat_map (fun f => match snd f with Ok t => words t | Panic => [] end) fs | _ => [] end.
(** fields of a struct, variants of an enum *)
Definition rs_parts (d : rsdecl) : list bytes :=
  match d with RsStruct _ fs => map fst fs | RsEnum _ vs => map fst vs | RsTrait _ => [] end.
Record module_ok (o : rsfile) : Prop := {
  (* items have legal names, distinct from each other and from what is imported *)
  mo_names : forall n, In n (map rs_item (q_decls o)) -> rust_usable n;
  mo_once : NoDup (q_imports o ++ map rs_item (q_decls o));
  (* and do not capture the names the generated code takes from the prelude *)
  mo_capture : forall n, In n (map rs_item (q_decls o)) -> ~ In n rust_std;
  (* so have fields and variants *)
  mo_parts : forall d n, In d (q_decls o) -> In n (rs_parts d) -> rust_usable n;
  mo_parts_once : forall d, In d (q_decls o) -> NoDup (rs_parts d);
  (* every name mentioned in the type of a field is known *)
  mo_known : forall d n, In d (q_decls o) -> In n (rs_mentions d) -> In n (q_imports o ++ map rs_item (q_decls o) ++ rust_std ++ rust_primitive);
  (* the macro derived for enums is imported, and does not accept an empty one *)
  mo_derive : forall n vs, In (RsEnum n vs) (q_decls o) -> In (str "TryFromPrimitive") (q_imports o) /\ vs <> []
}.

(** ---- in terms of the protobuf file ---- *)
(** full names that start with a letter *)
Definition letter_name (s : bytes) : Prop := full_name s /\ exists c t, s = c :: t /\ letter c.
(** descriptors as protoc makes them *)
Definition rs_plain_value (t : ftyp) : Prop :=
  match t with TScalar k => k <> KEnum /\ k <> KMessage /\ k <> KGroup | TEnum s | TMsg s => letter_name s | TMap _ _ => False end.
Definition rs_plain_type (t : ftyp) : Prop :=
  match t with
  | TScalar k => k <> KEnum /\ k <> KMessage
  | TEnum s | TMsg s => letter_name s
  | TMap k v => rs_plain_value k /\ rs_plain_value v
  end.
Record rs_plain (f : filed) : Prop := {
  rp_messages : forall m, has_message f m -> letter_name (m_full m);
  rp_fields : forall m fd, has_message f m -> In fd (m_fields m) -> identifier (f_name fd) /\ rs_plain_type (f_typ fd);
  rp_enums : forall e, shallow_enum f e -> letter_name (e_full e) /\ e_values e <> [] /\ forall x, In x (e_values e) -> identifier (v_name x)
}.
(** Rust types of a file: its messages, and the enums at top level or directly in a top-level message *)
Definition rust_type_of (f : filed) (n : bytes) : Prop :=
  (exists e, shallow_enum f e /\ CamelCase (e_full e) = Ok n) \/ (exists m, has_message f m /\ CamelCase (m_full m) = Ok n).
(** a message with a map field is reached from fields of these types *)
Inductive map_ahead (env : list msgd) : list ftyp -> Prop :=
| ma_here ts k v : In (TMap k v) ts -> map_ahead env ts
| ma_message ts s m : In (TMsg s) ts -> message_named env s = Some m -> map_ahead env (map f_typ (m_fields m)) -> map_ahead env ts.
Definition imports_maps (env : list msgd) (f : filed) : Prop := exists m, In m (d_msgs f) /\ map_ahead env (map f_typ (m_fields m)).
Definition has_maps (f : filed) : Prop := exists m fd k v, has_message f m /\ In fd (m_fields m) /\ f_typ fd = TMap k v.
(** what a file imports *)
Definition imported (env : list msgd) (f : filed) (n : bytes) : Prop :=
  In n (map str ["Cursor"; "DecodingError"; "Encoder"; "Decoder"; "Kind"]%string) \/
  (In n (map str ["TryFromPrimitive"; "TryFrom"]%string) /\ d_enums f <> []) \/
  (n = str "HashMap" /\ imports_maps env f).
(** what a field may refer to: a type of the same file, or by accident a name known for another reason *)
Definition rust_named (env : list msgd) (f : filed) (s : bytes) : Prop :=
  exists n, CamelCase s = Ok n /\ (rust_type_of f n \/ imported env f n \/ In n (map str ["Encode"; "Decode"]%string) \/ In n rust_std).
Fixpoint rust_refers (env : list msgd) (f : filed) (t : ftyp) : Prop :=
  match t with
  | TScalar _ => True
  | TEnum s | TMsg s => rust_named env f s
  | TMap k v => rust_refers env f k /\ rust_refers env f v
  end.
Record rs_proto_ok (env : list msgd) (f : filed) : Prop := {
  (* types have different names; none is Self, or called like something imported, the two traits, or a prelude name *)
  ro_names : NoDup (flat_map rs_type (rs_file f));
  ro_free : forall n, rust_type_of f n ->
    ~ imported env f n /\ ~ In n (map str ["Self"; "Encode"; "Decode"]%string) /\ ~ In n rust_std;
  (* field names, after conversion, are no reserved words and differ within a message *)
  ro_fields : forall m fd, has_message f m -> In fd (m_fields m) -> SnakeCase (f_name fd) <> PkgSpec.blank /\ ~ In (SnakeCase (f_name fd)) rust_keywords;
  ro_fields_once : forall m, has_message f m -> NoDup (map (fun fd => SnakeCase (f_name fd)) (m_fields m));
  (* so are the names of enum values, which are not converted *)
  ro_values : forall e x, shallow_enum f e -> In x (e_values e) -> v_name x <> PkgSpec.blank /\ ~ In (v_name x) rust_keywords;
  ro_values_once : forall e, shallow_enum f e -> NoDup (map v_name (e_values e));
  (* the types of fields are in the same file *)
  ro_refers : forall m fd, has_message f m -> In fd (m_fields m) -> rust_refers env f (f_typ fd);
  (* maps only if a top-level message leads to one (or a message has the name of the map type); enums only if one
     is at top level *)
  ro_maps : has_maps f -> imports_maps env f \/ rust_type_of f (str "HashMap");
  ro_enums : (exists e, shallow_enum f e) -> d_enums f <> []
}.
(** following the types of fields comes to an end *)
Inductive ends (env : list msgd) : list ftyp -> Prop :=
| en ts :
    (forall k v, In (TMap k v) ts -> ends env [k; v]) ->
    (forall s m, In (TMsg s) ts -> message_named env s = Some m -> ends env (map f_typ (m_fields m))) -> ends env ts.
(** a message of this name is reached from fields of these types *)
Inductive reaches (env : list msgd) : list ftyp -> bytes -> Prop :=
| re_here ts s : In (TMsg s) ts -> reaches env ts s
| re_map ts k v s : In (TMap k v) ts -> reaches env [k; v] s -> reaches env ts s
| re_message ts s m n : In (TMsg s) ts -> message_named env s = Some m -> reaches env (map f_typ (m_fields m)) n -> reaches env ts n.
(** ---- who may use a field (The Rust Reference: Visibility and Privacy) ---- *)
Inductive place := SameModule | SameCrate | OtherCrate.
Definition may_use (v : visibility) (p : place) : Prop :=
  match v with Private => p = SameModule | Crate => p <> OtherCrate | Public => True end.
