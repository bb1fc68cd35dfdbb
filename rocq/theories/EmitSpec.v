(** What the generated declarations mean, in terms of the protobuf file. *)
From Coq Require Import String.
From Verif Require Import Base Utf8 NameModel NameSpec GenTables EmitModel.

(** [k] is [m], or declared inside [m] at any depth (map entries, which protoc synthesises, aside) *)
Inductive inside : msgd -> msgd -> Prop :=
| inside_self m : inside m m
| inside_nested m n k : In n (m_nested m) -> m_entry n = false -> inside n k -> inside m k.
(** the messages and enums a file declares, at any depth *)
Definition has_message (f : filed) (m : msgd) : Prop := exists t, In t (d_msgs f) /\ inside t m.
Definition has_enum (f : filed) (e : enumd) : Prop :=
  In e (d_enums f) \/ exists m, has_message f m /\ In e (m_enums m).
(** the enums declared at top level or directly in a top-level message *)
Definition shallow_enum (f : filed) (e : enumd) : Prop :=
  In e (d_enums f) \/ exists t, In t (d_msgs f) /\ In e (m_enums t).
(** how many messages that is *)
Fixpoint count (m : msgd) : nat :=
  match m with
  | mkmsg _ _ _ _ nested => 1 + list_sum (map (fun n => if m_entry n then 0 else count n) nested)
  end%nat.
Definition message_count (f : filed) : nat := list_sum (map count (d_msgs f)).

(** Names at package level, and those of them that are types. *)
Definition go_name (d : godecl) : list bytes :=
  match d with GoVar n | GoEnum n | GoConst n _ _ | GoMap n _ _ | GoStruct n _ | GoFunc n => [n] | GoMethod _ _ => [] end.
Definition go_type (d : godecl) : list bytes :=
  match d with GoEnum n | GoMap n _ _ | GoStruct n _ => [n] | _ => [] end.
Definition go_names (ds : list godecl) : list bytes := flat_map go_name ds.
Definition go_types (ds : list godecl) : list bytes := flat_map go_type ds.
Definition is_struct (d : godecl) : bool := match d with GoStruct _ _ => true | _ => false end.
(** Fields and methods of type [n]: Go wants their names to be different. *)
Definition go_members (ds : list godecl) (n : bytes) : list bytes :=
  flat_map (fun d => match d with
                     | GoStruct q fs => if list_eq_dec Z.eq_dec q n then map fst fs else []
                     | GoMethod q x => if list_eq_dec Z.eq_dec q n then [x] else []
                     | _ => []
                     end) ds.
(** Items of a Rust module; variants of an enum with their discriminants. *)
Definition rs_item (d : rsdecl) : bytes := match d with RsTrait n | RsEnum n _ | RsStruct n _ => n end.
Definition rs_type (d : rsdecl) : list bytes := match d with RsTrait _ => [] | RsEnum n _ | RsStruct n _ => [n] end.

(** Reserved words (Go language specification; The Rust Reference, edition 2021, strict and reserved;
    ECMAScript, strict mode). *)
Definition go_keywords : list bytes := map str
  ["break"; "case"; "chan"; "const"; "continue"; "default"; "defer"; "else"; "fallthrough"; "for"; "func"; "go"; "goto"; "if"; "import";
   "interface"; "map"; "package"; "range"; "return"; "select"; "struct"; "switch"; "type"; "var"]%string.
Definition rust_keywords : list bytes := map str
  ["as"; "break"; "const"; "continue"; "crate"; "else"; "enum"; "extern"; "false"; "fn"; "for"; "if"; "impl"; "in"; "let"; "loop";
   "match"; "mod"; "move"; "mut"; "pub"; "ref"; "return"; "self"; "Self"; "static"; "struct"; "super"; "trait"; "true"; "type"; "unsafe";
   "use"; "where"; "while"; "async"; "await"; "dyn"; "abstract"; "become"; "box"; "do"; "final"; "macro"; "override"; "priv"; "typeof";
   "unsized"; "virtual"; "yield"; "try"]%string.
Definition ts_keywords : list bytes := map str
  ["break"; "case"; "catch"; "class"; "const"; "continue"; "debugger"; "default"; "delete"; "do"; "else"; "enum"; "export"; "extends";
   "false"; "finally"; "for"; "function"; "if"; "import"; "in"; "instanceof"; "new"; "null"; "return"; "super"; "switch"; "this"; "throw";
   "true"; "try"; "typeof"; "var"; "void"; "while"; "with"; "implements"; "interface"; "let"; "package"; "private"; "protected"; "public";
   "static"; "yield"]%string.
(** a letter in the other case *)
Definition raise (c : Z) : Z := c - 32.
(** for a lower case word [c :: w]: itself and capitalised, each also after "_", and after "__" *)
Definition spellings (c : Z) (w : bytes) : list bytes :=
  [c :: w; (c - 32) :: w; 95 :: c :: w; 95 :: (c - 32) :: w; 95 :: 95 :: c :: w].

(** The types of fields as text.  Scalars: *)
Definition go_scalar (k : pkind) : option string :=
  match k with
  | KBool => Some "bool" | KString => Some "string" | KBytes => Some "[]byte" | KFloat => Some "float32" | KDouble => Some "float64"
  | KInt32 | KSint32 | KSfixed32 => Some "int32" | KInt64 | KSint64 | KSfixed64 => Some "int64"
  | KUint32 | KFixed32 => Some "uint32" | KUint64 | KFixed64 => Some "uint64"
  | KEnum | KMessage | KGroup => None
  end%string.
Definition rust_scalar (k : pkind) : option string :=
  match k with
  | KBool => Some "bool" | KString => Some "String" | KBytes => Some "Vec<u8>" | KFloat => Some "f32" | KDouble => Some "f64"
  | KInt32 | KSint32 | KSfixed32 => Some "i32" | KInt64 | KSint64 | KSfixed64 => Some "i64"
  | KUint32 | KFixed32 => Some "u32" | KUint64 | KFixed64 => Some "u64"
  | KEnum | KMessage | KGroup => None
  end%string.
(** and the rest of Rust's: [rust_text many t x], a field of type [t] has the type [x] *)
Inductive rust_text : bool -> ftyp -> bytes -> Prop :=
| rt_scalar k s : rust_scalar k = Some s -> rust_text false (TScalar k) (str s)
| rt_enum full n : CamelCase full = Ok n -> rust_text false (TEnum full) n
| rt_msg full n : CamelCase full = Ok n -> rust_text false (TMsg full) n
| rt_map many k v a b : rust_text false k a -> rust_text false v b ->
    rust_text many (TMap k v) (str "HashMap<" ++ a ++ str ", " ++ b ++ str ">")
| rt_many t x : (forall k v, t <> TMap k v) -> rust_text false t x -> rust_text true t (str "Vec<" ++ x ++ str ">").
