(** Model of the declarations the generators emit: the templates base, enums, errors, messages and
    structs under /repo/generator/{golang,rust}/templates (the copies under /repo/v2/generator differ
    where noted), FindValue of both structs.go, for an arbitrary protobuf file.

    Simplifications: the emitted text is represented by its declarations (names, types as text,
    constants), not by its characters; method bodies are the subject of GenModel and RsGenModel;
    CustomFields is empty (the default, generator.go 76). *)
From Coq Require Import String Ascii.
From Verif Require Import Base Utf8 NameModel GenTables.

(** A literal of the templates, as bytes. *)
Definition text (s : string) : bytes := map (fun a => Z.of_N (N_of_ascii a)) (list_ascii_of_string s).

(** ---- Descriptors (protoreflect.FileDescriptor and below) ---- *)
(** EnumValueDescriptor: Name(), FullName(), Number() *)
Record evald := mkval { v_name : bytes; v_full : bytes; v_number : Z }.
(** EnumDescriptor: FullName(), Values() *)
Record enumd := mkenum { e_full : bytes; e_values : list evald }.
(** FieldDescriptor.Kind(), with Enum().FullName(), Message().FullName(), MapKey(), MapValue() *)
Inductive ftyp := TScalar (k : pkind) | TEnum (full : bytes) | TMsg (full : bytes) | TMap (k v : ftyp).
(** FieldDescriptor: Name(), FullName(), Cardinality() == Repeated (true of maps), kind *)
Record fieldd := mkfield { f_name : bytes; f_full : bytes; f_many : bool; f_typ : ftyp }.
(** MessageDescriptor: FullName(), IsMapEntry(), Fields(), Enums(), Messages() *)
Inductive msgd := mkmsg (full : bytes) (entry : bool) (fields : list fieldd) (enums : list enumd) (nested : list msgd).
Definition m_full (m : msgd) := let (n, _, _, _, _) := m in n.
Definition m_entry (m : msgd) := let (_, e, _, _, _) := m in e.
Definition m_fields (m : msgd) := let (_, _, fs, _, _) := m in fs.
Definition m_enums (m : msgd) := let (_, _, _, es, _) := m in es.
Definition m_nested (m : msgd) := let (_, _, _, _, ns) := m in ns.
(** FileDescriptor: Enums(), Messages() *)
Record filed := mkfiled { d_enums : list enumd; d_msgs : list msgd }.

(** The template function CamelCase (utils.CamelCaseFullName; it never panics, C50). *)
Definition camel (s : bytes) : bytes := match CamelCase s with Ok r => r | Panic => [] end.

(** ---- The recursion of messages.templ and structs.templ, the same in all three languages ---- *)
Section Templates.
Context {D : Type}.
Variable enum : enumd -> list D.         (* {{template "enum"}} *)
Variable struct : msgd -> list D.        (* structs.templ after the nested messages *)
(** structs.templ 2-7 (golang, rust, typescript): the nested messages that are no map entries, then the message *)
Fixpoint structs (m : msgd) : list D :=
  match m with
  | mkmsg full entry fields enums nested =>
      flat_map (fun n => if m_entry n then [] else structs n) nested ++ struct (mkmsg full entry fields enums nested)
  end.
(** messages.templ: the enums declared in a top-level message, then its structs *)
Definition messages (ms : list msgd) : list D := flat_map (fun m => flat_map enum (m_enums m) ++ structs m) ms.
(** enums.templ 1-6, messages.templ *)
Definition body (f : filed) : list D := flat_map enum (d_enums f) ++ messages (d_msgs f).
End Templates.

(** The index that "range $i, $v := MakeIterable n" gives to each element. *)
Fixpoint numbered {A} (i : Z) (l : list A) : list (Z * A) :=
  match l with [] => [] | x :: l => (i, x) :: numbered (i + 1) l end.

(** ---- Go ---- *)
(** FindValue, generator/golang/structs.go 108-145; a Panic here ends the generator. *)
Definition FindValue (f : fieldd) : res bytes :=
  match f_typ f with
  | TScalar k =>
      match go_typeLUT k with
      | Some kind => Ok (if f_many f then text "[]" ++ text kind else text kind)
      | None => Panic
      end
  | TEnum full => if f_many f then CamelCase (AppendString [text "[]"; full]) else CamelCase full
  | TMap _ _ => CamelCase (AppendString [f_full f; text "Map"])
  | TMsg full =>
      let! n := CamelCase full in
      if f_many f then Ok (AppendString [text "[]"; text "*"; n]) else Ok (AppendString [text "*"; n])
  end.
(** MapKey() and MapValue(): fields "key" and "value" of the entry message *)
Definition map_key (f : fieldd) (k : ftyp) : fieldd := mkfield (text "key") (f_full f ++ text ".key") false k.
Definition map_value (f : fieldd) (v : ftyp) : fieldd := mkfield (text "value") (f_full f ++ text ".value") false v.

Inductive godecl :=
| GoVar (n : bytes)                                        (* var n = ... *)
| GoEnum (n : bytes)                                       (* type n uint32 *)
| GoConst (n t : bytes) (v : Z)                            (* n = t(v) *)
| GoMap (n : bytes) (k v : res bytes)                      (* type n map[k]v *)
| GoStruct (n : bytes) (fields : list (bytes * res bytes)) (* type n struct *)
| GoFunc (n : bytes)                                       (* func n *)
| GoMethod (recv n : bytes).                               (* func (x recv) n *)

(** enums.templ 8-19 *)
Definition go_enum (e : enumd) : list godecl :=
  GoEnum (camel (e_full e)) ::
  map (fun iv => GoConst (camel (v_full (snd iv))) (camel (e_full e)) (fst iv)) (numbered 0 (e_values e)).
(** structs.templ 8-22, encodeMap.templ 2, decodeMap.templ 2 *)
Definition go_mapfield (f : fieldd) : list godecl :=
  match f_typ f with
  | TMap k v =>
      let n := camel (f_full f) ++ text "Map" in
      [GoMap n (FindValue (map_key f k)) (FindValue (map_value f v)); GoFunc (text "New" ++ n);
       GoMethod n (text "Encode"); GoMethod n (text "decode")]
  | _ => []
  end.
(** structs.templ 8-37, getFunc, error, encode.templ 2, decode.templ 2 and 11 *)
Definition go_struct_decls (m : msgd) : list godecl :=
  let n := camel (m_full m) in
  flat_map go_mapfield (m_fields m) ++
  [GoStruct n (map (fun f => (camel (f_name f), FindValue f)) (m_fields m));
   GoFunc (text "New" ++ n); GoMethod n (text "Error"); GoMethod n (text "Encode"); GoMethod n (text "Decode"); GoMethod n (text "decode")].
(** base.templ, errors.templ: version 1 declares NilDecode, version 2 ErrDecodeNil *)
Definition go_file (v2 : bool) (f : filed) : list godecl :=
  GoVar (if v2 then text "ErrDecodeNil" else text "NilDecode") :: body go_enum go_struct_decls f.

(** ---- Rust ---- *)
(** findValue, generator/rust/structs.go 109-145 *)
Fixpoint rs_findValue (many : bool) (t : ftyp) : res bytes :=
  match t with
  | TScalar k =>
      match rs_typeLUT k with
      | Some kind => Ok (if many then text "Vec<" ++ text kind ++ text ">" else text kind)
      | None => Panic
      end
  | TMap k v =>
      let! k := rs_findValue false k in let! v := rs_findValue false v in
      Ok (text "HashMap<" ++ k ++ text ", " ++ v ++ text ">")
  | TEnum full | TMsg full =>
      let! n := CamelCase full in Ok (if many then text "Vec<" ++ n ++ text ">" else n)
  end.
Inductive rsdecl :=
| RsTrait (n : bytes)
| RsEnum (n : bytes) (variants : list (bytes * Z))
| RsStruct (n : bytes) (fields : list (bytes * res bytes)).
(** enums.templ 8-18 *)
Definition rs_enum (e : enumd) : list rsdecl :=
  [RsEnum (camel (e_full e)) (map (fun iv => (v_name (snd iv), fst iv)) (numbered 0 (e_values e)))].
(** structs.templ 8-22 *)
Definition rs_struct_decls (m : msgd) : list rsdecl :=
  [RsStruct (camel (m_full m)) (map (fun f => (SnakeCase (f_name f), rs_findValue (f_many f) (f_typ f))) (m_fields m))].
(** base.templ; messages.templ 2-8: the two traits *)
Definition rs_file (f : filed) : list rsdecl :=
  flat_map rs_enum (d_enums f) ++ [RsTrait (text "Encode"); RsTrait (text "Decode")] ++
  messages rs_enum rs_struct_decls (d_msgs f).
