(** Specification for the TypeScript generator (C80, C81): the names a generated file uses, the fields
    the three groups consist of, and which files the generator supports. *)
From Coq Require Import String.
From Verif Require Import Base GenTables EmitModel EmitSpec TsGenModel.
Local Open Scope string_scope.

(** ---- Names a statement takes from the library ---- *)
(** "Kind.Int32" and the like: the identifier before the dot *)
Definition from_kind (kind : string) : list string := if String.eqb kind "" then [] else ["Kind"].
Definition item_names (i : item) : list string :=
  match i with IMessage => [] | IEnum fn | IValue fn => [fn] end.
Definition option_names (o : option string) : list string := match o with Some n => [n] | None => [] end.
Definition option_kind (o : option string) : list string := match o with Some n => from_kind n | None => [] end.
Definition enames (s : estmt) : list string :=
  match s with
  | EValue fn _ _ => [fn]
  | ESliceMsg fn kind _ => fn :: from_kind kind
  | ESlice fn _ kind elem => fn :: option_kind kind ++ option_names elem
  | EMap fn _ kk kv k v => fn :: from_kind kk ++ from_kind kv ++ item_names k ++ item_names v
  | EMsg _ => []
  end.
Definition dnames (s : dstmt) : list string :=
  match s with
  | DSlice fn _ elem => fn :: item_names elem
  | DMap fn _ k v => fn :: item_names k ++ item_names v
  | DMsg _ => []
  | DValue fn _ _ => [fn]
  end.
Definition decl_names (d : tsdecl) : list string :=
  match d with
  | TsEnum _ _ => []
  | TsClass _ _ e d _ => flat_map enames e ++ flat_map dnames d
  end.
(** all library names used in a generated file *)
Definition used (f : tsfile) : list string := flat_map decl_names (declared f).
Definition same_set {A} (a b : list A) : Prop := forall x, In x a <-> In x b.

(** ---- Fields ---- *)
(** the three groups: scalars and enums; repeated fields; messages and maps *)
Definition is_repeated (f : fieldd) : bool := f_many f && negb (is_map f).
Definition is_single_message (f : fieldd) : bool :=
  negb (is_repeated f) && match f_typ f with TMsg _ | TMap _ _ => true | _ => false end.
Definition is_single_value (f : fieldd) : bool :=
  negb (is_repeated f) && match f_typ f with TMsg _ | TMap _ _ => false | _ => true end.
Definition efield (s : estmt) : fieldd :=
  match s with EValue _ f _ | ESliceMsg _ _ f | ESlice _ f _ _ | EMap _ f _ _ _ _ | EMsg f => f end.
Definition dfield (s : dstmt) : fieldd :=
  match s with DSlice _ f _ | DMap _ f _ _ | DMsg f | DValue _ f _ => f end.

(** ---- Supported files ---- *)
(** scalar kinds are those of scalars; groups (proto2) are the one kind the generator rejects *)
Fixpoint type_ok (t : ftyp) : Prop :=
  match t with
  | TScalar k => k <> KGroup
  | TEnum _ | TMsg _ => True
  | TMap k v => type_ok k /\ type_ok v
  end.
(** what a descriptor can contain: TScalar stands for neither enums nor messages; keys and values of
    maps are no maps *)
Fixpoint type_wf (t : ftyp) : Prop :=
  match t with
  | TScalar k => k <> KEnum /\ k <> KMessage
  | TEnum _ | TMsg _ => True
  | TMap k v => type_wf k /\ type_wf v /\ (forall a b, k <> TMap a b) /\ (forall a b, v <> TMap a b)
  end.
(** a field of some message of the file, at any depth *)
Definition field_of (f : filed) (x : fieldd) : Prop := exists m, has_message f m /\ In x (m_fields m).
Definition file_wf (f : filed) : Prop := forall x, field_of f x -> type_wf (f_typ x).
(** a field that is a single message *)
Definition only_message (x : fieldd) : Prop := f_many x = false /\ exists n, f_typ x = TMsg n.
(** the place of a field's group in the wire order of Go and Rust (C58) *)
Definition rank (x : fieldd) : nat := if is_single_value x then 0 else if is_repeated x then 1 else 2.
(** no field is declared before one of an earlier group *)
Definition in_groups (fs : list fieldd) : Prop :=
  forall i j x y, (i < j)%nat -> nth_error fs i = Some x -> nth_error fs j = Some y -> (rank x <= rank y)%nat.

(** ---- The statement for a field ---- *)
(** the ending of the library functions for a scalar kind, after what the wire format has for it (C46) *)
Definition ending (t : ftyp) : string :=
  match t with
  | TScalar KBool => "Boolean" | TScalar KString => "String" | TScalar KBytes => "Bytes"
  | TScalar KInt32 | TScalar KSint32 | TScalar KSfixed32 => "Int32"
  | TScalar KInt64 | TScalar KSint64 | TScalar KSfixed64 => "Int64"
  | TScalar KUint32 | TScalar KFixed32 | TEnum _ => "Uint32"
  | TScalar KUint64 | TScalar KFixed64 => "Uint64"
  | TScalar KFloat => "Float32" | TScalar KDouble => "Float64"
  | _ => ""
  end.
(** the name the generator has for the kind (several of them are not members of Kind, see C59) *)
Definition kind_ending (t : ftyp) : string :=
  match t with
  | TScalar KBool => "Bool" | TScalar KString => "String" | TScalar KBytes => "Bytes"
  | TScalar KInt32 | TScalar KSint32 | TScalar KSfixed32 => "Int32"
  | TScalar KInt64 | TScalar KSint64 | TScalar KSfixed64 => "I64"
  | TScalar KUint32 | TScalar KFixed32 | TEnum _ => "U32"
  | TScalar KUint64 | TScalar KFixed64 => "U64"
  | TScalar KFloat => "F32" | TScalar KDouble => "F64"
  | _ => "Any"
  end.
Definition enum_typed (t : ftyp) : bool := match t with TEnum _ => true | _ => false end.
Definition item_with (prefix : string) (t : ftyp) : item :=
  match t with
  | TMsg _ => IMessage
  | TEnum _ => IEnum (prefix ++ ending t)
  | _ => IValue (prefix ++ ending t)
  end.
Definition write_of (f : fieldd) : estmt :=
  match f_typ f with
  | TMap k v => EMap "encodeMap" f ("Kind." ++ kind_ending k) ("Kind." ++ kind_ending v) (item_with "encode" k) (item_with "encode" v)
  | TMsg _ => if f_many f then ESliceMsg "encodeArray" "Kind.Any" f else EMsg f
  | t => if f_many f then ESlice "encodeArray" f (Some ("Kind." ++ kind_ending t)) (Some ("encode" ++ ending t))
         else EValue ("encode" ++ ending t) f (enum_typed t)
  end.
Definition read_of (f : fieldd) : dstmt :=
  match f_typ f with
  | TMap k v => DMap "decodeMap" f (item_with "decode" k) (item_with "decode" v)
  | TMsg n => if f_many f then DSlice "decodeArray" f IMessage else DMsg f
  | t => if f_many f then DSlice "decodeArray" f (item_with "decode" t) else DValue ("decode" ++ ending t) f (enum_typed t)
  end.
(** the TypeScript type of a field *)
Definition js_type (t : ftyp) : bytes :=
  match t with
  | TScalar KBool => text "boolean" | TScalar KString => text "string" | TScalar KBytes => text "Uint8Array"
  | TScalar _ => text "number"
  | TEnum n | TMsg n => camel n
  | TMap _ _ => []
  end.
Definition field_type (f : fieldd) : bytes :=
  match f_typ f with
  | TMap k v => text "Map<" ++ js_type k ++ text ", " ++ js_type v ++ text ">"
  | t => js_type t ++ (if f_many f then text "[]" else [])
  end%list.
