(** The look-up tables of the three code generators, transcribed entry by entry from
    /repo/generator/{golang,rust,typescript}/structs.go (the copies under /repo/v2/generator are
    identical), and the library names those tables refer to. *)
From Coq Require Import String.
From Verif Require Import Base Spec.
Local Open Scope string_scope.

(** google.golang.org/protobuf/reflect/protoreflect.Kind. *)
Inductive pkind :=
| KBool | KEnum | KInt32 | KSint32 | KUint32 | KInt64 | KSint64 | KUint64
| KSfixed32 | KFixed32 | KFloat | KSfixed64 | KFixed64 | KDouble
| KString | KBytes | KMessage | KGroup.

(** generator/golang/structs.go 33-49 (and v2/generator/golang/structs.go 33-49); [None]: not in the map. *)
Definition go_typeLUT (k : pkind) : option string :=
  match k with
  | KBool => Some "bool"
  | KInt32 => Some "int32"
  | KSint32 => Some "int32"
  | KUint32 => Some "uint32"
  | KInt64 => Some "int64"
  | KSint64 => Some "int64"
  | KUint64 => Some "uint64"
  | KSfixed32 => Some "int32"
  | KSfixed64 => Some "int64"
  | KFixed32 => Some "uint32"
  | KFixed64 => Some "uint64"
  | KFloat => Some "float32"
  | KDouble => Some "float64"
  | KString => Some "string"
  | KBytes => Some "[]byte"
  | KEnum | KMessage | KGroup => None
  end.

(** generator/golang/structs.go 51-68 (and v2/generator/golang/structs.go 51-68); [None]: not in the map. *)
Definition go_encodeLUT (k : pkind) : option string :=
  match k with
  | KBool => Some ".Bool"
  | KInt32 => Some ".Int32"
  | KSint32 => Some ".Int32"
  | KUint32 => Some ".Uint32"
  | KInt64 => Some ".Int64"
  | KSint64 => Some ".Int64"
  | KUint64 => Some ".Uint64"
  | KSfixed32 => Some ".Int32"
  | KSfixed64 => Some ".Int64"
  | KFixed32 => Some ".Uint32"
  | KFixed64 => Some ".Uint64"
  | KString => Some ".String"
  | KFloat => Some ".Float32"
  | KDouble => Some ".Float64"
  | KBytes => Some ".Bytes"
  | KEnum => Some ".Uint32"
  | KMessage | KGroup => None
  end.

(** generator/golang/structs.go 70-87 (and v2/generator/golang/structs.go 70-87); [None]: not in the map. *)
Definition go_decodeLUT (k : pkind) : option string :=
  match k with
  | KBool => Some ".Bool"
  | KInt32 => Some ".Int32"
  | KSint32 => Some ".Int32"
  | KUint32 => Some ".Uint32"
  | KInt64 => Some ".Int64"
  | KSint64 => Some ".Int64"
  | KUint64 => Some ".Uint64"
  | KSfixed32 => Some ".Int32"
  | KSfixed64 => Some ".Int64"
  | KFixed32 => Some ".Uint32"
  | KFixed64 => Some ".Uint64"
  | KString => Some ".String"
  | KFloat => Some ".Float32"
  | KDouble => Some ".Float64"
  | KBytes => Some ".Bytes"
  | KEnum => Some ".Uint32"
  | KMessage | KGroup => None
  end.

(** generator/golang/structs.go 89-106 (and v2/generator/golang/structs.go 89-106); [None]: not in the map. *)
Definition go_kindLUT (k : pkind) : option string :=
  match k with
  | KBool => Some "polyglot.BoolKind"
  | KInt32 => Some "polyglot.Int32Kind"
  | KSint32 => Some "polyglot.Int32Kind"
  | KUint32 => Some "polyglot.Uint32Kind"
  | KInt64 => Some "polyglot.Int64Kind"
  | KSint64 => Some "polyglot.Int64Kind"
  | KUint64 => Some "polyglot.Uint64Kind"
  | KSfixed32 => Some "polyglot.Int32Kind"
  | KSfixed64 => Some "polyglot.Int64Kind"
  | KFixed32 => Some "polyglot.Uint32Kind"
  | KFixed64 => Some "polyglot.Uint64Kind"
  | KString => Some "polyglot.StringKind"
  | KFloat => Some "polyglot.Float32Kind"
  | KDouble => Some "polyglot.Float64Kind"
  | KBytes => Some "polyglot.BytesKind"
  | KEnum => Some "polyglot.Uint32Kind"
  | KMessage | KGroup => None
  end.

(** generator/rust/structs.go 34-50 (and v2/generator/rust/structs.go 34-50); [None]: not in the map. *)
Definition rs_typeLUT (k : pkind) : option string :=
  match k with
  | KBool => Some "bool"
  | KInt32 => Some "i32"
  | KSint32 => Some "i32"
  | KUint32 => Some "u32"
  | KInt64 => Some "i64"
  | KSint64 => Some "i64"
  | KUint64 => Some "u64"
  | KSfixed32 => Some "i32"
  | KSfixed64 => Some "i64"
  | KFixed32 => Some "u32"
  | KFixed64 => Some "u64"
  | KFloat => Some "f32"
  | KDouble => Some "f64"
  | KString => Some "String"
  | KBytes => Some "Vec<u8>"
  | KEnum | KMessage | KGroup => None
  end.

(** generator/rust/structs.go 52-69 (and v2/generator/rust/structs.go 52-69); [None]: not in the map. *)
Definition rs_encodeLUT (k : pkind) : option string :=
  match k with
  | KBool => Some ".encode_bool"
  | KInt32 => Some ".encode_i32"
  | KSint32 => Some ".encode_i32"
  | KUint32 => Some ".encode_u32"
  | KInt64 => Some ".encode_i64"
  | KSint64 => Some ".encode_i64"
  | KUint64 => Some ".encode_u64"
  | KSfixed32 => Some ".encode_i32"
  | KSfixed64 => Some ".encode_i64"
  | KFixed32 => Some ".encode_u32"
  | KFixed64 => Some ".encode_u64"
  | KString => Some ".encode_string"
  | KFloat => Some ".encode_f32"
  | KDouble => Some ".encode_f64"
  | KBytes => Some ".encode_bytes"
  | KEnum => Some ".encode_u32"
  | KMessage | KGroup => None
  end.

(** generator/rust/structs.go 71-88 (and v2/generator/rust/structs.go 71-88); [None]: not in the map. *)
Definition rs_decodeLUT (k : pkind) : option string :=
  match k with
  | KBool => Some ".decode_bool"
  | KInt32 => Some ".decode_i32"
  | KSint32 => Some ".decode_i32"
  | KUint32 => Some ".decode_u32"
  | KInt64 => Some ".decode_i64"
  | KSint64 => Some ".decode_i64"
  | KUint64 => Some ".decode_u64"
  | KSfixed32 => Some ".decode_i32"
  | KSfixed64 => Some ".decode_i64"
  | KFixed32 => Some ".decode_u32"
  | KFixed64 => Some ".decode_u64"
  | KString => Some ".decode_string"
  | KFloat => Some ".decode_f32"
  | KDouble => Some ".decode_f64"
  | KBytes => Some ".decode_bytes"
  | KEnum => Some ".decode_u32"
  | KMessage | KGroup => None
  end.

(** generator/rust/structs.go 90-107 (and v2/generator/rust/structs.go 90-107); [None]: not in the map. *)
Definition rs_kindLUT (k : pkind) : option string :=
  match k with
  | KBool => Some "Kind::Bool"
  | KInt32 => Some "Kind::I32"
  | KSint32 => Some "Kind::I32"
  | KUint32 => Some "Kind::U32"
  | KInt64 => Some "Kind::I64"
  | KSint64 => Some "Kind::I64"
  | KUint64 => Some "Kind::U64"
  | KSfixed32 => Some "Kind::I32"
  | KSfixed64 => Some "Kind::I64"
  | KFixed32 => Some "Kind::U32"
  | KFixed64 => Some "Kind::U64"
  | KString => Some "Kind::String"
  | KFloat => Some "Kind::F32"
  | KDouble => Some "Kind::F64"
  | KBytes => Some "Kind::Bytes"
  | KEnum => Some "Kind::U32"
  | KMessage | KGroup => None
  end.

(** generator/typescript/structs.go 34-50 (and v2/generator/typescript/structs.go 34-50); [None]: not in the map. *)
Definition ts_typeLUT (k : pkind) : option string :=
  match k with
  | KBool => Some "boolean"
  | KInt32 => Some "number"
  | KSint32 => Some "number"
  | KUint32 => Some "number"
  | KInt64 => Some "number"
  | KSint64 => Some "number"
  | KUint64 => Some "number"
  | KSfixed32 => Some "number"
  | KSfixed64 => Some "number"
  | KFixed32 => Some "number"
  | KFixed64 => Some "number"
  | KFloat => Some "number"
  | KDouble => Some "number"
  | KString => Some "string"
  | KBytes => Some "Uint8Array"
  | KEnum | KMessage | KGroup => None
  end.

(** generator/typescript/structs.go 52-69 (and v2/generator/typescript/structs.go 52-69); [None]: not in the map. *)
Definition ts_encodeLUT (k : pkind) : option string :=
  match k with
  | KBool => Some "encodeBoolean"
  | KInt32 => Some "encodeInt32"
  | KSint32 => Some "encodeInt32"
  | KUint32 => Some "encodeUint32"
  | KInt64 => Some "encodeInt64"
  | KSint64 => Some "encodeInt64"
  | KUint64 => Some "encodeUint64"
  | KSfixed32 => Some "encodeInt32"
  | KSfixed64 => Some "encodeInt64"
  | KFixed32 => Some "encodeUint32"
  | KFixed64 => Some "encodeUint64"
  | KString => Some "encodeString"
  | KFloat => Some "encodeFloat32"
  | KDouble => Some "encodeFloat64"
  | KBytes => Some "encodeBytes"
  | KEnum => Some "encodeUint32"
  | KMessage | KGroup => None
  end.

(** generator/typescript/structs.go 71-88 (and v2/generator/typescript/structs.go 71-88); [None]: not in the map. *)
Definition ts_decodeLUT (k : pkind) : option string :=
  match k with
  | KBool => Some "decodeBoolean"
  | KInt32 => Some "decodeInt32"
  | KSint32 => Some "decodeInt32"
  | KUint32 => Some "decodeUint32"
  | KInt64 => Some "decodeInt64"
  | KSint64 => Some "decodeInt64"
  | KUint64 => Some "decodeUint64"
  | KSfixed32 => Some "decodeInt32"
  | KSfixed64 => Some "decodeInt64"
  | KFixed32 => Some "decodeUint32"
  | KFixed64 => Some "decodeUint64"
  | KString => Some "decodeString"
  | KFloat => Some "decodeFloat32"
  | KDouble => Some "decodeFloat64"
  | KBytes => Some "decodeBytes"
  | KEnum => Some "decodeUint32"
  | KMessage | KGroup => None
  end.

(** generator/typescript/structs.go 90-107 (and v2/generator/typescript/structs.go 90-107); [None]: not in the map. *)
Definition ts_kindLUT (k : pkind) : option string :=
  match k with
  | KBool => Some "Kind.Bool"
  | KInt32 => Some "Kind.Int32"
  | KSint32 => Some "Kind.Int32"
  | KUint32 => Some "Kind.U32"
  | KInt64 => Some "Kind.I64"
  | KSint64 => Some "Kind.I64"
  | KUint64 => Some "Kind.U64"
  | KSfixed32 => Some "Kind.Int32"
  | KSfixed64 => Some "Kind.I64"
  | KFixed32 => Some "Kind.U32"
  | KFixed64 => Some "Kind.U64"
  | KString => Some "Kind.String"
  | KFloat => Some "Kind.F32"
  | KDouble => Some "Kind.F64"
  | KBytes => Some "Kind.Bytes"
  | KEnum => Some "Kind.U32"
  | KMessage | KGroup => None
  end.
(** GetKind, generator/golang/structs.go 228-240 (v2: same lines): the kind name written in a
    slice or map header; [None]: panic(errUnknownKind).
    getKind, generator/rust/structs.go; getKind, generator/typescript/structs.go.
    PolyglotAnyKind: generator/golang/defaults.go, rust/defaults.go, typescript/defaults.go. *)
Definition get_kind (lut : pkind -> option string) (any : string) (k : pkind) : option string :=
  match lut k with
  | Some n => Some n
  | None => match k with KMessage => Some any | _ => None end
  end.
Definition go_GetKind := get_kind go_kindLUT "polyglot.AnyKind".
Definition rs_getKind := get_kind rs_kindLUT "Kind::Any".
Definition ts_getKind := get_kind ts_kindLUT "Kind.Any".

(** ---- The names the libraries provide.  A type is named by the [request] that decodes it. ---- *)

(** Methods of the Go encoder: encoder.go 25-100, v2/encoder.go 25-100, with argument type.
    (Nil, Map, Slice and Error are not listed: no table refers to them.) *)
Definition go_encoder_methods : list (string * request) :=
  [(".Bytes", RBytes); (".String", RString); (".Bool", RBool); (".Uint8", RU8);
   (".Uint16", RU16); (".Uint32", RU32); (".Uint64", RU64); (".Int32", RI32);
   (".Int64", RI64); (".Float32", RF32); (".Float64", RF64)].
(** Methods of the Go decoder: decoder.go 53-123, v2/decoder.go 26-96, with result type and
    whether the method takes a destination slice as argument. *)
Definition go_decoder_methods : list (string * (request * bool)) :=
  [(".Bytes", (RBytes, true)); (".String", (RString, false)); (".Bool", (RBool, false));
   (".Uint8", (RU8, false)); (".Uint16", (RU16, false)); (".Uint32", (RU32, false));
   (".Uint64", (RU64, false)); (".Int32", (RI32, false)); (".Int64", (RI64, false));
   (".Float32", (RF32, false)); (".Float64", (RF64, false))].
(** Kind constants: encode.go 27-44 and 46-62, v2/encode.go 24-60. *)
Definition go_kinds : list (string * Z) :=
  [("polyglot.NilKind", 0); ("polyglot.SliceKind", 1); ("polyglot.MapKind", 2);
   ("polyglot.AnyKind", 3); ("polyglot.BytesKind", 4); ("polyglot.StringKind", 5);
   ("polyglot.ErrorKind", 6); ("polyglot.BoolKind", 7); ("polyglot.Uint8Kind", 8);
   ("polyglot.Uint16Kind", 9); ("polyglot.Uint32Kind", 10); ("polyglot.Uint64Kind", 11);
   ("polyglot.Int32Kind", 12); ("polyglot.Int64Kind", 13); ("polyglot.Float32Kind", 14);
   ("polyglot.Float64Kind", 15)].
(** Go's predeclared types. *)
Definition go_types : list (string * request) :=
  [("[]byte", RBytes); ("string", RString); ("bool", RBool); ("uint8", RU8); ("uint16", RU16);
   ("uint32", RU32); ("uint64", RU64); ("int32", RI32); ("int64", RI64); ("float32", RF32);
   ("float64", RF64)].

(** The Rust Encoder and Decoder traits: encoder.rs 45-94, decoder.rs 58-74. *)
Definition rs_encoder_methods : list (string * request) :=
  [(".encode_bytes", RBytes); (".encode_string", RString); (".encode_str", RString);
   (".encode_bool", RBool); (".encode_u8", RU8); (".encode_u16", RU16); (".encode_u32", RU32);
   (".encode_u64", RU64); (".encode_i32", RI32); (".encode_i64", RI64); (".encode_f32", RF32);
   (".encode_f64", RF64)].
Definition rs_decoder_methods : list (string * request) :=
  [(".decode_bytes", RBytes); (".decode_string", RString); (".decode_bool", RBool);
   (".decode_u8", RU8); (".decode_u16", RU16); (".decode_u32", RU32); (".decode_u64", RU64);
   (".decode_i32", RI32); (".decode_i64", RI64); (".decode_f32", RF32); (".decode_f64", RF64)].
(** enum Kind, kind.rs 17-36. *)
Definition rs_kinds : list (string * Z) :=
  [("Kind::None", 0); ("Kind::Array", 1); ("Kind::Map", 2); ("Kind::Any", 3);
   ("Kind::Bytes", 4); ("Kind::String", 5); ("Kind::Error", 6); ("Kind::Bool", 7);
   ("Kind::U8", 8); ("Kind::U16", 9); ("Kind::U32", 10); ("Kind::U64", 11); ("Kind::I32", 12);
   ("Kind::I64", 13); ("Kind::F32", 14); ("Kind::F64", 15)].
Definition rs_types : list (string * request) :=
  [("Vec<u8>", RBytes); ("String", RString); ("bool", RBool); ("u8", RU8); ("u16", RU16);
   ("u32", RU32); ("u64", RU64); ("i32", RI32); ("i64", RI64); ("f32", RF32); ("f64", RF64)].

(** What "import { ... } from \"polyglot\"" can import: index.ts 17-19 re-exports encoder.ts,
    decoder.ts and kind.ts; this is the list of their exported names (decoder.ts 27-140,
    encoder.ts 20-30, kind.ts 17). *)
Definition ts_exports : list string :=
  ["InvalidBooleanError"; "InvalidUint8Error"; "InvalidUint16Error"; "InvalidUint32Error";
   "InvalidUint64Error"; "InvalidInt32Error"; "InvalidInt64Error"; "InvalidFloat32Error";
   "InvalidFloat64Error"; "InvalidArrayError"; "InvalidMapError"; "InvalidUint8ArrayError";
   "InvalidStringError"; "InvalidErrorError"; "Decoder";
   "BOOLEAN_FALSE"; "BOOLEAN_TRUE"; "Encoder"; "Kind"].
(** enum Kind, kind.ts 17-34. *)
Definition ts_kinds : list (string * Z) :=
  [("Kind.Null", 0); ("Kind.Array", 1); ("Kind.Map", 2); ("Kind.Any", 3);
   ("Kind.Uint8Array", 4); ("Kind.String", 5); ("Kind.Error", 6); ("Kind.Boolean", 7);
   ("Kind.Uint8", 8); ("Kind.Uint16", 9); ("Kind.Uint32", 10); ("Kind.Uint64", 11);
   ("Kind.Int32", 12); ("Kind.Int64", 13); ("Kind.Float32", 14); ("Kind.Float64", 15)].

(** Look a name up. *)
Fixpoint assoc {A} (n : string) (l : list (string * A)) : option A :=
  match l with
  | [] => None
  | (m, a) :: l => if String.eqb n m then Some a else assoc n l
  end.
