(** How a Rust value stands for a tree (RsGenModel), and which files the generated programs make sense for. *)
From Coq Require Import String.
From Verif Require Import Base Spec RustModel GenTables NameModel NameSpec EmitModel EmitSpec GoAst GoEmit GoRunSpec RsGenModel RsAst RsEmit.
From Verif Require GenModel.
Import GenModel (gval, GPrim, GList, GMap, GMsg).
Local Open Scope list_scope.

(** ---- The messages of a file, numbered; its fields as RsGenModel has them ---- *)
(** the enums that are declared: at top level, and directly in a top-level message *)
Definition enums_of (f : filed) : list enumd := d_enums f ++ flat_map m_enums (d_msgs f).
Fixpoint enum_size (s : bytes) (es : list enumd) : Z :=
  match es with [] => 0 | e :: es => if same s (e_full e) then zlen (e_values e) else enum_size s es end.
Definition rtype_of (f : filed) (t : ftyp) : rtype :=
  match t with
  | TScalar k => RScalar k
  | TEnum s => REnum (enum_size s (enums_of f))
  | TMsg s => RMsg (position s (messages_of f))
  | TMap _ _ => RScalar KGroup
  end.
Definition rfield_of (f : filed) (fd : fieldd) : rfield :=
  match f_typ fd with
  | TMap k v => RMapOf (kind_of k) (rtype_of f v)
  | t => if f_many fd then RMany (rtype_of f t) else ROne (rtype_of f t)
  end.
Definition rschema_of (f : filed) : rschema := map (fun m => map (rfield_of f) (m_fields m)) (messages_of f).

(** ---- Values ---- *)
Section Values.
Variable ms : list msgd.
(** the Rust value of a field that is the tree [x] *)
Fixpoint rs_value (fd : fieldd) (x : gval) {struct x} : rv :=
  match x with
  | GPrim v => match f_typ fd, v with TEnum s, VU32 n => RvEnum (camel s) n | _, _ => RvPrim v end
  | GList xs => RvVec (map (rs_value (element fd)) xs)
  | GMap (Some l) =>
      match f_typ fd with
      | TMap _ t => RvHash (map (fun e => match e with (k, y) => (k, rs_value (map_value fd t) y) end) l)
      | _ => RvNone
      end
  | GMsg (Some xs) =>
      match f_typ fd with
      | TMsg s =>
          match nth_error ms (position s ms) with
          | Some m => RvStruct (camel s) ((fix each (fs : list fieldd) (xs : list gval) {struct xs} :=
                                             match fs, xs with fd :: fs, x :: xs => (rsname fd, rs_value fd x) :: each fs xs | _, _ => [] end) (m_fields m) xs)
          | None => RvNone
          end
      | _ => RvNone
      end
  | GMap None | GMsg None => RvNone                        (* Rust has no such values *)
  end.
(** the fields of a struct *)
Fixpoint rs_fields (fs : list fieldd) (xs : list gval) : list (bytes * rv) :=
  match fs, xs with fd :: fs, x :: xs => (rsname fd, rs_value fd x) :: rs_fields fs xs | _, _ => [] end.
End Values.
(** the struct of message [m] *)
Definition rs_struct_value (f : filed) (m : msgd) (xs : list gval) : rv := RvStruct (camel (m_full m)) (rs_fields (messages_of f) (m_fields m) xs).

(** what an encode function returns: the calls of the Encoder, then Ok(b) *)
Definition rs_encoded (r : res cursor) : ores rv := match r with Ok c => OGo (RvOk RvCur) c | Panic => ODie end.

(** what a decode function returns *)
Definition decoded (f : filed) (m : msgd) (r : rgres (option (list gval))) : ores rv :=
  match r with
  | RGOk (Some xs) c => OGo (RvOk (RvSome (rs_struct_value f m xs))) c
  | RGOk None c => OGo (RvOk RvNone) c
  | RGErr e c => OGo (RvErr (RvError e)) c
  | RGDie => ODie | RGDeep => ODeep | RGBroken => OStuck
  end.
(** the Rust type of an element of a vector *)
Definition elem_type (f : filed) (t : rtype) : rty :=
  match t with
  | RScalar k => lut_type (entry (rs_typeLUT k))
  | REnum _ => TyName []
  | RMsg i => match nth_error (messages_of f) i with Some m => TyName (camel (m_full m)) | None => TyName [] end
  end.

(** ---- Which files ---- *)
Definition prelude : list bytes := map text
  ["Vec"; "HashMap"; "String"; "Option"; "Result"; "Box"; "Cursor"; "DecodingError"; "Encoder"; "Decoder"; "Kind"; "Encode"; "Decode"; "TryFrom"; "TryFromPrimitive"]%string.
Record rs_names_apart (f : filed) : Prop := {
  ra_once : NoDup (flat_map rs_type (rs_file f));
  ra_prelude : forall n, In n (flat_map rs_type (rs_file f)) -> ~ In n prelude;
  ra_fields : forall m, has_message f m -> NoDup (map rsname (m_fields m));
  ra_known : forall m fd, has_message f m -> In fd (m_fields m) -> field_known f fd
}.
