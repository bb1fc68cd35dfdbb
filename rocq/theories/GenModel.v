(** Model of the Go code the generators emit: the text/template files under
    /repo/generator/golang/templates (version 1) and /repo/v2/generator/golang/templates
    (version 2), instantiated for an arbitrary list of message descriptors.

    Simplifications, once for the whole file:
    - a struct is a tree: no two pointers are shared, and a nil slice is the same as an empty one
      (the generated code only ever looks at len);
    - a Go map is a list of entries without duplicate keys, in the order in which "range" visits
      it (Go leaves the order open, so theorems quantify over the list);
    - an enum value is its uint32 number; Go names, CustomFields/CustomEncode/CustomDecode
      (empty by default, generator.go 74-76) and oneof wrappers (fields of a oneof are plain
      fields to the generator) do not occur;
    - after an error the half-filled struct is not represented, only the error. *)
From Coq Require Import String.
From Verif Require Import Base Spec GenTables.
From Verif Require V1Model V2Model.

(** ---- Descriptors (protoreflect.MessageDescriptor / FieldDescriptor) ---- *)
Inductive ftype := Scalar (k : pkind) | Msg (m : nat).       (* field.Kind(), field.Message() *)
Inductive field := One (t : ftype) | Many (t : ftype) | MapOf (k : pkind) (t : ftype).
Definition schema := list (list field).                      (* message number -> its fields *)

Definition tkind (t : ftype) : pkind := match t with Scalar k => k | Msg _ => KMessage end.
(* field.Kind(): a map field has MessageKind *)
Definition fkind (f : field) : pkind :=
  match f with One t | Many t => tkind t | MapOf _ _ => KMessage end.
(* field.Cardinality() == protoreflect.Repeated: also true of map fields *)
Definition Repeated (f : field) : bool := match f with One _ => false | _ => true end.
Definition IsMap (f : field) : bool := match f with MapOf _ _ => true | _ => false end.

(** ---- Generated struct values ---- *)
Inductive gval :=
| GPrim (v : value)                                 (* bool, numbers, string, []byte, enums *)
| GList (xs : list gval)                            (* []T *)
| GMap (x : option (list (value * gval)))           (* map[K]V, None = nil *)
| GMsg (x : option (list gval)).                    (* *Message, None = nil; fields in order *)

(** GetEncodingFields and GetDecodingFields, generator/golang/structs.go 154-226 (v2: same lines):
    field numbers of (values/other, slices, messages and maps); [None] = panic(errUnknownKind). *)
Fixpoint getFields (lut : pkind -> option string) (fs : list field) (i : nat)
  : option (list nat * list nat * list nat) :=
  match fs with
  | [] => Some ([], [], [])
  | f :: fs =>
      match getFields lut fs (S i) with
      | None => None
      | Some (values, slices, messages) =>
          if Repeated f && negb (IsMap f) then Some (values, i :: slices, messages)
          else match lut (fkind f) with
               | Some _ => Some (i :: values, slices, messages)
               | None => match fkind f with
                         | KMessage => Some (values, slices, i :: messages)
                         | _ => None
                         end
               end
      end
  end.

Definition request_eq_dec (a b : request) : {a = b} + {a <> b}.
Proof. decide equality; apply Z.eq_dec. Defined.
Definition value_eq_dec (a b : value) : {a = b} + {a <> b}.
Proof. decide equality; try apply Z.eq_dec; try apply bool_dec; apply (list_eq_dec Z.eq_dec). Defined.

(** A kind constant named by the templates. *)
Definition kind_number (name : option string) : option Z :=
  match name with Some n => assoc n go_kinds | None => None end.

(** ---- Does the generated code compile? ----
    Type of the struct field for a scalar: FindValue, structs.go 109-145. *)
Definition scalar_type (k : pkind) : option request :=
  match go_typeLUT k with
  | Some n => assoc n go_types
  | None => match k with KEnum => Some RU32 | _ => None end
  end.
Definition named_type (k : pkind) : bool := match k with KEnum => true | _ => false end.
(** One encoder call and one decoder call on a value of scalar kind [k], at a place where the
    template converts enums ([conv]) and passes a destination slice for bytes ([arg]). *)
Definition call_compiles (conv arg : bool) (k : pkind) : bool :=
  match scalar_type k, go_encodeLUT k, go_decodeLUT k with
  | Some t, Some en, Some dn =>
      match assoc en go_encoder_methods, assoc dn go_decoder_methods with
      | Some te, Some (td, takes) =>
          (if request_eq_dec t te then true else false) &&
          (if request_eq_dec t td then true else false) &&
          (conv || negb (named_type k)) &&
          Bool.eqb takes (arg && match k with KBytes => true | _ => false end)
      | _, _ => false
      end
  | _, _, _ => false
  end.
(** protobuf itself only allows integral, bool and string map keys. *)
Definition key_kind (k : pkind) : bool :=
  match k with
  | KBool | KInt32 | KSint32 | KUint32 | KInt64 | KSint64 | KUint64 | KSfixed32 | KFixed32
  | KSfixed64 | KFixed64 | KString => true
  | _ => false
  end.
(** singular fields: encode.templ 5-9 with structs.go 166-172 (enum converted), decode.templ 22-37
    (bytes gets an argument, enum converted); repeated: encode.templ 23-38, decode.templ 39-66
    (no conversion, no argument); maps: encodeMap.templ, decodeMap.templ (enum converted, no
    argument). *)
Definition field_compiles (S : schema) (f : field) : bool :=
  let ref m := Nat.ltb m (length S) in
  match f with
  | One (Scalar k) => call_compiles true true k
  | Many (Scalar k) =>
      call_compiles false false k && match kind_number (go_GetKind k) with Some _ => true | _ => false end
  | One (Msg m) | Many (Msg m) => ref m
  | MapOf k t =>
      key_kind k && call_compiles true false k &&
      match t with Scalar k => call_compiles true false k | Msg m => ref m end
  end.
(** decode.templ 18-20 declares "var err error" as soon as there is a field, but a map field
    declares its own err (line 75): with map fields only, err is "declared and not used". *)
Definition message_compiles (S : schema) (fs : list field) : bool :=
  forallb (field_compiles S) fs &&
  match fs with [] => true | _ => negb (forallb IsMap fs) end.
Definition compiles (S : schema) : bool := forallb (message_compiles S) S.

(** ---- Encode ---- *)

(** One encoder call; [None]: there is no such method, or it does not take this type. *)
Definition enc_call (k : pkind) (v : value) : option value :=
  match go_encodeLUT k with
  | Some n => match assoc n go_encoder_methods with
              | Some q => if request_eq_dec q (want v) then Some v else None
              | None => None
              end
  | None => None
  end.

Fixpoint all_some {A} (l : list (option (list A))) : option (list A) :=
  match l with
  | [] => Some []
  | None :: _ => None
  | Some a :: l => match all_some l with Some b => Some (a ++ b) | None => None end
  end.

(** The encoder calls made for one field (or slice element, or map value), in order.
    messages: encode.templ 1-19 and 41-45 (v1: same); slices: 23-39; maps: encodeMap.templ 1-35. *)
Fixpoint calls (S : schema) (x : gval) (f : field) {struct x} : option (list value) :=
  match f, x with
  | One (Scalar k), GPrim v =>
      match enc_call k v with Some v => Some [v] | None => None end
  | One (Msg _), GMsg None => Some [VNil]                               (* 2-3 *)
  | One (Msg m), GMsg (Some xs) =>                                      (* 4-17 *)
      match nth_error S m with
      | None => None
      | Some fs =>
          let pieces := (fix each (xs : list gval) (fs : list field) : list (option (list value)) :=
                           match xs, fs with
                           | x :: xs, f :: fs => calls S x f :: each xs fs
                           | _, _ => []
                           end) xs fs in
          match getFields go_encodeLUT fs 0 with
          | None => None
          | Some (values, slices, messages) =>
              all_some (map (fun i => nth i pieces None) (values ++ slices ++ messages))
          end
      end
  | Many t, GList xs =>
      let k := match t with
               | Msg _ => kind_number (Some "polyglot.AnyKind"%string)  (* 27 *)
               | Scalar k => kind_number (go_kindLUT k)                 (* 32, GetKindLUT *)
               end in
      match k with
      | None => None
      | Some k =>
          all_some (Some [VSlice (u32 (zlen xs)) k] :: map (fun x => calls S x (One t)) xs)
      end
  | MapOf kk t, GMap x =>
      match kind_number (go_GetKind kk), kind_number (go_GetKind (tkind t)) with
      | Some k1, Some k2 =>
          match x with
          | None => Some [VMap 0 k1 k2]
          | Some l =>
              all_some (Some [VMap (u32 (zlen l)) k1 k2] ::
                        map (fun e : value * gval =>
                               let (k, v) := e in
                               match enc_call kk k, calls S v (One t) with
                               | Some k, Some vs => Some (k :: vs)
                               | _, _ => None
                               end) l)
          end
      | _, _ => None
      end
  | _, _ => None
  end.

(** func (x *M) Encode(b *polyglot.Buffer): the calls on the buffer's encoder. *)
Definition Encode1 (g : V1Model.policy) (S : schema) (b : V1Model.buffer) (m : nat)
    (x : option (list gval)) : option (res V1Model.buffer) :=
  option_map (V1Model.encode_all g b) (calls S (GMsg x) (One (Msg m))).
Definition Encode2 (g : V2Model.policy) (S : schema) (b : V2Model.buffer) (m : nat)
    (x : option (list gval)) : option (res V2Model.buffer) :=
  option_map (V2Model.encode_all g b) (calls S (GMsg x) (One (Msg m))).

(** ---- Decode ---- *)

(** Go zero values. *)
Definition zero_prim (q : request) : value :=
  match q with
  | RNil => VNil | RMap a b => VMap 0 a b | RSlice a => VSlice 0 a
  | RBytes => VBytes [] | RString => VString [] | RError => VError [] | RBool => VBool false
  | RU8 => VU8 0 | RU16 => VU16 0 | RU32 => VU32 0 | RU64 => VU64 0
  | RI32 => VI32 0 | RI64 => VI64 0 | RF32 => VF32 0 | RF64 => VF64 0
  end.
Definition zero (f : field) : gval :=
  match f with
  | One (Scalar k) => GPrim (match scalar_type k with Some q => zero_prim q | None => VNil end)
  | One (Msg _) => GMsg None
  | Many _ => GList []
  | MapOf _ _ => GMap None
  end.

(** Result of a generated decode function.  [GDeep]: the call stack was exhausted ([fuel] is the
    number of stack frames available); [GBroken]: code that does not compile. *)
Inductive gres (A : Type) :=
| GDone (rest : bytes) (x : A) | GErr (e : gerr) | GPanic | GDeep | GBroken.
Arguments GDone {A}. Arguments GErr {A}. Arguments GPanic {A}. Arguments GDeep {A}. Arguments GBroken {A}.
Definition gbind {A B} (x : gres A) (k : bytes -> A -> gres B) : gres B :=
  match x with
  | GDone r a => k r a | GErr e => GErr e | GPanic => GPanic | GDeep => GDeep | GBroken => GBroken
  end.

(** func NewM() *M.  v2/generator/golang/templates/structs.templ 39-43: &M{};
    generator/golang/templates/structs.templ 39-50 (v1): sub-messages are created too. *)
Fixpoint New (v2 : bool) (S : schema) (fuel : nat) (m : nat) : gres (list gval) :=
  match nth_error S m with
  | None => GBroken
  | Some fs =>
      if v2 then GDone [] (map zero fs)
      else match fuel with
           | O => GDeep
           | S fuel =>
               (fix each (fs : list field) : gres (list gval) :=
                  match fs with
                  | [] => GDone [] []
                  | f :: fs =>
                      gbind (match f with
                             | One (Msg m) => gbind (New v2 S fuel m) (fun _ x => GDone [] (GMsg (Some x)))
                             | _ => GDone [] (zero f)
                             end)
                            (fun _ x => gbind (each fs) (fun _ xs => GDone [] (x :: xs)))
                  end) fs
           end
  end.

Section Decode.
Variable v2 : bool.                                            (* which template set *)
Variable prim : option bytes -> request -> bytes -> outcome.   (* the library's decoder *)
Variable S : schema.

(** d.Nil(): the continuation for true and for false. *)
Definition if_nil {A} (b : bytes) (yes no : bytes -> gres A) : gres A :=
  match prim None RNil b with
  | Done r _ => yes r
  | Fail r _ => no r
  | Crash => GPanic
  end.
Definition call {A} (dst : option bytes) (q : request) (b : bytes) (k : bytes -> value -> gres A) : gres A :=
  match prim dst q b with
  | Done r v => k r v
  | Fail _ e => GErr e
  | Crash => GPanic
  end.
(** d{{ $decoder }}(...) *)
Definition dec_call (dst : option bytes) (k : pkind) (b : bytes) : gres value :=
  match go_decodeLUT k with
  | Some n => match assoc n go_decoder_methods with
              | Some (q, _) => call dst q b (fun r v => GDone r v)
              | None => GBroken
              end
  | None => GBroken
  end.

(** decode.templ 22-37: singular scalar field; v2 passes the old slice to Bytes (line 25),
    v1 passes nil. *)
Definition dec_other (f : field) (old : gval) (b : bytes) : gres gval :=
  match f with
  | One (Scalar k) =>
      let dst := if v2 then match old with GPrim (VBytes p) => Some p | _ => None end else None in
      gbind (dec_call dst k b) (fun r v => GDone r (GPrim v))
  | _ => GBroken
  end.

Section Rec.
Variable fuel : nat.
Variable rec : nat -> list gval -> bytes -> gres (list gval).  (* M.decode, one frame deeper *)

(** if x == nil { x = NewM() } *)
Definition or_new (m : nat) (x : gval) : gres (list gval) :=
  match x with
  | GMsg (Some s) => GDone [] s
  | GMsg None => New v2 S fuel m
  | _ => GBroken
  end.
(** decode.templ 52-64: the loop over the slice elements. *)
Fixpoint dec_elems (t : ftype) (xs : list gval) (b : bytes) : gres (list gval) :=
  match xs with
  | [] => GDone b []
  | x :: xs =>
      gbind (match t with
             | Msg m => gbind (or_new m x) (fun _ s =>
                        gbind (rec m s b) (fun r s => GDone r (GMsg (Some s))))
             | Scalar k => gbind (dec_call None k b) (fun r v => GDone r (GPrim v))
             end)
            (fun r x => gbind (dec_elems t xs r) (fun r xs => GDone r (x :: xs)))
  end.
(** decode.templ 42-66: one slice field. *)
Definition dec_slice (f : field) (old : gval) (b : bytes) : gres gval :=
  match f, old with
  | Many t, GList xs =>
      match kind_number (go_GetKind (tkind t)) with
      | None => GBroken
      | Some k =>
          call None (RSlice k) b (fun r v =>
            match v with
            | VSlice size _ =>
                let xs := if u32 (zlen xs) =? size then xs
                          else repeat (zero (One t)) (Z.to_nat size) in
                gbind (dec_elems t xs r) (fun r xs => GDone r (GList xs))
            | _ => GBroken
            end)
      end
  | _, _ => GBroken
  end.
(** x[k] = v *)
Fixpoint insert (k : value) (v : gval) (l : list (value * gval)) : list (value * gval) :=
  match l with
  | [] => [(k, v)]
  | (k', v') :: l => if value_eq_dec k k' then (k, v) :: l else (k', v') :: insert k v l
  end.
(** decodeMap.templ 14-49: the loop over the entries. *)
Fixpoint dec_entries (kk : pkind) (t : ftype) (n : nat) (l : list (value * gval)) (b : bytes)
  : gres (list (value * gval)) :=
  match n with
  | O => GDone b l
  | Datatypes.S n =>
      gbind (dec_call None kk b) (fun r k =>
      gbind (match t with
             | Msg m => gbind (New v2 S fuel m) (fun _ s =>
                        gbind (rec m s r) (fun r s => GDone r (GMsg (Some s))))
             | Scalar kt => gbind (dec_call None kt r) (fun r v => GDone r (GPrim v))
             end) (fun r v =>
      dec_entries kk t n (insert k v l) r))
  end.
(** decode.templ 67-91: a map field (70-82) or a message field (84-90; v1: 84-91). *)
Definition dec_message (f : field) (old : gval) (b : bytes) : gres gval :=
  match f with
  | MapOf kk t =>
      if_nil b (fun r => GDone r old) (fun b =>
        match kind_number (go_GetKind kk), kind_number (go_GetKind (tkind t)) with
        | Some k1, Some k2 =>
            call None (RMap k1 k2) b (fun r v =>
              match v with
              | VMap size _ _ =>
                  gbind (dec_entries kk t (Z.to_nat size) [] r) (fun r l => GDone r (GMap (Some l)))
              | _ => GBroken
              end)
        | _, _ => GBroken
        end)
  | One (Msg m) =>
      if v2 then
        if_nil b (fun r => GDone r old) (fun b =>
          gbind (New v2 S fuel m) (fun _ s =>
          gbind (rec m s b) (fun r s => GDone r (GMsg (Some s)))))
      else
        gbind (or_new m old) (fun _ s =>
        gbind (rec m s b) (fun r s => GDone r (GMsg (Some s))))
  | _ => GBroken
  end.
End Rec.

Fixpoint set_nth (i : nat) (x : gval) (l : list gval) : list gval :=
  match l, i with
  | [], _ => []
  | _ :: l, O => x :: l
  | y :: l, Datatypes.S i => y :: set_nth i x l
  end.
(** "range $field := ..." over some of the fields, assigning x.Field. *)
Fixpoint pass (step : field -> gval -> bytes -> gres gval) (fs : list field) (is : list nat)
    (x : list gval) (b : bytes) : gres (list gval) :=
  match is with
  | [] => GDone b x
  | i :: is =>
      match nth_error fs i, nth_error x i with
      | Some f, Some old => gbind (step f old b) (fun r y => pass step fs is (set_nth i y x) r)
      | _, _ => GBroken
      end
  end.

(** func (x *M) decode(d) error: decode.templ 10-94 (v1: 12-95). *)
Fixpoint decode (fuel : nat) (m : nat) (x : list gval) (b : bytes) : gres (list gval) :=
  match fuel with
  | O => GDeep
  | Datatypes.S fuel =>
      if_nil b (fun r => GDone r x) (fun b =>
        match nth_error S m with
        | None => GBroken
        | Some fs =>
            match getFields go_decodeLUT fs 0 with
            | None => GBroken
            | Some (other, slices, messages) =>
                gbind (pass dec_other fs other x b) (fun b x =>
                gbind (pass (dec_slice fuel (decode fuel)) fs slices x b) (fun b x =>
                pass (dec_message fuel (decode fuel)) fs messages x b))
            end
        end)
  end.
End Decode.

(** func (x *M) Decode(b []byte) error: decode.templ 1-8.  Bytes behind the message are ignored.
    [None]: ErrDecodeNil / NilDecode. *)
Definition Decode1 (W : Z) (S : schema) (fuel : nat) (m : nat) (x : option (list gval)) (b : bytes)
  : option (gres (list gval)) :=
  option_map (fun x => decode false (V1Model.decode W) S fuel m x b) x.
Definition Decode2 (W : Z) (S : schema) (fuel : nat) (m : nat) (x : option (list gval)) (b : bytes)
  : option (gres (list gval)) :=
  option_map (fun x => decode true (fun dst => V2Model.decode W (V1Model.oget dst)) S fuel m x b) x.

(** func (x *M) Error(b *polyglot.Buffer, err error): generator/golang/templates/structs.templ 52-56
    (v2: 45-49).  [p]: the bytes of err.Error().  [x] is not used, nil or not. *)
Definition Error1 (g : V1Model.policy) (b : V1Model.buffer) (p : bytes) : res V1Model.buffer :=
  V1Model.encode_all g b [VError p].
Definition Error2 (g : V2Model.policy) (b : V2Model.buffer) (p : bytes) : res V2Model.buffer :=
  V2Model.encode_all g b [VError p].
