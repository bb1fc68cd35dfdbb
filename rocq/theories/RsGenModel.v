(** Model of the Rust code the generator emits: the text/template files under
    /repo/generator/rust/templates and /repo/generator/rust/structs.go (the copies under
    /repo/v2/generator/rust differ only in import paths), instantiated for an arbitrary list of
    message descriptors, and of the generator's import analysis (imports.go).

    Simplifications, once for the whole file:
    - a struct is a tree (it is, in Rust); a HashMap is a list of entries without duplicate keys, in
      the order in which "for (k, v) in &map" visits it (Rust leaves the order open, so theorems
      quantify over the list);
    - struct values have the type [gval] shared with the Go model, so that the two languages'
      structs can be compared; nil messages and nil maps ([GMsg None], [GMap None]) do not exist in
      Rust, and encoding one is not defined here;
    - an enum value is its number; Rust names do not occur. *)
From Coq Require Import String.
From Verif Require Import Base Spec RustModel GenTables.
From Verif Require GenModel.
Import GenModel (gval, GPrim, GList, GMap, GMsg).

(** ---- Descriptors (protoreflect.MessageDescriptor / FieldDescriptor) ---- *)
(** field.Kind(): a scalar, an enum with so many values, a message *)
Inductive rtype := RScalar (k : pkind) | REnum (values : Z) | RMsg (m : nat).
Inductive rfield := ROne (t : rtype) | RMany (t : rtype) | RMapOf (k : pkind) (t : rtype).
Definition rschema := list (list rfield).                    (* message number -> its fields *)

(** The same descriptors as the Go generator sees them (the number of enum values plays no role). *)
Definition forget_t (t : rtype) : GenModel.ftype :=
  match t with RScalar k => GenModel.Scalar k | REnum _ => GenModel.Scalar KEnum | RMsg m => GenModel.Msg m end.
Definition forget_f (f : rfield) : GenModel.field :=
  match f with
  | ROne t => GenModel.One (forget_t t) | RMany t => GenModel.Many (forget_t t)
  | RMapOf k t => GenModel.MapOf k (forget_t t)
  end.
Definition forget (S : rschema) : GenModel.schema := map (map forget_f) S.
Definition rkind (t : rtype) : pkind := GenModel.tkind (forget_t t).

(** getEncodingFields and getDecodingFields, generator/rust/structs.go 152-223: the loops are those of
    the Go generator (GenModel.getFields), with the Rust look-up tables. *)
Definition rs_getFields (lut : pkind -> option string) (fs : list rfield) : option (list nat * list nat * list nat) :=
  GenModel.getFields lut (map forget_f fs) 0.
(** A Kind named by the templates. *)
Definition rs_kind (name : option string) : option Z :=
  match name with Some n => assoc n rs_kinds | None => None end.

(** ---- Does the generated code compile? ---- *)
(** Methods of Encoder that take a reference (encoder.rs 55-64); the others take a Copy value. *)
Definition by_ref (q : request) : bool := match q with RBytes | RString => true | _ => false end.
(** the type a table gives to a scalar field, and the types its encoder and decoder methods handle *)
Definition rs_types_agree (k : pkind) : option request :=
  match rs_typeLUT k, rs_encodeLUT k, rs_decodeLUT k with
  | Some t, Some en, Some dn =>
      match assoc t rs_types, assoc en rs_encoder_methods, assoc dn rs_decoder_methods with
      | Some t, Some te, Some td =>
          if GenModel.request_eq_dec t te then if GenModel.request_eq_dec t td then Some t else None else None
      | _, _, _ => None
      end
  | _, _, _ => None
  end.
Definition rs_ref (S : rschema) (m : nat) : bool := Nat.ltb m (length S).
(** singular: structs.go 170-178 (enums cast, strings and bytes referenced), decode.templ 39-46;
    repeated: encode.templ 23-37 - the loop variable is a reference, which only the methods that take
    one accept; decode.templ 24-28 has no conversion to an enum;
    map keys: encode.templ 49-60 (references); map values: 61-70 - dereferenced, which is only possible
    for Copy types; decodeMap.templ 18-35. *)
Definition rfield_compiles (S : rschema) (f : rfield) : bool :=
  let is_ref k := match rs_types_agree k with Some q => by_ref q | None => false end in
  let is_copy k := match rs_types_agree k with Some q => negb (by_ref q) | None => false end in
  match f with
  | ROne (RScalar k) => is_ref k || is_copy k
  | ROne (REnum n) => true
  | RMany (RScalar k) => is_ref k
  | RMany (REnum _) => false
  | ROne (RMsg m) | RMany (RMsg m) => rs_ref S m
  | RMapOf k t =>
      GenModel.key_kind k && is_ref k &&
      match t with RScalar k => is_copy k | REnum _ => true | RMsg m => rs_ref S m end
  end.
(** A struct that contains itself other than through a Vec or a HashMap has infinite size. *)
Definition embeds (S : rschema) (a b : nat) : Prop := In (ROne (RMsg b)) (nth a S []).
Definition rs_compiles (S : rschema) : Prop :=
  forallb (forallb (rfield_compiles S)) S = true /\ forall m, Acc (fun b a => embeds S a b) m.

(** ---- Encode ---- *)
Definition rs_enc_call (k : pkind) (v : value) : option value :=
  match rs_encodeLUT k with
  | Some n => match assoc n rs_encoder_methods with
              | Some q => if GenModel.request_eq_dec q (want v) then Some v else None
              | None => None
              end
  | None => None
  end.
(** The Encoder calls made for one field (or Vec element, or map value), in order.
    structs: encode.templ 1-17, 73; slices: 19-39; maps: 44-71.  (enc(x as u32) for enums.) *)
Fixpoint rs_calls (S : rschema) (x : gval) (f : rfield) {struct x} : option (list value) :=
  match f, x with
  | ROne (RScalar k), GPrim v =>
      match rs_enc_call k v with Some v => Some [v] | None => None end
  | ROne (REnum _), GPrim v =>
      match rs_enc_call KEnum v with Some v => Some [v] | None => None end
  | ROne (RMsg m), GMsg (Some xs) =>
      match nth_error S m with
      | None => None
      | Some fs =>
          let pieces := (fix each (xs : list gval) (fs : list rfield) : list (option (list value)) :=
                           match xs, fs with
                           | x :: xs, f :: fs => rs_calls S x f :: each xs fs
                           | _, _ => []
                           end) xs fs in
          match rs_getFields rs_encodeLUT fs with
          | None => None
          | Some (values, slices, messages) =>
              GenModel.all_some (map (fun i => nth i pieces None) (values ++ slices ++ messages))
          end
      end
  | RMany t, GList xs =>
      let k := match t with
               | RMsg _ => rs_kind (Some "Kind::Any"%string)            (* 23-24 *)
               | _ => rs_kind (rs_kindLUT (rkind t))                    (* 29, GetKindLUT *)
               end in
      match k with
      | None => None
      | Some k => GenModel.all_some (Some [VSlice (zlen xs) k] :: map (fun x => rs_calls S x (ROne t)) xs)
      end
  | RMapOf kk t, GMap (Some l) =>
      match rs_kind (rs_getKind kk), rs_kind (rs_getKind (rkind t)) with
      | Some k1, Some k2 =>
          GenModel.all_some (Some [VMap (zlen l) k1 k2] ::
                    map (fun e : value * gval =>
                           let (k, v) := e in
                           match rs_enc_call kk k, rs_calls S v (ROne t) with
                           | Some k, Some vs => Some (k :: vs)
                           | _, _ => None
                           end) l)
      | _, _ => None
      end
  | _, _ => None
  end.
(** Encode::encode for message [m] *)
Definition rs_encode (S : rschema) (c : cursor) (m : nat) (xs : list gval) : option (res cursor) :=
  option_map (encode_all c) (rs_calls S (GMsg (Some xs)) (ROne (RMsg m))).

(** ---- Decode ---- *)
(** The error in the Box<dyn Error>: a DecodingError, or the error message found in the input. *)
Inductive rsgerr := Decoding (e : DecodingError) | Remote (p : bytes).
(** Result of a generated decode function with the cursor it leaves.  [RGDie]: a panic in the library or
    in Vec::with_capacity, or an aborted allocation; [RGDeep]: the call stack was exhausted ([fuel] is
    the number of stack frames available); [RGBroken]: code that does not compile. *)
Inductive rgres (A : Type) :=
| RGOk (x : A) (c : cursor) | RGErr (e : rsgerr) (c : cursor) | RGDie | RGDeep | RGBroken.
Arguments RGOk {A}. Arguments RGErr {A}. Arguments RGDie {A}. Arguments RGDeep {A}. Arguments RGBroken {A}.
Definition gtry {A B} (x : rgres A) (k : A -> cursor -> rgres B) : rgres B :=
  match x with
  | RGOk a c => k a c | RGErr e c => RGErr e c | RGDie => RGDie | RGDeep => RGDeep | RGBroken => RGBroken
  end.
(** the [?] operator on a library call *)
Definition qmark {A} (x : rres A) : rgres A :=
  match x with ROk a c => RGOk a c | RErr e c => RGErr (Decoding e) c | RPanic => RGDie end.

Section Decode.
Variable rt : runtime.
(** whether Vec::with_capacity(n) for elements of this type finds the memory *)
Variable alloc : rtype -> Z -> bool.
Variable S : rschema.

(** b{{ $decoder }}()? *)
Definition rs_dec_call (k : pkind) (c : cursor) : rgres value :=
  match rs_decodeLUT k with
  | Some n => match assoc n rs_decoder_methods with
              | Some q => qmark (decode rt q c)
              | None => RGBroken
              end
  | None => RGBroken
  end.
(** T::try_from(x).ok().ok_or(e)?: num_enum's TryFromPrimitive accepts the discriminants, which
    enums.templ 13-15 numbers from 0. *)
Definition rs_try_from (n : Z) (e : DecodingError) (v : value) (c : cursor) : rgres gval :=
  match v with
  | VU32 x => if (0 <=? x) && (x <? n) then RGOk (GPrim v) c else RGErr (Decoding e) c
  | _ => RGBroken
  end.
(** decode.templ 39-46: a singular scalar or enum field *)
Definition rs_dec_other (f : rfield) (c : cursor) : rgres gval :=
  match f with
  | ROne (RScalar k) => gtry (rs_dec_call k c) (fun v c => RGOk (GPrim v) c)
  | ROne (REnum n) => gtry (qmark (decode rt RU32 c)) (fun v c => rs_try_from n InvalidEnum v c)
  | _ => RGBroken
  end.

Section Rec.
Variable rec : nat -> cursor -> rgres (option (list gval)).    (* M::decode, one frame deeper *)
(** M::decode(b)?.ok_or(e)? *)
Definition rs_ok_or (m : nat) (e : DecodingError) (c : cursor) : rgres gval :=
  gtry (rec m c) (fun o c =>
    match o with Some xs => RGOk (GMsg (Some xs)) c | None => RGErr (Decoding e) c end).
(** decode.templ 23-29: the loop *)
Fixpoint rs_dec_elems (t : rtype) (n : nat) (c : cursor) : rgres (list gval) :=
  match n with
  | O => RGOk [] c
  | Datatypes.S n =>
      gtry (match t with
            | RMsg m => rs_ok_or m InvalidArray c                        (* 25 *)
            | RScalar k => gtry (rs_dec_call k c) (fun v c => RGOk (GPrim v) c)  (* 27 *)
            | REnum _ => RGBroken
            end)
           (fun x c => gtry (rs_dec_elems t n c) (fun xs c => RGOk (x :: xs) c))
  end.
(** decode.templ 17-31, 48 *)
Definition rs_dec_slice (f : rfield) (c : cursor) : rgres gval :=
  match f with
  | RMany t =>
      match rs_kind (rs_getKind (rkind t)) with
      | None => RGBroken
      | Some k =>
          gtry (qmark (decode rt (RSlice k) c)) (fun v c =>
            match v with
            | VSlice size _ =>
                if alloc t size then
                  gtry (rs_dec_elems t (Z.to_nat size) c) (fun xs c => RGOk (GList xs) c)
                else RGDie
            | _ => RGBroken
            end)
      end
  | _ => RGBroken
  end.
(** decodeMap.templ 17-37: the loop *)
Fixpoint rs_dec_entries (kk : pkind) (t : rtype) (n : nat) (l : list (value * gval)) (c : cursor)
  : rgres (list (value * gval)) :=
  match n with
  | O => RGOk l c
  | Datatypes.S n =>
      gtry (rs_dec_call kk c) (fun k c =>
      gtry (match t with
            | RMsg m => rs_ok_or m InvalidMap c                          (* 28 *)
            | REnum vals => gtry (rs_dec_call KEnum c) (fun v c => rs_try_from vals InvalidMap v c)  (* 31 *)
            | RScalar kt => gtry (rs_dec_call kt c) (fun v c => RGOk (GPrim v) c)  (* 33 *)
            end) (fun v c =>
      rs_dec_entries kk t n (GenModel.insert k v l) c))
  end.
(** decode.templ 50-56: a map field (decodeMap.templ) or a message field *)
Definition rs_dec_message (f : rfield) (c : cursor) : rgres gval :=
  match f with
  | RMapOf kk t =>
      match decode_none rt c with
      | RPanic => RGDie
      | RErr e c => RGErr (Decoding e) c
      | ROk true c => RGErr (Decoding InvalidMap) c                      (* None.ok_or(InvalidMap)? *)
      | ROk false c =>
          match rs_kind (rs_getKind kk), rs_kind (rs_getKind (rkind t)) with
          | Some k1, Some k2 =>
              match decode rt (RMap k1 k2) c with
              | RPanic => RGDie
              | RErr _ c => RGErr (Decoding InvalidU32) c                (* 14-15 *)
              | ROk v c =>
                  match v with
                  | VMap size _ _ =>
                      gtry (rs_dec_entries kk t (Z.to_nat size) [] c) (fun l c => RGOk (GMap (Some l)) c)
                  | _ => RGBroken
                  end
              end
          | _, _ => RGBroken
          end
      end
  | ROne (RMsg m) => rs_ok_or m InvalidStruct c
  | _ => RGBroken
  end.
End Rec.

(** "range $field := ..." over some of the fields: the field initialisers of the struct expression *)
Fixpoint rs_pass (step : rfield -> cursor -> rgres gval) (fs : list rfield) (is : list nat) (c : cursor)
  : rgres (list (nat * gval)) :=
  match is with
  | [] => RGOk [] c
  | i :: is =>
      match nth_error fs i with
      | Some f => gtry (step f c) (fun x c => gtry (rs_pass step fs is c) (fun xs c => RGOk ((i, x) :: xs) c))
      | None => RGBroken
      end
  end.
(** the struct expression: every field must be initialised *)
Fixpoint rs_field (i : nat) (l : list (nat * gval)) : option gval :=
  match l with [] => None | (j, x) :: l => if Nat.eqb i j then Some x else rs_field i l end.
Definition rs_struct (n : nat) (l : list (nat * gval)) : option (list gval) :=
  GenModel.all_some (map (fun i => option_map (fun x => [x]) (rs_field i l)) (seq 0 n)).

(** M::decode, decode.templ 4-58 *)
Fixpoint rs_decode (fuel : nat) (m : nat) (c : cursor) : rgres (option (list gval)) :=
  match fuel with
  | O => RGDeep
  | Datatypes.S fuel =>
      match decode_none rt c with                                        (* 5-7 *)
      | RPanic => RGDie
      | RErr e c => RGErr (Decoding e) c
      | ROk true c => RGOk None c
      | ROk false c =>
          match decode_error rt c with                                   (* 9-11 *)
          | RPanic => RGDie
          | ROk p c => RGErr (Remote p) c
          | RErr _ c =>
              match nth_error S m with
              | None => RGBroken
              | Some fs =>
                  match rs_getFields rs_decodeLUT fs with
                  | None => RGBroken
                  | Some (other, slices, messages) =>                    (* 38-57 *)
                      gtry (rs_pass rs_dec_other fs other c) (fun a c =>
                      gtry (rs_pass (rs_dec_slice (rs_decode fuel)) fs slices c) (fun b c =>
                      gtry (rs_pass (rs_dec_message (rs_decode fuel)) fs messages c) (fun d c =>
                      match rs_struct (length fs) (a ++ b ++ d) with
                      | Some xs => RGOk (Some xs) c
                      | None => RGBroken
                      end)))
                  end
              end
          end
      end
  end.
End Decode.

(** ---- DependencyAnalysis, generator/rust/imports.go ---- *)
(** A protobuf file: its top-level messages, the messages declared inside each message, and the
    number of enums declared at top level and inside each message.  (A map field's message is the
    synthesised entry type, whose fields are the key and the value.) *)
Record pfile := mkfile { top : list nat; nested : nat -> list nat; enums : nat; inner_enums : nat -> nat }.
Record deps := mkdeps { Enums : bool; Maps : bool }.
Definition set_maps (d : deps) : deps := mkdeps (Enums d) true.

(** traverseFields, 53-65; [None]: stack overflow.  A field of kind message recurses into its
    message if that has fields; a map field into its entry (key and value). *)
Section Traverse.
Variable S : rschema.
Definition visit (rec : nat -> deps -> option deps) (m : nat) (d : deps) : option deps :=
  match nth m S [] with [] => Some d | _ => rec m d end.
Fixpoint traverse (fuel : nat) (m : nat) (d : deps) : option deps :=
  match fuel with
  | O => None
  | Datatypes.S fuel =>
      (fix each (fs : list rfield) (d : deps) : option deps :=
         match fs with
         | [] => Some d
         | f :: fs =>
             match (match f with
                    | ROne (RMsg q) | RMany (RMsg q) => visit (traverse fuel) q d
                    | RMapOf _ (RMsg q) =>                               (* the entry message *)
                        match fuel with
                        | O => None
                        | Datatypes.S fuel => visit (traverse fuel) q (set_maps d)
                        end
                    | RMapOf _ _ => match fuel with O => None | _ => Some (set_maps d) end
                    | _ => Some d
                    end) with
             | Some d => each fs d
             | None => None
             end
         end) (nth m S []) d
  end.
(** DependencyAnalysis, 29-51.  (The loop body is that of traverseFields.) *)
Definition DependencyAnalysis (fuel : nat) (f : pfile) : option deps :=
  fold_left (fun o m => match o with Some d => traverse fuel m d | None => None end) (top f)
    (Some (mkdeps (negb (Nat.eqb (enums f) 0)) false)).
End Traverse.
