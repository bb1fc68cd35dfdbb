(** Model of the TypeScript generator: /repo/generator/typescript (structs.go, generator.go and the
    templates body, head, imports, enums, messages, structs, encode, decode, decodeMap; the copy
    under /repo/v2/generator/typescript differs in its own import paths only), for an arbitrary
    request.

    Simplifications: the emitted text is represented by its statements, each carrying the names
    the template puts into it; white space and the header comment are dropped; a panic inside a template
    function (which text/template turns into an error of Generate) is [Panic]. *)
From Coq Require Import String.
From Verif Require Import Base NameModel GenTables EmitModel.
Local Open Scope string_scope.

(** g.dependencies, generator.go 41, as the list of its keys; template functions read and extend it. *)
Definition deps := list string.
Definition gen (A : Type) : Type := deps -> res (A * deps).
Definition ret {A} (a : A) : gen A := fun d => Ok (a, d).
Definition fail {A} : gen A := fun _ => Panic.
Definition andthen {A B} (x : gen A) (f : A -> gen B) : gen B :=
  fun d => match x d with Ok (a, d') => f a d' | Panic => Panic end.
Notation "'do' x <- e ; f" := (andthen e (fun x => f)) (at level 200, x pattern, right associativity).
(** {{ range }}: the template's text for each element *)
Fixpoint each {A B} (f : A -> gen B) (l : list A) : gen (list B) :=
  match l with
  | [] => ret []
  | x :: l => do y <- f x; do ys <- each f l; ret (y :: ys)
  end.

(** FieldDescriptor.Kind() *)
Definition kind_of (t : ftyp) : pkind :=
  match t with TScalar k => k | TEnum _ => KEnum | TMsg _ | TMap _ _ => KMessage end.
(** FieldDescriptor.IsMap() *)
Definition is_map (f : fieldd) : bool := match f_typ f with TMap _ _ => true | _ => false end.

(** generator.go 168-172 *)
Definition trackDependency (dep : string) : gen string := fun d => Ok (dep, dep :: d).
(** structs.go 237-244; [None] is the empty string *)
Definition getLUTEncoder (k : pkind) : gen (option string) :=
  match ts_encodeLUT k with
  | Some encoder => do _ <- trackDependency encoder; ret (Some encoder)
  | None => ret None
  end.
(** structs.go 246-253 *)
Definition getLUTDecoder (k : pkind) : gen (option string) :=
  match ts_decodeLUT k with
  | Some decoder => do _ <- trackDependency decoder; ret (Some decoder)
  | None => ret None
  end.
(** structs.go 255-259 *)
Definition getKindLUT (k : pkind) : gen (option string) := do _ <- trackDependency "Kind"; ret (ts_kindLUT k).
(** structs.go 221-235 *)
Definition getKind (k : pkind) : gen string :=
  do _ <- trackDependency "Kind";
  match ts_getKind k with Some n => ret n | None => fail end.
(** structs.go 110-144 *)
Fixpoint ts_findValue (many : bool) (t : ftyp) : res bytes :=
  match t with
  | TScalar k =>
      match ts_typeLUT k with
      | Some kind => Ok (if many then text kind ++ text "[]" else text kind)%list
      | None => Panic
      end
  | TMap k v =>
      let! k := ts_findValue false k in let! v := ts_findValue false v in
      Ok (text "Map<" ++ k ++ text ", " ++ v ++ text ">")%list
  | TEnum full | TMsg full =>
      let! n := CamelCase full in Ok (if many then n ++ text "[]" else n)%list
  end.
Definition FindValue (f : fieldd) : gen bytes :=
  fun d => match ts_findValue (f_many f) (f_typ f) with Ok v => Ok (v, d) | Panic => Panic end.
Definition FindValueOf (t : ftyp) : gen bytes :=
  fun d => match ts_findValue false t with Ok v => Ok (v, d) | Panic => Panic end.

(** ---- Encoding ---- *)
(** a map key or value: k.encode(encoded) | encodeUint32(encoded, k as number) | fn(encoded, k) *)
Inductive item := IMessage | IEnum (fn : string) | IValue (fn : string).
Inductive estmt :=
| EValue (fn : string) (f : fieldd) (as_number : bool)           (* encoded = fn(encoded, this.f [as number]) *)
| ESliceMsg (fn kind : string) (f : fieldd)                      (* encoded = fn(encoded, this._f.length, kind); each field.encode(encoded) *)
| ESlice (fn : string) (f : fieldd) (kind : option string) (elem : option string)
                                                                 (* encoded = fn(this._f.length, kind); each elem(encoded, field) *)
| EMap (fn : string) (f : fieldd) (kk kv : string) (k v : item)  (* encoded = fn(encoded, this._f.size, kk, kv); each k, v *)
| EMsg (f : fieldd).                                             (* encoded = this._f.encode(encoded) *)

Record encodingFields := mkenc { e_messages : list fieldd; e_slices : list fieldd; e_vals : list estmt }.
(** structs.go 152-183 *)
Fixpoint getEncodingFields (fields : list fieldd) : gen encodingFields :=
  match fields with
  | [] => ret (mkenc [] [] [])
  | f :: fields =>
      do here <- (if f_many f && negb (is_map f) then ret (mkenc [] [f] [])
                  else do encoder <- getLUTEncoder (kind_of (f_typ f));
                       match encoder with
                       | None => match kind_of (f_typ f) with KMessage => ret (mkenc [f] [] []) | _ => fail end
                       | Some e => ret (mkenc [] [] [EValue e f (match kind_of (f_typ f) with KEnum => true | _ => false end)])
                       end);
      do rest <- getEncodingFields fields;
      ret (mkenc (e_messages here ++ e_messages rest) (e_slices here ++ e_slices rest) (e_vals here ++ e_vals rest))%list
  end.
(** encode.templ 22-38 *)
Definition encodeSlice (f : fieldd) : gen estmt :=
  do encoder <- getLUTEncoder (kind_of (f_typ f));
  match encoder, kind_of (f_typ f) with
  | None, KMessage => do fn <- trackDependency "encodeArray"; ret (ESliceMsg fn "Kind.Any" f)
  | _, _ => do fn <- trackDependency "encodeArray"; do kind <- getKindLUT (kind_of (f_typ f)); ret (ESlice fn f kind encoder)
  end.
(** encode.templ 48-67, for a key or a value *)
Definition encodeItem (t : ftyp) : gen item :=
  do encoder <- getLUTEncoder (kind_of t);
  match encoder, kind_of t with
  | None, KMessage => ret IMessage
  | _, KEnum => do fn <- trackDependency "encodeUint32"; ret (IEnum fn)
  | Some fn, _ => ret (IValue fn)
  | None, _ => ret (IValue "")
  end.
(** encode.templ 41-73 *)
Definition encodeMessage (f : fieldd) : gen estmt :=
  match f_typ f with
  | TMap k v =>
      do keyKind <- getKind (kind_of k); do valKind <- getKind (kind_of v);
      do fn <- trackDependency "encodeMap";
      do key <- encodeItem k; do value <- encodeItem v;
      ret (EMap fn f keyKind valKind key value)
  | _ => ret (EMsg f)
  end.
(** encode.templ 1-20 *)
Definition encode_method (fields : list fieldd) : gen (list estmt) :=
  do e <- getEncodingFields fields;
  do slices <- each encodeSlice (e_slices e);
  do messages <- each encodeMessage (e_messages e);
  ret (e_vals e ++ slices ++ messages)%list.

(** ---- Decoding ---- *)
Inductive dstmt :=
| DSlice (fn : string) (f : fieldd) (elem : item)    (* f = fn(decoded); ... each element *)
| DMap (fn : string) (f : fieldd) (k v : item)       (* f = fn(decoded); ... each key, value *)
| DMsg (f : fieldd)                                  (* fTemp = T.decode(decoded) *)
| DValue (fn : string) (f : fieldd) (as_enum : bool). (* fTemp = fn(decoded) *)
Record decodingFields := mkdec { d_messages : list fieldd; d_slices : list fieldd; d_other : list fieldd }.
(** structs.go 191-219 *)
Fixpoint getDecodingFields (fields : list fieldd) : gen decodingFields :=
  match fields with
  | [] => ret (mkdec [] [] [])
  | f :: fields =>
      do here <- (if f_many f && negb (is_map f) then ret (mkdec [] [f] [])
                  else do decoder <- getLUTDecoder (kind_of (f_typ f));
                       match decoder with
                       | None => match kind_of (f_typ f) with KMessage => ret (mkdec [f] [] []) | _ => fail end
                       | Some _ => ret (mkdec [] [] [f])
                       end);
      do rest <- getDecodingFields fields;
      ret (mkdec (d_messages here ++ d_messages rest) (d_slices here ++ d_slices rest) (d_other here ++ d_other rest))%list
  end.
(** decode.templ 15-25, decodeMap.templ 11-34: an element, key or value *)
Definition decodeItem (k : pkind) (decoder : option string) : gen item :=
  match k, decoder with
  | KEnum, _ => do fn <- trackDependency "decodeUint32"; ret (IEnum fn)
  | KMessage, _ => ret IMessage
  | _, Some fn => ret (IValue fn)
  | _, None => ret (IValue "")
  end.
(** decode.templ 6-28 *)
Definition decodeSlice (f : fieldd) : gen dstmt :=
  do _ <- FindValue f; do _ <- getKind (kind_of (f_typ f)); do decoder <- getLUTDecoder (kind_of (f_typ f));
  do fn <- trackDependency "decodeArray";
  do elem <- decodeItem (kind_of (f_typ f)) decoder;
  ret (DSlice fn f elem).
(** decode.templ 30-38, decodeMap.templ *)
Definition decodeMessage (f : fieldd) : gen dstmt :=
  do _ <- FindValue f;
  match f_typ f with
  | TMap k v =>
      do _ <- FindValueOf k; do _ <- FindValueOf v;
      do keyDecoder <- getLUTDecoder (kind_of k); do valDecoder <- getLUTDecoder (kind_of v);
      do fn <- trackDependency "decodeMap";
      do key <- decodeItem (kind_of k) keyDecoder; do value <- decodeItem (kind_of v) valDecoder;
      ret (DMap fn f key value)
  | _ => ret (DMsg f)
  end.
(** decode.templ 40-51 *)
Definition decodeOther (f : fieldd) : gen dstmt :=
  do _ <- FindValue f; do decoder <- getLUTDecoder (kind_of (f_typ f));
  match kind_of (f_typ f), decoder with
  | KEnum, _ => do fn <- trackDependency "decodeUint32"; ret (DValue fn f true)
  | _, Some fn => ret (DValue fn f false)
  | _, None => ret (DValue "" f false)
  end.
(** decode.templ 1-64: the statements, and the fields given to the constructor in "new T(...)" *)
Definition decode_method (fields : list fieldd) : gen (list dstmt * list fieldd) :=
  do d <- getDecodingFields fields;
  do slices <- each decodeSlice (d_slices d);
  do messages <- each decodeMessage (d_messages d);
  do other <- each decodeOther (d_other d);
  ret (slices ++ messages ++ other, d_other d ++ d_slices d ++ d_messages d)%list.

(** ---- Classes and files ---- *)
Inductive tsdecl :=
| TsEnum (n : bytes) (variants : list (bytes * Z))
| TsClass (n : bytes) (params : list (fieldd * bytes)) (encode : list estmt) (decode : list dstmt) (args : list fieldd).
(** structs.templ 8-40 (FindValue is called again at 24, with the same result) *)
Definition ts_class (m : msgd) : gen tsdecl :=
  do params <- each (fun f => do v <- FindValue f; ret (f, v)) (m_fields m);
  do e <- encode_method (m_fields m);
  do d <- decode_method (m_fields m);
  ret (TsClass (camel (m_full m)) params e (fst d) (snd d)).
(** structs.templ 1-7: nested messages that are no map entries first *)
Fixpoint ts_structs (m : msgd) : gen (list tsdecl) :=
  match m with
  | mkmsg full entry fields enums nested =>
      do ns <- (fix all (ns : list msgd) : gen (list tsdecl) :=
                  match ns with
                  | [] => ret []
                  | n :: ns => do a <- (if m_entry n then ret [] else ts_structs n); do b <- all ns; ret (a ++ b)%list
                  end) nested;
      do c <- ts_class (mkmsg full entry fields enums nested);
      ret (ns ++ [c])%list
  end.
(** enums.templ 8-17 *)
Definition ts_enum (e : enumd) : tsdecl :=
  TsEnum (camel (e_full e)) (map (fun iv => (v_name (snd iv), fst iv)) (numbered 0 (e_values e))).
(** messages.templ *)
Definition ts_message (m : msgd) : gen (list tsdecl) :=
  do c <- ts_structs m; ret (map ts_enum (m_enums m) ++ c)%list.
(** body.templ *)
Definition ts_body (f : filed) : gen (list tsdecl) :=
  do ms <- each ts_message (d_msgs f); ret (map ts_enum (d_enums f) ++ concat ms)%list.
(** A generated file: the imported names (head.templ, imports.templ: all keys of g.dependencies, from the
    module named "polyglot") and the declarations. *)
Record tsfile := mktsfile { imported : list string; declared : list tsdecl }.
(** ExecuteTemplate, generator.go 139-166: the body first, then the head *)
Definition ExecuteTemplate (f : filed) : gen tsfile :=
  do b <- ts_body f; fun d => Ok (mktsfile d b, d).
(** Generate, generator.go 113-137: the files of a request that are to be generated, one after the other *)
Definition Generate (fs : list filed) : gen (list tsfile) := each ExecuteTemplate fs.
(** New, generator.go 92-101: no dependencies *)
Definition generate (fs : list filed) : res (list tsfile) :=
  match Generate fs [] with Ok (r, _) => Ok r | Panic => Panic end.
