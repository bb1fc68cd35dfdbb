(** The Go templates, as programs: /repo/generator/golang/templates (v2: /repo/v2/generator/golang/templates) for an
    arbitrary protobuf file, in the syntax of GoAst.  Line numbers are those of version 1; [v2] marks where version 2
    differs.  CustomFields, CustomEncode and CustomDecode are empty (generator.go 74-76).

    A template function that panics (on groups) ends the generator (C88); here it gives an empty name. *)
From Coq Require Import String.
From Verif Require Import Base Spec GenTables NameModel EmitModel GoAst.

(** FieldDescriptor.Kind(): a map field has MessageKind *)
Definition kind_of (t : ftyp) : pkind :=
  match t with TScalar k => k | TEnum _ => KEnum | TMsg _ | TMap _ _ => KMessage end.
Definition is_map (fd : fieldd) : bool := match f_typ fd with TMap _ _ => true | _ => false end.
(** the text of a Go string that may be missing from a table *)
Definition entry (o : option string) : string := match o with Some s => s | None => ""%string end.
Definition is_kind (k k' : pkind) : bool := match k, k' with KBytes, KBytes | KEnum, KEnum | KMessage, KMessage => true | _, _ => false end.
(** FindValue *)
Definition type_text (fd : fieldd) : bytes := match FindValue fd with Ok t => t | Panic => [] end.
(** GetEncodingFields, GetDecodingFields: structs.go 154-226; fields of other kinds panic *)
Record groups := mkgroups { g_values : list fieldd; g_slices : list fieldd; g_messages : list fieldd }.
Fixpoint get_fields (lut : pkind -> option string) (fs : list fieldd) : groups :=
  match fs with
  | [] => mkgroups [] [] []
  | f :: fs =>
      let g := get_fields lut fs in
      if f_many f && negb (is_map f) then mkgroups (g_values g) (f :: g_slices g) (g_messages g)
      else match lut (kind_of (f_typ f)) with
           | Some _ => mkgroups (f :: g_values g) (g_slices g) (g_messages g)
           | None => mkgroups (g_values g) (g_slices g) (f :: g_messages g)
           end
  end.
Definition n_x : bytes := text "x".   Definition n_b : bytes := text "b".   Definition n_d : bytes := text "d".
Definition n_k : bytes := text "k".   Definition n_v : bytes := text "v".   Definition n_i : bytes := text "i".
Definition n_err : bytes := text "err".   Definition n_size : bytes := text "size".   Definition n_slice : bytes := text "sliceSize".
Definition n_u32 : bytes := text "uint32".   Definition n_len : bytes := text "len".
Definition encoder : expr := Lib "Encoder" (Var n_b).                      (* polyglot.Encoder(b) *)
Definition goname (fd : fieldd) : bytes := camel (f_name fd).              (* {{ CamelCaseName $field.Name }} *)
Definition my (fd : fieldd) : expr := Sel (Var n_x) (goname fd).           (* x.F *)
Definition message_of (fd : fieldd) : bytes := match f_typ fd with TMsg s => camel s | _ => [] end.
Definition new_name (t : bytes) : bytes := text "New" ++ t.
Definition map_name (fd : fieldd) : bytes := camel (f_full fd) ++ text "Map".
(** if err != nil { return err } *)
Definition check : stmt := If (Neq (Var n_err) NilLit) [Return [Var n_err]] [].

(** ---- Encode: encode.templ ---- *)
(** structs.go 168-172, one of the values *)
Definition encode_value (fd : fieldd) : string * expr :=
  let k := kind_of (f_typ fd) in
  (entry (go_encodeLUT k), if is_kind k KEnum then App n_u32 [my fd] else my fd).
(** encode.templ 8: the chain of calls *)
Definition encode_values (vs : list (string * expr)) : expr := fold_left (fun e v => Met e (fst v) [snd v]) vs encoder.
(** encode.templ 22-39 *)
Definition encode_slice (fd : fieldd) : list stmt :=
  let k := kind_of (f_typ fd) in
  let size := App n_u32 [App n_len [my fd]] in
  if String.eqb (entry (go_encodeLUT k)) "" && is_kind k KMessage then
    [Do (Met encoder ".Slice" [size; Const "polyglot.AnyKind"]);
     Range (text "_") n_v (my fd) [Do (Met (Var n_v) ".Encode" [Var n_b])]]
  else
    [Do (Met encoder ".Slice" [size; Const (entry (go_kindLUT k))]);
     Range (text "_") n_v (my fd) [Do (Met encoder (entry (go_encodeLUT k)) [Var n_v])]].
(** encode.templ 41-45 *)
Definition encode_message (fd : fieldd) : list stmt := [Do (Met (my fd) ".Encode" [Var n_b])].
(** encode.templ 1-19 *)
Definition encode_func (m : msgd) : func :=
  let g := get_fields go_encodeLUT (m_fields m) in
  mkfunc (Some (camel (m_full m))) (text ".Encode") [n_x; n_b] [XText (text "*" ++ camel (m_full m)); XBuffer] None
    [If (Eq (Var n_x) NilLit)
       [Do (Met encoder ".Nil" [])]
       ((match g_values g with [] => [] | _ => [Do (encode_values (map encode_value (g_values g)))] end) ++
        flat_map encode_slice (g_slices g) ++ flat_map encode_message (g_messages g))] true.
(** encodeMap.templ 11-31: a key or a value *)
Definition encode_item (n : bytes) (t : ftyp) : stmt :=
  let k := kind_of t in
  let e := entry (go_encodeLUT k) in
  if String.eqb e "" && is_kind k KMessage then Do (Met (Var n) ".Encode" [Var n_b])
  else if is_kind k KEnum then Do (Met encoder e [App n_u32 [Var n]])
  else Do (Met encoder e [Var n]).
(** encodeMap.templ *)
Definition encode_map_func (fd : fieldd) (k v : ftyp) : func :=
  let kk := Const (entry (go_GetKind (kind_of k))) in
  let vk := Const (entry (go_GetKind (kind_of v))) in
  mkfunc (Some (map_name fd)) (text ".Encode") [n_x; n_b] [XText (map_name fd); XBuffer] None
    [If (Eq (Var n_x) NilLit)
       [Do (Met encoder ".Map" [Num 0; kk; vk])]
       [Do (Met encoder ".Map" [App n_u32 [App n_len [Var n_x]]; kk; vk]);
        Range n_k n_v (Var n_x) [encode_item n_k k; encode_item n_v v]]] false.

(** ---- Decode: decode.templ ---- *)
(** decode.templ 1-10 (v2: 1-8) *)
Definition decode_outer_func (v2 : bool) (m : msgd) : func :=
  mkfunc (Some (camel (m_full m))) (text ".Decode") [n_x; n_b] [XText (text "*" ++ camel (m_full m)); XText (text "[]byte")] (Some (XText (text "error")))
    (If (Eq (Var n_x) NilLit) [Return [Var (if v2 then text "ErrDecodeNil" else text "NilDecode")]] [] ::
     (if v2 then [Return [Met (Var n_x) ".decode" [Lib "Decoder" (Var n_b)]]]
      else [Define [n_d] (Lib "GetDecoder" (Var n_b)); Defer (Met (Var n_d) ".Return" []); Return [Met (Var n_x) ".decode" [Var n_d]]])) false.
(** decode.templ 24-39 *)
Definition temp (fd : fieldd) : bytes := goname fd ++ text "Temp".
Definition decode_other (v2 : bool) (fd : fieldd) : list stmt :=
  let k := kind_of (f_typ fd) in
  let dec := entry (go_decodeLUT k) in
  (if is_kind k KBytes then [Assign [my fd; Var n_err] (Met (Var n_d) dec [if v2 then my fd else NilLit])]
   else if is_kind k KEnum then
     [Let (temp fd) n_u32;
      Assign [Var (temp fd); Var n_err] (Met (Var n_d) dec []);
      Assign [my fd] (App (type_text fd) [Var (temp fd)])]
   else [Assign [my fd; Var n_err] (Met (Var n_d) dec [])]) ++ [check].
(** decode.templ 44-67 *)
Definition decode_element (fd : fieldd) : list stmt :=
  let k := kind_of (f_typ fd) in
  let here := Idx (my fd) (Var n_i) in
  (if is_kind k KMessage then
     [If (Eq here NilLit) [Assign [here] (App (new_name (message_of fd)) [])] [];
      Assign [Var n_err] (Met here ".decode" [Var n_d])]
   else [Assign [here; Var n_err] (Met (Var n_d) (entry (go_decodeLUT k)) [])]) ++ [check].
Definition decode_slice (fd : fieldd) : list stmt :=
  [Assign [Var n_slice; Var n_err] (Met (Var n_d) ".Slice" [Const (entry (go_GetKind (kind_of (f_typ fd))))]);
   check;
   If (Neq (App n_u32 [App n_len [my fd]]) (Var n_slice)) [Assign [my fd] (Make (type_text fd) (Var n_slice))] [];
   Count n_i (Var n_slice) (decode_element fd)].
(** decode.templ 68-93 (v2: 66-91) *)
Definition size_name (fd : fieldd) : bytes := goname fd ++ text "Size".
Definition decode_message (v2 : bool) (fd : fieldd) : list stmt :=
  match f_typ fd with
  | TMap k v =>
      [If (Not (Met (Var n_d) ".Nil" []))
         [Define [size_name fd; n_err] (Met (Var n_d) ".Map" [Const (entry (go_GetKind (kind_of k))); Const (entry (go_GetKind (kind_of v)))]);
          check;
          Assign [my fd] (App (new_name (map_name fd)) [Var (size_name fd)]);
          Assign [Var n_err] (Met (my fd) ".decode" [Var n_d; Var (size_name fd)]);
          check] []]
  | _ =>
      let new := Assign [my fd] (App (new_name (message_of fd)) []) in
      let dec := Assign [Var n_err] (Met (my fd) ".decode" [Var n_d]) in
      if v2 then [If (Not (Met (Var n_d) ".Nil" [])) [new; dec; check] []]
      else [If (Eq (my fd) NilLit) [new] []; dec; check]
  end.
(** decode.templ 12-95 (v2: 10-93) *)
Definition decode_func (v2 : bool) (m : msgd) : func :=
  let g := get_fields go_decodeLUT (m_fields m) in
  mkfunc (Some (camel (m_full m))) (text ".decode") [n_x; n_d] [XText (text "*" ++ camel (m_full m)); XDecoder] (Some (XText (text "error")))
    ([If (Met (Var n_d) ".Nil" []) [Return [NilLit]] []] ++
     (match m_fields m with [] => [] | _ => [Let n_err (text "error")] end) ++
     flat_map (decode_other v2) (g_values g) ++
     (match g_slices g with [] => [] | _ => [Let n_slice n_u32] end) ++
     flat_map decode_slice (g_slices g) ++
     flat_map (decode_message v2) (g_messages g) ++
     [Return [NilLit]]) true.
(** decodeMap.templ: a key or a value *)
Definition decode_item (n : bytes) (fd : fieldd) : list stmt :=
  let k := kind_of (f_typ fd) in
  let dec := entry (go_decodeLUT k) in
  (if String.eqb dec "" && is_kind k KMessage then
     [Assign [Var n] (App (new_name (message_of fd)) []); Assign [Var n_err] (Met (Var n) ".decode" [Var n_d])]
   else if is_kind k KEnum then
     [Assign [Var (temp fd); Var n_err] (Met (Var n_d) dec []); Assign [Var n] (App (type_text fd) [Var (temp fd)])]
   else [Assign [Var n; Var n_err] (Met (Var n_d) dec [])]) ++ [check].
Definition declare_item (n : bytes) (fd : fieldd) : list stmt :=
  Let n (type_text fd) :: (if is_kind (kind_of (f_typ fd)) KEnum then [Let (temp fd) n_u32] else []).
Definition decode_map_func (fd : fieldd) (k v : ftyp) : func :=
  mkfunc (Some (map_name fd)) (text ".decode") [n_x; n_d; n_size] [XText (map_name fd); XDecoder; XText n_u32] (Some (XText (text "error")))
    ([If (Eq (Var n_size) (Num 0)) [Return [NilLit]] []] ++
     declare_item n_k (map_key fd k) ++ declare_item n_v (map_value fd v) ++
     [Let n_err (text "error");
      Count n_i (Var n_size)
        (decode_item n_k (map_key fd k) ++ decode_item n_v (map_value fd v) ++ [Assign [Idx (Var n_x) (Var n_k)] (Var n_v)]);
      Return [NilLit]]) false.

(** ---- structs.templ ---- *)
(** getFunc: structs.templ 39-50 (v2: 39-43) *)
Definition new_func (v2 : bool) (m : msgd) : func :=
  let n := camel (m_full m) in
  mkfunc None (new_name n) [] [] (Some (XText (text "*" ++ n)))
    [Return [Lit n (if v2 then []
                    else flat_map (fun fd => if is_kind (kind_of (f_typ fd)) KMessage && negb (f_many fd)
                                             then [(goname fd, App (new_name (message_of fd)) [])] else []) (m_fields m))]] true.
(** structs.templ 11-16 *)
Definition map_decls (fd : fieldd) : list decl :=
  match f_typ fd with
  | TMap k v =>
      let kt := type_text (map_key fd k) in
      let vt := type_text (map_value fd v) in
      [DType (map_name fd) (TyMap kt vt);
       DFunc (mkfunc None (new_name (map_name fd)) [n_size] [XText n_u32] (Some (XMap kt vt)) [Return [MakeM kt vt (Var n_size)]] false);
       DFunc (encode_map_func fd k v); DFunc (decode_map_func fd k v)]
  | _ => []
  end.
(** error: structs.templ 52-56 (v2: 45-49) *)
Definition error_func (m : msgd) : func :=
  mkfunc (Some (camel (m_full m))) (text ".Error") [n_x; n_b; n_err] [XText (text "*" ++ camel (m_full m)); XBuffer; XText (text "error")] None [Do (Met encoder ".Error" [Var n_err])] false.
(** structs.templ 8-37 *)
Definition struct_decls (v2 : bool) (m : msgd) : list decl :=
  let n := camel (m_full m) in
  flat_map map_decls (m_fields m) ++
  [DType n (TyStruct (map (fun fd => (goname fd, type_text fd)) (m_fields m)));
   DFunc (new_func v2 m); DFunc (error_func m); DFunc (encode_func m); DFunc (decode_outer_func v2 m); DFunc (decode_func v2 m)].
(** enums.templ *)
Definition enum_decls (e : enumd) : list decl :=
  DType (camel (e_full e)) TyEnum ::
  map (fun iv => DConst (camel (v_full (snd iv))) (camel (e_full e)) (fst iv)) (numbered 0 (e_values e)).
(** base.templ, errors.templ *)
Definition go_program (v2 : bool) (f : filed) : list decl :=
  DVar (if v2 then text "ErrDecodeNil" else text "NilDecode") :: body enum_decls (struct_decls v2) f.
