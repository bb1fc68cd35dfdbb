(** The Rust templates, as programs: /repo/generator/rust/templates (the copies under /repo/v2/generator/rust are the same)
    for an arbitrary protobuf file, in the syntax of RsAst.

    A template function that panics (on groups) ends the generator (C90); here it gives an empty name. *)
From Coq Require Import String.
From Verif Require Import Base Spec GenTables NameModel EmitModel GoAst GoEmit RsGenModel RsAst.
Local Open Scope list_scope.

Definition rsname (fd : fieldd) : bytes := SnakeCase (f_name fd).          (* {{ SnakeCaseName $field.Name }} *)
Definition fn_name (fd : fieldd) : bytes := rsname fd ++ text "_decode".
Definition size_var (fd : fieldd) : bytes := rsname fd ++ text "_size".
(** findValue, structs.go 109-145: "Vec<u8>" in the table is a vector *)
Definition lut_type (s : string) : rty := if String.eqb s "Vec<u8>" then TyVec (TyName (text "u8")) else TyName (text s).
Definition many_of (many : bool) (t : rty) : rty := if many then TyVec t else t.
Fixpoint rs_type_of (many : bool) (t : ftyp) : rty :=
  match t with
  | TScalar k => many_of many (lut_type (entry (rs_typeLUT k)))
  | TMap k v => TyHash (rs_type_of false k) (rs_type_of false v)
  | TEnum full | TMsg full => many_of many (TyName (camel full))
  end.
Definition rs_type_of_field (fd : fieldd) : rty := rs_type_of (f_many fd) (f_typ fd).

Definition v_b : rexpr := EVar (text "b").
Definition mine (fd : fieldd) : rexpr := EField (EVar (text "self")) (rsname fd).          (* self.f *)
Definition is_string (k : pkind) : bool := match k with KString => true | _ => false end.
Definition is_bytes (k : pkind) : bool := match k with KBytes => true | _ => false end.
(** ---- encode.templ ---- *)
(** structs.go 170-178: the values *)
Definition rs_encode_arg (fd : fieldd) : rexpr :=
  let k := kind_of (f_typ fd) in
  if is_kind k KEnum then ECast (mine fd) else if is_string k || is_bytes k then ERef (mine fd) else mine fd.
(** 6: b, then .encode_x(...)? for each value *)
Definition rs_encode_value (e : rexpr) (fd : fieldd) : rexpr := ETry (EMet e (entry (rs_encodeLUT (kind_of (f_typ fd)))) [rs_encode_arg fd]).
Definition rs_encode_values (fs : list fieldd) : list rstmt :=
  match fs with [] => [] | _ => [SDo (fold_left rs_encode_value fs v_b)] end.
(** 19-39 *)
Definition rs_encode_slice (fd : fieldd) : list rstmt :=
  let k := kind_of (f_typ fd) in
  let e := entry (rs_encodeLUT k) in
  let item := EVar (text "item") in
  if String.eqb e "" && is_kind k KMessage then
    [SDo (ETry (EMet v_b ".encode_array" [EMet (mine fd) ".len" []; EConst "Kind::Any"]));
     SFor (PName (text "item")) (ERef (mine fd)) [SDo (ETry (EMet item ".encode" [v_b]))]]
  else
    [SDo (ETry (EMet v_b ".encode_array" [EMet (mine fd) ".len" []; EConst (entry (rs_kindLUT k))]));
     SFor (PName (text "item")) (ERef (mine fd)) [SDo (ETry (EMet v_b e [if is_string k then ERef item else item]))]].
(** 42-75 *)
Definition v_k : rexpr := EVar (text "k").
Definition v_v : rexpr := EVar (text "v").
Definition rs_encode_key (k : pkind) : rstmt :=
  let e := entry (rs_encodeLUT k) in
  if String.eqb e "" && is_kind k KMessage then SDo (ETry (EMet v_k ".encode" [v_b]))
  else if is_kind k KEnum then SDo (ETry (EMet v_b ".encode_u32" [ECast v_k]))
  else if is_string k then SDo (ETry (EMet v_b e [ERef v_k]))
  else SDo (ETry (EMet v_b e [v_k])).
Definition rs_encode_item (k : pkind) : rstmt :=
  let e := entry (rs_encodeLUT k) in
  if String.eqb e "" && is_kind k KMessage then SDo (ETry (EMet v_v ".encode" [v_b]))
  else if is_kind k KEnum then SDo (ETry (EMet v_b ".encode_u32" [ECast (EDeref v_v)]))
  else SDo (ETry (EMet v_b e [EDeref v_v])).
Definition rs_encode_message (fd : fieldd) : list rstmt :=
  match f_typ fd with
  | TMap k v =>
      [SDo (ETry (EMet v_b ".encode_map" [EMet (mine fd) ".len" []; EConst (entry (rs_getKind (kind_of k))); EConst (entry (rs_getKind (kind_of v)))]));
       SFor (PPair (text "k") (text "v")) (ERef (mine fd)) [rs_encode_key (kind_of k); rs_encode_item (kind_of v)]]
  | _ => [SDo (ETry (EMet (mine fd) ".encode" [v_b]))]
  end.
Definition ok (e : rexpr) : rexpr := ECall None (text "Ok") [e].
Definition some_ (e : rexpr) : rexpr := ECall None (text "Some") [e].
Definition rs_encode_body (m : msgd) : list rstmt :=
  let g := get_fields rs_encodeLUT (m_fields m) in
  rs_encode_values (g_values g) ++ flat_map rs_encode_slice (g_slices g) ++ flat_map rs_encode_message (g_messages g) ++ [STail (ok v_b)].

(** ---- decode.templ, decodeMap.templ ---- *)
(** e.ok_or(DecodingError::E)? *)
Definition ok_or (e : rexpr) (s : string) : rexpr := ETry (EMet e ".ok_or" [EConst s]).
(** T::decode(b)?.ok_or(DecodingError::E)? *)
Definition decode_or (t : bytes) (s : string) : rexpr := ok_or (ETry (ECall (Some t) (text "decode") [v_b])) s.
(** T::try_from(e?).ok().ok_or(DecodingError::E)? *)
Definition try_or (t : bytes) (e : rexpr) (s : string) : rexpr := ok_or (EMet (ECall (Some t) (text "try_from") [ETry e]) ".ok" []) s.
Definition if_none : rstmt := SIf (EMet v_b ".decode_none" []) [SReturn (ok (EConst "None"))].
(** decode.templ 16-32 *)
Definition rs_decode_slice (fd : fieldd) : rstmt :=
  let k := kind_of (f_typ fd) in
  SFn (fn_name fd) (rs_type_of_field fd)
    [SLet false (size_var fd) (ETry (EMet v_b ".decode_array" [EConst (entry (rs_getKind k))]));
     SLet true (text "temp") (ECall (Some (text "Vec")) (text "with_capacity") [EVar (size_var fd)]);
     STimes (EVar (size_var fd))
       [SDo (EMet (EVar (text "temp")) ".push"
          [if is_kind k KMessage then decode_or (message_of fd) "DecodingError::InvalidArray" else ETry (EMet v_b (entry (rs_decodeLUT k)) [])])];
     STail (ok (some_ (EVar (text "temp"))))].
(** decodeMap.templ 17-35 *)
Definition rs_decode_half (n : bytes) (t : ftyp) : rstmt :=
  let k := kind_of t in
  let e := entry (rs_decodeLUT k) in
  let full := match t with TEnum s | TMsg s => camel s | _ => [] end in
  SLet false n
    (if String.eqb e "" && is_kind k KMessage then decode_or full "DecodingError::InvalidMap"
     else if is_kind k KEnum then try_or full (EMet v_b e []) "DecodingError::InvalidMap"
     else ETry (EMet v_b e [])).
Definition rs_decode_map (fd : fieldd) : list rstmt :=
  match f_typ fd with
  | TMap k v =>
      [SFn (fn_name fd) (TyHash (rs_type_of false k) (rs_type_of false v))
        [if_none;
         SLet false (text "size") (ok_or (EMet (EMet v_b ".decode_map" [EConst (entry (rs_getKind (kind_of k))); EConst (entry (rs_getKind (kind_of v)))]) ".ok" []) "DecodingError::InvalidU32");
         SLet true (text "map") (ECall (Some (text "HashMap")) (text "new") []);
         STimes (EVar (text "size"))
           [rs_decode_half (text "k") k; rs_decode_half (text "v") v;
            SDo (EMet (EVar (text "map")) ".insert" [v_k; v_v])];
         STail (ok (some_ (EVar (text "map"))))]]
  | _ => []
  end.
(** decode.templ 38-57: the fields of the struct expression *)
Definition rs_decode_other (fd : fieldd) : bytes * rexpr :=
  let k := kind_of (f_typ fd) in
  (rsname fd,
   if is_kind k KEnum then try_or (match f_typ fd with TEnum s => camel s | _ => [] end) (EMet v_b ".decode_u32" []) "DecodingError::InvalidEnum"
   else ETry (EMet v_b (entry (rs_decodeLUT k)) [])).
(** x_decode(b)?.ok_or(DecodingError::E)? *)
Definition local_or (fd : fieldd) (s : string) : rexpr := ok_or (ETry (ECall None (fn_name fd) [v_b])) s.
Definition rs_init_slice (fd : fieldd) : bytes * rexpr := (rsname fd, local_or fd "DecodingError::InvalidArray").
Definition rs_init_message (fd : fieldd) : bytes * rexpr :=
  (rsname fd, if is_map fd then local_or fd "DecodingError::InvalidMap" else decode_or (message_of fd) "DecodingError::InvalidStruct").
Definition rs_decode_body (m : msgd) : list rstmt :=
  let g := get_fields rs_decodeLUT (m_fields m) in
  [if_none;
   SIfOk (text "error") (EMet v_b ".decode_error" []) [SReturn (ECall None (text "Err") [EVar (text "error")])]] ++
  map rs_decode_slice (g_slices g) ++ flat_map rs_decode_map (g_messages g) ++
  [STail (ok (some_ (EStruct (camel (m_full m))
     (map rs_decode_other (g_values g) ++ map rs_init_slice (g_slices g) ++ map rs_init_message (g_messages g)))))].

(** ---- structs.templ, enums.templ, messages.templ, imports.templ, base.templ ---- *)
(** GeneratedFieldPrivacy: structs.templ 13-20 *)
Definition privacy (p : bytes) : vis := if same p (text "private") then Private else if same p (text "public") then Public else Crate.
Definition rs_enum_decl (e : enumd) : list rdecl :=
  [DEnum (camel (e_full e)) (map (fun iv => (v_name (snd iv), fst iv)) (numbered 0 (e_values e)))].
Definition rs_structs_decl (p : bytes) (m : msgd) : list rdecl :=
  let n := camel (m_full m) in
  [DStruct n (map (fun fd => (privacy p, rsname fd, rs_type_of_field fd)) (m_fields m)); DEncode n (rs_encode_body m); DDecode n (rs_decode_body m)].
Definition rs_imports (d : deps) : list rdecl :=
  [DUse ["std"; "io"; "Cursor"] []; DUse ["polyglot_rs"] ["DecodingError"; "Encoder"; "Decoder"; "Kind"]]%string ++
  (if Enums d then [DUse ["num_enum"; "TryFromPrimitive"] []; DUse ["std"; "convert"; "TryFrom"] []]%string else []) ++
  (if Maps d then [DUse ["std"; "collections"; "HashMap"] []]%string else []).
(** base.templ; the value of the option privacy, what DependencyAnalysis found, the file *)
Definition rs_program (p : bytes) (d : deps) (f : filed) : list rdecl :=
  rs_imports d ++ flat_map rs_enum_decl (d_enums f) ++ [DTrait false; DTrait true] ++ messages rs_enum_decl (rs_structs_decl p) (d_msgs f).
