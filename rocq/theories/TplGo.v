(** What the Go templates call: the methods of protoreflect's descriptors, and the FuncMap of
    generator/golang/generator.go 41-62 (v2/generator/golang/generator.go, the same). *)
From Coq Require Import String.
From Verif Require Import Base Spec GenTables NameModel EmitModel GoEmit TplText TplModel.
Local Open Scope list_scope.

(** ---- Descriptors: google.golang.org/protobuf/reflect/protoreflect ---- *)
Definition at_index {A} (l : list A) (z : Z) : option A := if z <? 0 then None else nth_error l (Z.to_nat z).
Definition get_of (v : tval) (n : string) (args : list tval) : option tval :=
  match v, args with
  | VRec fs, [] => find_str n fs
  | VEnums l, [] => if String.eqb n "Len" then Some (VInt (zlen l)) else None
  | VEnums l, [VInt i] => if String.eqb n "Get" then option_map VEnum (at_index l i) else None
  | VValues l, [] => if String.eqb n "Len" then Some (VInt (zlen l)) else None
  | VValues l, [VInt i] => if String.eqb n "Get" then option_map VValue (at_index l i) else None
  | VMsgs l, [] => if String.eqb n "Len" then Some (VInt (zlen l)) else None
  | VMsgs l, [VInt i] => if String.eqb n "Get" then option_map VMsg (at_index l i) else None
  | VFieldList l, [] => if String.eqb n "Len" then Some (VInt (zlen l)) else None
  | VFieldList l, [VInt i] => if String.eqb n "Get" then option_map VField (at_index l i) else None
  | VEnum e, [] => if String.eqb n "FullName" then Some (VFull (e_full e)) else if String.eqb n "Values" then Some (VValues (e_values e)) else None
  | VValue v, [] => if String.eqb n "FullName" then Some (VFull (v_full v)) else if String.eqb n "Name" then Some (VName (v_name v)) else None
  | VMsg m, [] =>
      if String.eqb n "FullName" then Some (VFull (m_full m))
      else if String.eqb n "IsMapEntry" then Some (VTruth (m_entry m))
      else if String.eqb n "Fields" then Some (VFieldList (m_fields m))
      else if String.eqb n "Enums" then Some (VEnums (m_enums m))
      else if String.eqb n "Messages" then Some (VMsgs (m_nested m)) else None
  | VRef s, [] => if String.eqb n "FullName" then Some (VFull s) else None
  | VField fd, [] =>
      if String.eqb n "Name" then Some (VName (f_name fd))
      else if String.eqb n "FullName" then Some (VFull (f_full fd))
      else if String.eqb n "Kind" then Some (VKind (kind_of (f_typ fd)))
      else if String.eqb n "Cardinality" then Some (VCard (f_many fd))
      else if String.eqb n "IsMap" then Some (VTruth (is_map fd))
      else if String.eqb n "Message" then match f_typ fd with TMsg s => Some (VRef s) | _ => None end
      else if String.eqb n "MapKey" then match f_typ fd with TMap k _ => Some (VField (map_key fd k)) | _ => None end
      else if String.eqb n "MapValue" then match f_typ fd with TMap _ v => Some (VField (map_value fd v)) | _ => None end
      else None
  | _, _ => None
  end.

(** ---- structs.go ---- *)
Definition of_res (r : res bytes) : option bytes := match r with Ok b => Some b | Panic => None end.
(** GetEncodingFields: structs.go 154-187 (the fields of the result: MessageFields, SliceFields, Values) *)
Definition sprintf_value (encoder : string) (k : pkind) (name : bytes) : bytes :=
  if is_kind k KEnum then text encoder ++ text "(uint32(x." ++ camel name ++ text "))"    (* 172 *)
  else text encoder ++ text "(x." ++ camel name ++ text ")".                              (* 174 *)
Fixpoint encoding_fields (fs : list fieldd) (ms ss : list fieldd) (vs : list bytes) : option (list fieldd * list fieldd * list bytes) :=
  match fs with
  | [] => Some (ms, ss, vs)
  | fd :: fs =>
      if f_many fd && negb (is_map fd) then encoding_fields fs ms (ss ++ [fd]) vs
      else match go_encodeLUT (kind_of (f_typ fd)) with
           | None => match kind_of (f_typ fd) with KMessage => encoding_fields fs (ms ++ [fd]) ss vs | _ => None end
           | Some e => encoding_fields fs ms ss (vs ++ [sprintf_value e (kind_of (f_typ fd)) (f_name fd)])
           end
  end.
(** GetDecodingFields: structs.go 195-226 (MessageFields, SliceFields, Other) *)
Fixpoint decoding_fields (fs : list fieldd) (ms ss os : list fieldd) : option (list fieldd * list fieldd * list fieldd) :=
  match fs with
  | [] => Some (ms, ss, os)
  | fd :: fs =>
      if f_many fd && negb (is_map fd) then decoding_fields fs ms (ss ++ [fd]) os
      else match go_decodeLUT (kind_of (f_typ fd)) with
           | None => match kind_of (f_typ fd) with KMessage => decoding_fields fs (ms ++ [fd]) ss os | _ => None end
           | Some e => decoding_fields fs ms ss (os ++ [fd])
           end
  end.
(** ---- FuncMap: generator.go 43-61.  CustomFields, CustomEncode, CustomDecode: 72-74 ---- *)
Definition call_of (f : string) (args : list tval) : option tval :=
  match args with
  | [] => if String.eqb f "CustomFields" || String.eqb f "CustomEncode" || String.eqb f "CustomDecode" then Some (VText []) else None
  | [VFull s] => if String.eqb f "CamelCase" then option_map VText (of_res (CamelCase s)) else None
  | [VName s] => if String.eqb f "CamelCaseName" then option_map VText (of_res (CamelCase s)) else None
  | [VInt n] => if String.eqb f "MakeIterable" then if n <? 0 then None else Some (VList (repeat VStruct (Z.to_nat n))) else None
  | [VField fd] => if String.eqb f "FindValue" then option_map VText (of_res (FindValue fd)) else None
  | [VKind k] =>
      if String.eqb f "GetKind" then option_map (fun s => VText (text s)) (go_GetKind k)
      else if String.eqb f "GetLUTEncoder" then Some (VText (text (entry (go_encodeLUT k))))
      else if String.eqb f "GetLUTDecoder" then Some (VText (text (entry (go_decodeLUT k))))
      else if String.eqb f "GetKindLUT" then Some (VText (text (entry (go_kindLUT k)))) else None
  | [VFieldList fs] =>
      if String.eqb f "GetEncodingFields" then
        option_map (fun '(ms, ss, vs) => VRec [("MessageFields"%string, VList (map VField ms)); ("SliceFields"%string, VList (map VField ss)); ("Values"%string, VList (map VText vs))])
          (encoding_fields fs [] [] [])
      else if String.eqb f "GetDecodingFields" then
        option_map (fun '(ms, ss, os) => VRec [("MessageFields"%string, VList (map VField ms)); ("SliceFields"%string, VList (map VField ss)); ("Other"%string, VList (map VField os))])
          (decoding_fields fs [] [] [])
      else None
  | _ => None
  end.

(** ---- ExecuteTemplate: generator.go 112-130, imports.go ---- *)
Record source := mksource { s_version : bytes; s_path : bytes; s_package : bytes; s_file : filed }.
Definition required_imports (v2 : bool) : list bytes :=
  [text (if v2 then "github.com/loopholelabs/polyglot/v2" else "github.com/loopholelabs/polyglot"); text "errors"].
Definition data (v2 header : bool) (s : source) : tval :=
  VRec [("pluginVersion"%string, VText (s_version s)); ("sourcePath"%string, VText (s_path s)); ("package"%string, VText (s_package s));
        ("requiredImports"%string, VList (map VText (required_imports v2)));
        ("enums"%string, VEnums (d_enums (s_file s))); ("messages"%string, VMsgs (d_msgs (s_file s))); ("header"%string, VTruth header)].
Definition templates (v2 : bool) : list (string * list node) :=
  match parse_files (go_templates v2) with Some t => t | None => [] end.
(** ExecuteTemplate: the text of the generated file; [fuel] bounds the nesting of templates.  Generate (generator.go 104)
    calls it with header = true; other plugins may leave the header out. *)
Definition go_text (v2 header : bool) (fuel : nat) (s : source) : option bytes :=
  run get_of call_of (templates v2) fuel "base.templ" (data v2 header s).
(** version/current_version and v2/version/current_version, which go:embed copies as they are (version.go 23-28) *)
Definition current_version (v2 : bool) : bytes := text (if v2 then "v2.0.5" else "v1.3.0") ++ [10].
