(** What the Rust templates call: the methods of protoreflect's descriptors, and the FuncMap of generator/rust/generator.go
    52-79 (v2/generator/rust: the same). *)
From Coq Require Import String.
From Verif Require Import Base Spec GenTables NameModel EmitModel GoEmit RsGenModel RsAst RsEmit RsTplText TplModel TplGo.
Local Open Scope list_scope.

(** Descriptors: as for Go, but for two methods.  FieldDescriptor.Message of a map is its entry message, of a message the
    message, which protoc does not allow to be a map entry; of other fields nil, with which a template stops. *)
Definition rs_get_of (v : tval) (n : string) (args : list tval) : option tval :=
  match v, args with
  | VField fd, [] =>
      if String.eqb n "Message" then
        match f_typ fd with
        | TMsg s => Some (VRec [("FullName"%string, VFull s); ("IsMapEntry"%string, VTruth false)])
        | TMap _ _ => Some (VRec [("IsMapEntry"%string, VTruth true)])
        | _ => None
        end
      else get_of v n args
  | _, _ => get_of v n args
  end.

(** getEncodingFields, structs.go 153-192; 170-178: the values *)
Definition rs_sprintf_value (encoder : string) (k : pkind) (name : bytes) : bytes :=
  if is_kind k KEnum then text encoder ++ text "(self." ++ SnakeCase name ++ text "  as u32)"
  else if is_string k || is_bytes k then text encoder ++ text "(&self." ++ SnakeCase name ++ text ")"
  else text encoder ++ text "(self." ++ SnakeCase name ++ text ")".
Fixpoint rs_encoding_fields (fs : list fieldd) (ms ss : list fieldd) (vs : list bytes) : option (list fieldd * list fieldd * list bytes) :=
  match fs with
  | [] => Some (ms, ss, vs)
  | fd :: fs =>
      if f_many fd && negb (is_map fd) then rs_encoding_fields fs ms (ss ++ [fd]) vs
      else match rs_encodeLUT (kind_of (f_typ fd)) with
           | None => match kind_of (f_typ fd) with KMessage => rs_encoding_fields fs (ms ++ [fd]) ss vs | _ => None end
           | Some e => rs_encoding_fields fs ms ss (vs ++ [rs_sprintf_value e (kind_of (f_typ fd)) (f_name fd)])
           end
  end.
(** getDecodingFields, structs.go 200-229 *)
Fixpoint rs_decoding_fields (fs : list fieldd) (ms ss os : list fieldd) : option (list fieldd * list fieldd * list fieldd) :=
  match fs with
  | [] => Some (ms, ss, os)
  | fd :: fs =>
      if f_many fd && negb (is_map fd) then rs_decoding_fields fs ms (ss ++ [fd]) os
      else match rs_decodeLUT (kind_of (f_typ fd)) with
           | None => match kind_of (f_typ fd) with KMessage => rs_decoding_fields fs (ms ++ [fd]) ss os | _ => None end
           | Some e => rs_decoding_fields fs ms ss (os ++ [fd])
           end
  end.
(** FuncMap: generator.go 52-79; [privacy]: the value of the option privacy (50) *)
Definition rs_call_of (privacy : bytes) (f : string) (args : list tval) : option tval :=
  match args with
  | [] => if String.eqb f "GeneratedFieldPrivacy" then Some (VText privacy) else None
  | [VFull s] => if String.eqb f "CamelCase" then option_map VText (of_res (CamelCase s)) else None
  | [VName s] => if String.eqb f "SnakeCaseName" then Some (VText (SnakeCase s)) else None
  | [VInt n] => if String.eqb f "MakeIterable" then if n <? 0 then None else Some (VList (repeat VStruct (Z.to_nat n))) else None
  | [VField fd] => if String.eqb f "FindValue" then option_map VText (of_res (rs_findValue (f_many fd) (f_typ fd))) else None
  | [VKind k] =>
      if String.eqb f "GetKind" then option_map (fun s => VText (text s)) (rs_getKind k)
      else if String.eqb f "GetLUTEncoder" then Some (VText (text (entry (rs_encodeLUT k))))
      else if String.eqb f "GetLUTDecoder" then Some (VText (text (entry (rs_decodeLUT k))))
      else if String.eqb f "GetKindLUT" then Some (VText (text (entry (rs_kindLUT k)))) else None
  | [VFieldList fs] =>
      if String.eqb f "GetEncodingFields" then
        option_map (fun '(ms, ss, vs) => VRec [("MessageFields"%string, VList (map VField ms)); ("SliceFields"%string, VList (map VField ss)); ("Values"%string, VList (map VText vs))])
          (rs_encoding_fields fs [] [] [])
      else if String.eqb f "GetDecodingFields" then
        option_map (fun '(ms, ss, os) => VRec [("MessageFields"%string, VList (map VField ms)); ("SliceFields"%string, VList (map VField ss)); ("Other"%string, VList (map VField os))])
          (rs_decoding_fields fs [] [] [])
      else None
  | _ => None
  end.

(** ExecuteTemplate, generator.go 132-165: the text before rustfmt formats it (rustfmt changes the layout only; when it fails
    the generator does, C90) *)
Record rsource := mkrsource { rs_version : bytes; rs_path : bytes; rs_package : bytes; rs_privacy : bytes; rs_deps : deps; rs_source_file : filed }.
Definition rs_data (header : bool) (s : rsource) : tval :=
  VRec [("pluginVersion"%string, VText (rs_version s)); ("sourcePath"%string, VText (rs_path s)); ("package"%string, VText (rs_package s));
        ("enums"%string, VEnums (d_enums (rs_source_file s))); ("messages"%string, VMsgs (d_msgs (rs_source_file s))); ("header"%string, VTruth header);
        ("dependencies"%string, VRec [("Enums"%string, VTruth (Enums (rs_deps s))); ("Maps"%string, VTruth (Maps (rs_deps s)))])].
Definition rs_parsed : list (string * list node) := match parse_files rs_templates with Some t => t | None => [] end.
Definition rs_file_text (header : bool) (fuel : nat) (s : rsource) : option bytes :=
  run rs_get_of (rs_call_of (rs_privacy s)) rs_parsed fuel "base.templ" (rs_data header s).
