(** What the TypeScript templates call: the methods of protoreflect's descriptors, and the FuncMap of
    generator/typescript/generator.go 45-89 (v2/generator/typescript: the same).

    The functions also record in g.dependencies the names that are to be imported; what they record is in TsGenModel, and is
    the argument [deps] of [ts_head_data] here. *)
From Coq Require Import String Ascii.
From Verif Require Import Base Spec GenTables NameModel EmitModel TsGenModel GoEmit TsTplText TplModel TplGo.
Local Open Scope list_scope.

(** strings.TrimSuffix *)
Definition TrimSuffix (s suffix : bytes) : bytes :=
  if list_eq_dec Z.eq_dec (skipn (length s - length suffix) s) suffix then firstn (length s - length suffix) s else s.
Section Call.
(** unicode.ToLower outside ASCII *)
Variable other : Z -> Z.
Definition lower (s : bytes) : bytes := LowercaseCamelCase other s.
(** getEncodingFields, structs.go 152-183; 169-173: the values *)
Definition ts_sprintf_value (encoder : string) (k : pkind) (name : bytes) : bytes :=
  if is_kind k KEnum then text encoder ++ text "(encoded, this." ++ lower name ++ text " as number)"
  else text encoder ++ text "(encoded, this." ++ lower name ++ text ")".
Fixpoint ts_encoding_fields (fs : list fieldd) (ms ss : list fieldd) (vs : list bytes) : option (list fieldd * list fieldd * list bytes) :=
  match fs with
  | [] => Some (ms, ss, vs)
  | fd :: fs =>
      if f_many fd && negb (is_map fd) then ts_encoding_fields fs ms (ss ++ [fd]) vs
      else match ts_encodeLUT (kind_of (f_typ fd)) with
           | None => match kind_of (f_typ fd) with KMessage => ts_encoding_fields fs (ms ++ [fd]) ss vs | _ => None end
           | Some e => ts_encoding_fields fs ms ss (vs ++ [ts_sprintf_value e (kind_of (f_typ fd)) (f_name fd)])
           end
  end.
(** getDecodingFields, structs.go 191-219 *)
Fixpoint ts_decoding_fields (fs : list fieldd) (ms ss os : list fieldd) : option (list fieldd * list fieldd * list fieldd) :=
  match fs with
  | [] => Some (ms, ss, os)
  | fd :: fs =>
      if f_many fd && negb (is_map fd) then ts_decoding_fields fs ms (ss ++ [fd]) os
      else match ts_decodeLUT (kind_of (f_typ fd)) with
           | None => match kind_of (f_typ fd) with KMessage => ts_decoding_fields fs (ms ++ [fd]) ss os | _ => None end
           | Some e => ts_decoding_fields fs ms ss (os ++ [fd])
           end
  end.
(** FuncMap: generator.go 45-89 *)
Definition ts_call_of (f : string) (args : list tval) : option tval :=
  match args with
  | [VFull s] => if String.eqb f "CamelCase" || String.eqb f "CamelCaseFullName" then option_map VText (of_res (CamelCase s)) else None
  | [VName s] => if String.eqb f "LowercaseCamelCaseName" then Some (VText (lower s)) else None
  | [VInt n] => if String.eqb f "MakeIterable" then if n <? 0 then None else Some (VList (repeat VStruct (Z.to_nat n))) else None
  | [VText s] => if String.eqb f "TrackDependency" then Some (VText s) else None
  | [VText s; VText t] => if String.eqb f "TrimSuffix" then Some (VText (TrimSuffix s t)) else None
  | [VField fd] => if String.eqb f "FindValue" then option_map VText (of_res (ts_findValue (f_many fd) (f_typ fd))) else None
  | [VKind k] =>
      if String.eqb f "GetKind" then option_map (fun s => VText (text s)) (ts_getKind k)
      else if String.eqb f "GetLUTEncoder" then Some (VText (text (entry (ts_encodeLUT k))))
      else if String.eqb f "GetLUTDecoder" then Some (VText (text (entry (ts_decodeLUT k))))
      else if String.eqb f "GetKindLUT" then Some (VText (text (entry (ts_kindLUT k)))) else None
  | [VFieldList fs] =>
      if String.eqb f "GetEncodingFields" then
        option_map (fun '(ms, ss, vs) => VRec [("MessageFields"%string, VList (map VField ms)); ("SliceFields"%string, VList (map VField ss)); ("Values"%string, VList (map VText vs))])
          (ts_encoding_fields fs [] [] [])
      else if String.eqb f "GetDecodingFields" then
        option_map (fun '(ms, ss, os) => VRec [("MessageFields"%string, VList (map VField ms)); ("SliceFields"%string, VList (map VField ss)); ("Other"%string, VList (map VField os))])
          (ts_decoding_fields fs [] [] [])
      else None
  | _ => None
  end.
End Call.

(** ---- ExecuteTemplate: generator.go 139-166 ---- *)
(** the keys of g.dependencies in the order in which text/template visits them: bytewise, each once *)
Fixpoint before_str (a b : string) : bool :=
  match a, b with
  | String x a, String y b => if ascii_dec x y then before_str a b else N.ltb (N_of_ascii x) (N_of_ascii y)
  | EmptyString, String _ _ => true
  | _, EmptyString => false
  end.
Fixpoint insert_key (k : string) (l : list string) : list string :=
  match l with
  | [] => [k]
  | m :: l' => if String.eqb k m then l else if before_str k m then k :: l else m :: insert_key k l'
  end.
Definition keys (d : deps) : list string := fold_right insert_key [] d.
Record tsource := mktsource { ts_version : bytes; ts_path : bytes; ts_package : bytes; ts_source_file : filed }.
(** 146-149 *)
Definition ts_body_data (s : tsource) : tval :=
  VRec [("enums"%string, VEnums (d_enums (ts_source_file s))); ("messages"%string, VMsgs (d_msgs (ts_source_file s)))].
(** 154-160 *)
Definition ts_head_data (header : bool) (s : tsource) (d : deps) : tval :=
  VRec [("pluginVersion"%string, VText (ts_version s)); ("sourcePath"%string, VText (ts_path s)); ("package"%string, VText (ts_package s));
        ("header"%string, VTruth header); ("dependencies"%string, VRec (map (fun k => (k, VStruct)) (keys d)))].
Definition ts_parsed : list (string * list node) := match parse_files ts_templates with Some t => t | None => [] end.
(** the text of a generated file, given the dependencies once the body has been executed: head, then body *)
Definition ts_file_text (other : Z -> Z) (header : bool) (fuel : nat) (s : tsource) (d : deps) : option bytes :=
  match run get_of (ts_call_of other) ts_parsed fuel "body.templ" (ts_body_data s) with
  | Some b =>
      match run get_of (ts_call_of other) ts_parsed fuel "head.templ" (ts_head_data header s d) with
      | Some h => Some (h ++ b)
      | None => None
      end
  | None => None
  end.
