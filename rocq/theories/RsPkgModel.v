(** Model of Generator.Generate and ExecuteTemplate of the Rust generator, generator/rust/generator.go 114-180,
    headers.go, imports.go (DependencyAnalysis, on descriptors) and the templates base and imports
    (v2/generator/rust: the same).

    What protogen computes is the input (files, prefixes, all messages by full name).  rustfmt is a parameter:
    whether it accepts the text of a file; what it writes has the same declarations.  The depth of the
    recursion of traverseFields is bounded by fuel; running out of it is a stack overflow. *)
From Coq Require Import String.
From Verif Require Import Base Utf8 NameModel GenTables EmitModel PkgModel.

(** protogen.File: GeneratedFilenamePrefix, GoImportPath, Generate, Desc *)
Record rsproto := mkrsproto { r_prefix : bytes; r_generate : bool; r_desc : filed }.
(** a generated file: name, imported names, declarations *)
Record rsfile := mkrsfile { q_name : bytes; q_imports : list bytes; q_decls : list rsdecl }.
(** imports.go 24-27 *)
Record rsdeps := mkdeps { dep_enums : bool; dep_maps : bool }.

Section Request.
Variable messages_by_name : list msgd.        (* every message of the request *)
Variable rustfmt : rsfile -> bool.
(** FieldDescriptor.Message() of a field that is no map *)
Definition message_named (s : bytes) : option msgd :=
  find (fun m => if list_eq_dec Z.eq_dec (m_full m) s then true else false) messages_by_name.
(** imports.go 53-65; the fields of a map's entry message are key and value *)
Fixpoint traverseFields (fuel : nat) (fields : list ftyp) (d : bool) : option bool :=
  match fuel with
  | O => None
  | Datatypes.S fuel =>
      (fix each (ts : list ftyp) (d : bool) : option bool :=
         match ts with
         | [] => Some d
         | t :: ts =>
             match t with
             | TMap k v => match traverseFields fuel [k; v] true with None => None | Some d => each ts d end
             | TMsg s =>
                 match message_named s with
                 | Some m => match m_fields m with
                             | [] => each ts d
                             | f :: fs => match traverseFields fuel (map f_typ (f :: fs)) d with None => None | Some d => each ts d end
                             end
                 | None => each ts d
                 end
             | _ => each ts d
             end
         end) fields d
  end.
(** imports.go 29-51: the loop over the fields of a top-level message is that of traverseFields *)
Fixpoint top_messages (fuel : nat) (ms : list msgd) (d : bool) : option bool :=
  match ms with
  | [] => Some d
  | m :: ms => match traverseFields fuel (map f_typ (m_fields m)) d with None => None | Some d => top_messages fuel ms d end
  end.
Definition DependencyAnalysis (fuel : nat) (f : filed) : option rsdeps :=
  match top_messages fuel (d_msgs f) false with
  | None => None
  | Some m => Some (mkdeps (match d_enums f with [] => false | _ => true end) m)
  end.
(** imports.templ *)
Definition rs_imports (d : rsdeps) : list bytes :=
  [text "Cursor"; text "DecodingError"; text "Encoder"; text "Decoder"; text "Kind"] ++
  (if dep_enums d then [text "TryFromPrimitive"; text "TryFrom"] else []) ++
  (if dep_maps d then [text "HashMap"] else []).
(** headers.go FileName *)
Definition RsFileName (name : bytes) : bytes := AppendString [name; text "_polyglot.rs"].
Definition rs_rendered (d : rsdecl) : bool :=
  match d with RsStruct _ fs => forallb (fun f => returned (snd f)) fs | _ => true end.
Inductive outcome (A : Type) := Done (a : A) | Failed | Overflow.
(** generator.go 143-180 *)
Definition RsExecuteTemplate (fuel : nat) (name : bytes) (f : filed) : outcome rsfile :=
  match DependencyAnalysis fuel f with
  | None => Overflow _
  | Some d =>
      if forallb rs_rendered (rs_file f) then
        let o := mkrsfile name (rs_imports d) (rs_file f) in
        if rustfmt o then Done _ o else Failed _
      else Failed _
  end.
(** generator.go 114-141 *)
Fixpoint RsGenerate (fuel : nat) (files : list rsproto) : outcome (list rsfile) :=
  match files with
  | [] => Done _ []
  | f :: files =>
      if negb (r_generate f) then RsGenerate fuel files
      else
        match RsExecuteTemplate fuel (RsFileName (r_prefix f)) (r_desc f) with
        | Done _ o => match RsGenerate fuel files with Done _ os => Done _ (o :: os) | Failed _ => Failed _ | Overflow _ => Overflow _ end
        | Failed _ => Failed _
        | Overflow _ => Overflow _
        end
  end.
End Request.

(** structs.templ 13-21: the visibility of fields, by the option privacy *)
Inductive visibility := Private | Public | Crate.
Definition field_visibility (privacy : bytes) : visibility :=
  if list_eq_dec Z.eq_dec privacy (text "private") then Private
  else if list_eq_dec Z.eq_dec privacy (text "public") then Public
  else Crate.
(** generator.go 53: the default of the option *)
Definition default_privacy : bytes := text "private".
