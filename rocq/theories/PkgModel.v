(** Model of Generator.Generate and ExecuteTemplate of the Go generator, generator/golang/generator.go 85-128
    (v2/generator/golang/generator.go: the same), with headers.go, imports.go and the templates base, headers
    and imports.

    What protogen (a dependency) computes is the input: the files of the request in its order, their output
    prefix, their packages and whether protoc asked for them.  A file is represented by its package clause,
    its imports and its declarations (EmitModel), not by its characters.  A panic in a template function
    becomes an error of ExecuteTemplate (text/template recovers it). *)
From Coq Require Import String.
From Verif Require Import Base Utf8 NameModel GenTables EmitModel.

(** protogen.File: GeneratedFilenamePrefix, Desc.Package(), GoPackageName, GoImportPath, Generate, Desc *)
Record protofile := mkproto
  { p_prefix : bytes; p_package : bytes; p_goname : bytes; p_gopath : bytes; p_generate : bool; p_desc : filed }.
(** protogen.GeneratedFile: its name and Go import path; the package clause and imports (base.templ 1-5, only
    with header), and the declarations (base.templ 7-11) *)
Record gofile := mkgofile
  { o_name : bytes; o_path : bytes; o_header : option (bytes * list (bytes * bytes)); o_decls : list godecl }.

(** protoreflect.FullName.Name(): what follows the last dot *)
Fixpoint last_name (s : bytes) : bytes :=
  match s with
  | [] => []
  | c :: t => if existsb (Z.eqb 46) (c :: t) then last_name t else c :: t
  end.
(** headers.go FileName, defaults.go Extension *)
Definition FileName (name : bytes) : bytes := AppendString [name; text ".polyglot.go"].
(** imports.go RequiredImports: path, and the name of the package found there (buffer.go 17, v2/buffer.go 17:
    package polyglot) *)
Definition RequiredImports (v2 : bool) : list (bytes * bytes) :=
  [(text (if v2 then "github.com/loopholelabs/polyglot/v2" else "github.com/loopholelabs/polyglot"), text "polyglot");
   (text "errors", text "errors")].
(** whether the template functions called for a declaration return *)
Definition returned (r : res bytes) : bool := match r with Ok _ => true | Panic => false end.
Definition rendered (d : godecl) : bool :=
  match d with
  | GoMap _ k v => returned k && returned v
  | GoStruct _ fs => forallb (fun f => returned (snd f)) fs
  | _ => true
  end.
(** generator.go 113-128; the name and path of the file are set by NewGeneratedFile, 95 *)
Definition ExecuteTemplate (v2 : bool) (name path : bytes) (f : filed) (package : bytes) (header : bool) : option gofile :=
  let ds := go_file v2 f in
  if forallb rendered ds then Some (mkgofile name path (if header then Some (package, RequiredImports v2) else None) ds) else None.
(** generator.go 97-100 *)
Definition package_name (f : protofile) : bytes :=
  match last_name (p_package f) with [] => p_goname f | n => n end.
(** generator.go 85-111 *)
Fixpoint Generate (v2 : bool) (files : list protofile) : option (list gofile) :=
  match files with
  | [] => Some []
  | f :: files =>
      if negb (p_generate f) then Generate v2 files
      else
        match ExecuteTemplate v2 (FileName (p_prefix f)) (p_gopath f) (p_desc f) (package_name f) true with
        | None => None
        | Some o => match Generate v2 files with None => None | Some os => Some (o :: os) end
        end
  end.

(** The packages a declaration refers to: errors.templ 3 (errors.New); structs.templ error, encode.templ 2,
    decode.templ 2-11, encodeMap.templ 2, decodeMap.templ 2 (polyglot.Buffer, polyglot.Decoder, ...) *)
Definition qualifiers (d : godecl) : list bytes :=
  match d with GoVar _ => [text "errors"] | GoMethod _ _ => [text "polyglot"] | _ => [] end.
