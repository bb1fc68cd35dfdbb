(** The model of text/template (TplModel), which C95, C96, C99 and C100 execute the templates with, on templates written by hand:
    what the documentation of the package (https://pkg.go.dev/text/template) says comes out. *)
From Coq Require Import String Ascii.
From Verif Require Import Base Spec GenTables NameModel EmitModel TplModel.
Local Open Scope list_scope.
Local Open Scope string_scope.
(** data: a map with a number, texts, a list and a map; fields of maps; one function *)
Definition data : tval :=
  VRec [("n", VInt 42); ("s", VText (text "str")); ("e", VText []); ("l", VList [VText (text "a"); VText (text "b")]); ("none", VList []);
        ("m", VRec [("k1", VInt 1); ("k2", VInt 0)]); ("k", VKind KEnum)].
Definition field (v : tval) (n : string) (args : list tval) : option tval := match v, args with VRec fs, [] => find_str n fs | _, _ => None end.
Definition twice (f : string) (args : list tval) : option tval :=
  match args with [VText s] => if String.eqb f "Twice" then Some (VText (s ++ s)%list) else None | _ => None end.
Definition shows (template out : string) : bool :=
  match parse_file "t" template with
  | Some T => match run field twice T 5 "t" data with Some l => if list_eq_dec Z.eq_dec l (text out) then true else false | None => false end
  | None => false
  end.
(** neither parses and runs *)
Definition is_error (template : string) : bool :=
  match parse_file "t" template with Some T => match run field twice T 5 "t" data with Some _ => false | None => true end | None => true end.

(** Text and spaces: the example of the documentation; trim markers take all white space next to them, newlines too; without a
    marker nothing is taken.  A comment after a trim marker is one in Go, and is rejected here: no template has one. *)
Example by_hand_trim :
  shows "{{23 -}} < {{- 45}}" "23<45" = true /\ shows "{{23}} < {{45}}" "23 < 45" = true /\ shows "a {{-3}}" "a3" = false /\ shows "{ {{ 1 }} }" "{ 1 }" = true /\
  shows "a
  {{- ""-"" -}}

  b" "a-b" = true /\ shows "a {{/* a comment */ -}}  b" "a b" = true /\ is_error "{{- /* a comment */}}" = true.
Proof. vm_compute. repeat split. Qed.
(** if: empty texts, 0, empty lists are false; else if; and, or; eq of kinds with numbers; not *)
Example by_hand_if :
  shows "{{if .e}}A{{else if .n}}B{{else}}C{{end}}" "B" = true /\ shows "{{if .e}}A{{else if .none}}B{{else}}C{{end}}" "C" = true /\
  shows "{{if .l}}A{{end}}{{if .m.k2}}B{{end}}{{if not .m.k2}}C{{end}}" "AC" = true /\
  shows "{{if and .n .e}}A{{else}}B{{end}}{{if or .e .s}}A{{else}}B{{end}}" "BA" = true /\ shows "{{and .n .s}}{{or .e .s}}{{or .m.k2 7}}" "strstr7" = true /\ shows "{{and .e .n}}{{and .m.k2 .missing}}" "0" = true /\ shows "{{or .s .n}}{{or 1 .missing}}" "str1" = true /\
  shows "{{if and (eq .s ""str"") (eq .k 14)}}A{{end}}{{if ne .k 11}}B{{end}}{{if eq .n 41}}C{{end}}" "AB" = true.
Proof. vm_compute. repeat split. Qed.
(** Variables live up to the end of their block, and an inner one hides an outer one; $ is the data, in range the dot is the
    element, in a template what it was given *)
Example by_hand_scope :
  shows "{{$x := 1}}{{if .n}}{{$x := 2}}{{$x}}{{end}}{{$x}}" "21" = true /\ is_error "{{if .n}}{{$x := 2}}{{end}}{{$x}}" = true /\
  shows "{{range $i, $v := .l}}{{$i}}{{$v}}{{.}}{{$.n}} {{end}}" "0aa42 1bb42 " = true /\ shows "{{range $v := .none}}A{{end}}" "" = true /\
  shows "{{range $k, $v := .m}}{{$k}}={{$v}};{{end}}" "k1=1;k2=0;" = true /\ shows "{{range $v := .l}}{{range $w := $.l}}{{$v}}{{$w}} {{end}}{{end}}" "aa ab ba bb " = true /\
  is_error "{{range $v := .l}}{{.n}}{{end}}" = true /\ is_error "{{range $v := .l}}{{.}}" = true.
Proof. vm_compute. repeat split. Qed.
(** define, template, calls of functions, errors *)
Example by_hand_calls :
  shows "{{define ""d""}}<{{.}}{{$}}>{{end}}{{template ""d"" .s}}{{range $v := .l}}{{template ""d"" $v}}{{end}}" "<strstr><aa><bb>" = true /\
  is_error "{{define ""d""}}{{$x}}{{end}}{{$x := 1}}{{template ""d"" .s}}" = true /\ is_error "{{template ""d"" .}}" = true /\
  shows "{{Twice .s}}{{Twice (Twice ""x"")}}" "strstrxxxx" = true /\ is_error "{{Twice .n}}" = true /\ is_error "{{Thrice .s}}" = true /\
  is_error "{{.missing}}" = true /\ is_error "{{end}}" = true /\ is_error "{{if .n}}" = true /\ is_error "{{define ""d""}}{{template ""d"" .}}{{end}}{{template ""d"" .}}" = true.
Proof. vm_compute. repeat split. Qed.
