(** The headers of the Rust and TypeScript files.  Only base.templ (head.templ) and headers.templ are modelled: the other
    templates, the functions they call and the rest of their data are arbitrary. *)
From Coq Require Import String Ascii.
From Verif Require Import Base Spec EmitModel TplModel TplGo.
Local Open Scope list_scope.

(** generator/rust/templates/base.templ (v2: the same) *)
Definition rs_base : string := "{{template ""headers"" .}}

{{template ""imports"" .}}

{{template ""enums"" .}}

{{template ""messages"" .}}
".
(** generator/rust/templates/headers.templ, generator/typescript/templates/headers.templ (v2: the same) *)
Definition rs_headers : string := "{{define ""headers""}}
// Code generated by polyglot {{ .pluginVersion }}, DO NOT EDIT.
// source: {{ .sourcePath }}
{{end}}".
(** generator/typescript/templates/head.templ (v2: the same) *)
Definition ts_head : string := "{{template ""headers"" .}}

{{template ""imports"" .}}".
Definition parsed (l : list (string * string)) : list (string * list node) := match parse_files l with Some t => t | None => [] end.
(** ExecuteTemplate: generator/rust/generator.go 140-152 (before rustfmt); [others]: the templates of the other files *)
Definition rs_text (call : string -> list tval -> option tval) (others : list (string * list node)) (fuel : nat) (version path : bytes) (rest : list (string * tval)) : option bytes :=
  run get_of call (parsed [("base.templ", rs_base); ("headers.templ", rs_headers)]%string ++ others) fuel "base.templ"
    (VRec (("pluginVersion"%string, VText version) :: ("sourcePath"%string, VText path) :: rest)).
(** ExecuteTemplate: generator/typescript/generator.go 144-166: head.templ, then [body], the text of body.templ *)
Definition ts_text (call : string -> list tval -> option tval) (others : list (string * list node)) (fuel : nat) (version path : bytes) (rest : list (string * tval)) (body : bytes) : option bytes :=
  option_map (fun h => h ++ body)
  (run get_of call (parsed [("head.templ", ts_head); ("headers.templ", rs_headers)]%string ++ others) fuel "head.templ"
    (VRec (("pluginVersion"%string, VText version) :: ("sourcePath"%string, VText path) :: rest))).

Definition RS : list (string * list node) := Eval vm_compute in parsed [("base.templ", rs_base); ("headers.templ", rs_headers)]%string.
Definition TS : list (string * list node) := Eval vm_compute in parsed [("head.templ", ts_head); ("headers.templ", rs_headers)]%string.
Lemma RS_ok : parsed [("base.templ", rs_base); ("headers.templ", rs_headers)]%string = RS. Proof. vm_compute. reflexivity. Qed.
Lemma TS_ok : parsed [("head.templ", ts_head); ("headers.templ", rs_headers)]%string = TS. Proof. vm_compute. reflexivity. Qed.
Lemma both_first a b l : both a b = Some l -> exists x y, a = Some x /\ l = x ++ y.
Proof. destruct a, b; cbn; intros E; try discriminate E. injection E as <-. eauto. Qed.
Definition header_text (version path : bytes) : bytes :=
  text "
// Code generated by polyglot " ++ version ++ text ", DO NOT EDIT.
// source: " ++ path ++ text "
".
Arguments text : simpl never.
Lemma headers_run T n call version path rest : find_str "headers" T = find_str "headers" RS -> run get_of call T (S n) "headers" (VRec (("pluginVersion"%string, VText version) :: ("sourcePath"%string, VText path) :: rest)) = Some (header_text version path).
Proof. intros E. cbn [run]. rewrite E. cbn. unfold header_text. rewrite app_nil_r. reflexivity. Qed.
Lemma rs_starts call others fuel version path rest l : rs_text call others fuel version path rest = Some l -> exists t, l = header_text version path ++ t.
Proof.
  unfold rs_text. rewrite RS_ok. destruct fuel as [|fuel]; [discriminate|]. cbn [run]. change (find_str "base.templ" (RS ++ others)) with (find_str "base.templ" RS). cbn [find_str RS fst snd String.eqb Ascii.eqb Bool.eqb]. cbn [exec_list exec eval].
  intros E. apply both_first in E. destruct E as (x & y & E1 & ->). destruct fuel as [|fuel]; [discriminate E1|]. rewrite headers_run in E1 by reflexivity. injection E1 as <-. eauto.
Qed.
Lemma ts_starts call others fuel version path rest body l : ts_text call others fuel version path rest body = Some l -> exists t, l = header_text version path ++ t.
Proof.
  unfold ts_text. rewrite TS_ok. destruct fuel as [|fuel]; [discriminate|]. cbn [run]. change (find_str "head.templ" (TS ++ others)) with (find_str "head.templ" TS). cbn [find_str TS fst snd String.eqb Ascii.eqb Bool.eqb]. cbn [exec_list exec eval].
  match goal with |- option_map _ ?o = _ -> _ => destruct o as [h|] eqn:E end; [|discriminate]. intros H. cbn [option_map] in H. injection H as <-. apply both_first in E. destruct E as (x & y & E1 & ->). destruct fuel as [|fuel]; [discriminate E1|]. rewrite headers_run in E1 by reflexivity. injection E1 as <-.
  exists (y ++ body). rewrite app_assoc. reflexivity.
Qed.
