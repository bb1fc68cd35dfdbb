(** C101: reading the text of a generated Go file. *)
From Coq Require Import String Ascii.
From Verif Require Import Base Spec GoSpec BufSpec GenTables GenModel GenSpec GenTrace TraceSpec NameModel NameSpec EmitModel EmitSpec EmitThms GoAst GoEmit GoRunSpec GoCallSpec TplText TplModel TplGo GoLex GoLexThms TplSpec TplThms10 GoParse GoParseThms5 GoTypesSpec GoTypes.
From Verif Require V1Model V2Model PropGoRun PropTpl PropGoTypes.
Local Open Scope list_scope.

(** For every file whose names are Go names and whose enums have at most 2^32 values: executing the templates succeeds; the
    text, split into tokens by Go's lexical rules and parsed by Go's grammar, is a file with the package clause, the imports and,
    declaration by declaration, statement by statement, the program [go_program] that C92, C93 and C94 are about (without what is
    not syntax).  No bound of the parser's depth gives another reading. *)
Theorem c101_reading : forall v2 s fuel, nameable (s_file s) -> enums_fit (s_file s) -> package_name (s_package s) ->
  one_line (s_version s) -> one_line (s_path s) -> (depth (s_file s) + 4 <= fuel)%nat ->
  exists l, go_text v2 true fuel s = Some l /\
    (exists n0, forall n, (n0 <= n)%nat -> p_file v2 n (go_tokens l) = Some (s_package s, required_imports v2, map syntax (go_program v2 (s_file s)))) /\
    forall n r, p_file v2 n (go_tokens l) = Some r -> r = (s_package s, required_imports v2, map syntax (go_program v2 (s_file s))).
Proof.
  intros v2 s fuel F EF P V H D. destruct (text_header v2 s fuel F D V H P) as (l & E & T). exists l. split; [exact E|].
  destruct (text_read v2 (s_package s) (required_imports v2) (s_file s) F (ident_name _ (proj1 P) (proj2 P)) EF l T) as ((n0 & A) & B & _). split; [|exact B].
  exists n0. intros n L. apply (A n L).
Qed.
(** The program that a text is, with the calls which the stack model counts marked by a rule that only looks at the program: it is
    [go_program], and is that at every sufficient depth. *)
Theorem c101_program : forall v2 s fuel, nameable (s_file s) -> enums_fit (s_file s) -> package_name (s_package s) ->
  one_line (s_version s) -> one_line (s_path s) -> (depth (s_file s) + 4 <= fuel)%nat ->
  exists l, go_text v2 true fuel s = Some l /\ (exists n0, forall n, (n0 <= n)%nat -> read_program v2 n l = Some (go_program v2 (s_file s))) /\
    forall n P, read_program v2 n l = Some P -> P = go_program v2 (s_file s).
Proof.
  intros v2 s fuel F EF P V H D. destruct (text_header v2 s fuel F D V H P) as (l & E & T). exists l. split; [exact E|].
  destruct (text_read v2 (s_package s) (required_imports v2) (s_file s) F (ident_name _ (proj1 P) (proj2 P)) EF l T) as ((n0 & A) & _ & B). split; [|exact B].
  exists n0. intros n L. apply (A n L).
Qed.

(** So the theorems about [go_program] are theorems about the text.  The round trip through memory, version 2: write the file,
    read the text, run the program that it is: Encode what v points at; then, in any memory, make a struct and Decode the bytes
    into it: it holds what v pointed at. *)
Theorem c101_v2_text_round_trip : forall W g s fuel txt depth_of_parser P m mi v xs st1 buf l r n,
  nameable (s_file s) -> enums_fit (s_file s) -> package_name (s_package s) -> one_line (s_version s) -> one_line (s_path s) -> (depth (s_file s) + 4 <= fuel)%nat ->
  go_text true true fuel s = Some txt -> read_program true depth_of_parser txt = Some P ->
  names_apart true (s_file s) -> compiles (schema_of (s_file s)) = true ->
  nth_error (messages_of (s_file s)) mi = Some m -> pointer_to (messages_of (s_file s)) m (heap st1) (Some xs) v -> struct_type (schema_of (s_file s)) xs mi ->
  readable (schema_of (s_file s)) (GMsg (Some xs)) (One (Msg mi)) -> tidy false (GMsg (Some xs)) -> small_bytes (prims (GMsg (Some xs))) ->
  V2Model.wf buf -> V2Model.Bytes buf = Ok l -> bytes_ok r -> (GenSpec.depth (GMsg (Some xs)) <= n)%nat ->
  let run := fun n recv name args s => call_go P unlimited (fun dst => V2Model.decode W (V1Model.oget dst)) n recv (text name) args s in
  exists cs buf' bs, run n (Some (gotype m)) ".Encode"%string [v; GoBuffer] st1 = Fine ([], encoded st1 cs) /\
    V2Model.encode_all g buf cs = Ok buf' /\ V2Model.Bytes buf' = Ok (l ++ bs) /\
    (int_ok W (bs ++ r) -> forall s1, exists a s2 s3,
      call_go P unlimited (fun dst => V2Model.decode W (V1Model.oget dst)) (S n) None (new_name (gotype m)) [] s1 = Fine ([GoPtr (gotype m) (Some a)], s2) /\
      run (S n) (Some (gotype m)) ".Decode"%string [GoPtr (gotype m) (Some a); GoBase (VBytes (bs ++ r))] s2 = Fine ([GoNil], s3) /\
      inp s3 = r /\ made_anew (s_file s) m xs a (heap s1) (heap s3)).
Proof.
  intros W g s fuel txt k P m mi v xs st1 buf l r n F EF PK V H D T R NA CO Hm Hp HT Hr Ht Hs HW HB Hb Hn.
  destruct (c101_program true s fuel F EF PK V H D) as (l' & E & _ & U). rewrite T in E. injection E as <-. rewrite (U k P R). clear U R P.
  exact (PropGoRun.c93_v2_round_trip W g (s_file s) m mi v xs st1 buf l r n NA CO Hm Hp HT Hr Ht Hs HW HB Hb Hn).
Qed.
(** And version 1: for messages without nil, with a stack on which every New returns. *)
Theorem c101_v1_text_round_trip : forall W g s fuel txt depth_of_parser P m mi v xs st1 buf r K n,
  nameable (s_file s) -> enums_fit (s_file s) -> package_name (s_package s) -> one_line (s_version s) -> one_line (s_path s) -> (depth (s_file s) + 4 <= fuel)%nat ->
  go_text false true fuel s = Some txt -> read_program false depth_of_parser txt = Some P ->
  names_apart false (s_file s) -> compiles (schema_of (s_file s)) = true -> new_ok (schema_of (s_file s)) K ->
  nth_error (messages_of (s_file s)) mi = Some m -> pointer_to (messages_of (s_file s)) m (heap st1) (Some xs) v -> struct_type (schema_of (s_file s)) xs mi ->
  readable (schema_of (s_file s)) (GMsg (Some xs)) (One (Msg mi)) -> no_nil (GMsg (Some xs)) ->
  V1Model.wf buf -> bytes_ok r -> (GenSpec.depth (GMsg (Some xs)) + K <= n)%nat ->
  let run := fun n recv name args s => call_go P unlimited (V1Model.decode W) n recv (text name) args s in
  exists cs buf' bs, run n (Some (gotype m)) ".Encode"%string [v; GoBuffer] st1 = Fine ([], encoded st1 cs) /\
    V1Model.encode_all g buf cs = Ok buf' /\ V1Model.Bytes buf' = V1Model.Bytes buf ++ bs /\
    (int_ok W (bs ++ r) -> forall s1, exists a s2 s3,
      call_go P unlimited (V1Model.decode W) (S n) None (new_name (gotype m)) [] s1 = Fine ([GoPtr (gotype m) (Some a)], s2) /\
      run (S n) (Some (gotype m)) ".Decode"%string [GoPtr (gotype m) (Some a); GoBase (VBytes (bs ++ r))] s2 = Fine ([GoNil], s3) /\
      inp s3 = r /\ made_anew (s_file s) m xs a (heap s1) (heap s3)).
Proof.
  intros W g s fuel txt k P m mi v xs st1 buf r K n F EF PK V H D T R NA CO NO Hm Hp HT Hr Ht HB Hb Hn.
  destruct (c101_program false s fuel F EF PK V H D) as (l' & E & _ & U). rewrite T in E. injection E as <-. rewrite (U k P R). clear U R P.
  exact (PropGoRun.c93_v1_round_trip W g (s_file s) m mi v xs st1 buf r K n NA CO NO Hm Hp HT Hr Ht HB Hb Hn).
Qed.
(** Hostile input, version 2: if the program read from the text type checks and no message is made without reading, there is a
    depth per byte of input that is enough: Decode of any bytes into any message returns nil or an error, or panics
    (C92); it does not run for ever, and no statement is stuck. *)
Theorem c101_v2_text_safe : forall W s fuel txt k P,
  nameable (s_file s) -> enums_fit (s_file s) -> package_name (s_package s) -> one_line (s_version s) -> one_line (s_path s) -> (depth (s_file s) + 4 <= fuel)%nat ->
  go_text true true fuel s = Some txt -> read_program true k txt = Some P ->
  names_apart true (s_file s) -> keys_legal (s_file s) -> no_uint32 (s_file s) -> type_checks true P = true ->
  (forall m, (m < List.length (schema_of (s_file s)))%nat -> well_founded_at true (schema_of (s_file s)) m) ->
  exists R, forall m mi a xs fp b n st1, nth_error (messages_of (s_file s)) mi = Some m -> struct_at (messages_of (s_file s)) (heap st1) a m xs fp ->
    struct_type (schema_of (s_file s)) xs mi -> bytes_ok b -> int_ok W b -> ((List.length b + 1) * R <= n)%nat ->
    let r := call_go P unlimited (fun dst => V2Model.decode W (V1Model.oget dst)) (S n) (Some (gotype m)) (text ".Decode") [GoPtr (gotype m) (Some a); GoBase (VBytes b)] st1 in
    r = Panics \/ exists v st2, r = Fine ([v], st2) /\ (v = GoNil \/ exists e, v = GoError (Some e)).
Proof.
  intros W s fuel txt k P F EF PK V H D T R NA KL NU TC WF. destruct (c101_program true s fuel F EF PK V H D) as (l' & E & _ & U). rewrite T in E. injection E as <-.
  rewrite (U k P R) in *. exact (PropGoTypes.c94_v2_safe W (s_file s) NA KL NU TC WF).
Qed.
(** and version 1 *)
Theorem c101_v1_text_safe : forall W s fuel txt k P,
  nameable (s_file s) -> enums_fit (s_file s) -> package_name (s_package s) -> one_line (s_version s) -> one_line (s_path s) -> (depth (s_file s) + 4 <= fuel)%nat ->
  go_text false true fuel s = Some txt -> read_program false k txt = Some P ->
  names_apart false (s_file s) -> keys_legal (s_file s) -> no_uint32 (s_file s) -> type_checks false P = true ->
  (forall m, (m < List.length (schema_of (s_file s)))%nat -> Acc (fun b a => creates (schema_of (s_file s)) a b) m) ->
  exists R K, forall m mi a xs fp b n st1, nth_error (messages_of (s_file s)) mi = Some m -> struct_at (messages_of (s_file s)) (heap st1) a m xs fp ->
    struct_type (schema_of (s_file s)) xs mi -> bytes_ok b -> int_ok W b -> ((List.length b + 1) * R + K <= n)%nat ->
    let r := call_go P unlimited (V1Model.decode W) (S n) (Some (gotype m)) (text ".Decode") [GoPtr (gotype m) (Some a); GoBase (VBytes b)] st1 in
    r = Panics \/ exists v st2, r = Fine ([v], st2) /\ (v = GoNil \/ exists e, v = GoError (Some e)).
Proof.
  intros W s fuel txt k P F EF PK V H D T R NA KL NU TC WF. destruct (c101_program false s fuel F EF PK V H D) as (l' & E & _ & U). rewrite T in E. injection E as <-.
  rewrite (U k P R) in *. exact (PropGoTypes.c94_v1_safe W (s_file s) NA KL NU TC WF).
Qed.
(** What the type checker says of the text: the program that is read passes it exactly if the file is supported (C94). *)
Theorem c101_text_type_checks : forall v2 s fuel txt k P, nameable (s_file s) -> enums_fit (s_file s) -> package_name (s_package s) -> one_line (s_version s) -> one_line (s_path s) ->
  (depth (s_file s) + 4 <= fuel)%nat -> go_text v2 true fuel s = Some txt -> read_program v2 k txt = Some P ->
  names_apart v2 (s_file s) -> keys_legal (s_file s) -> no_uint32 (s_file s) -> (type_checks v2 P = true <-> supported (s_file s)).
Proof.
  intros v2 s fuel txt k P F EF PK V H D T R NA KL NU. destruct (c101_program v2 s fuel F EF PK V H D) as (l' & E & _ & U). rewrite T in E. injection E as <-. rewrite (U k P R).
  exact (PropGoTypes.c94_type_checks v2 (s_file s) NA KL EF NU).
Qed.
(** At this commit the version string ends in a newline: what follows it is no comment.  No text that is generated is a Go file:
    at no depth does the parser read it. *)
Theorem c101_current_version_refuted : forall v2 s fuel l, nameable (s_file s) -> package_name (s_package s) ->
  s_version s = current_version v2 -> one_line (s_path s) -> (depth (s_file s) + 4 <= fuel)%nat -> go_text v2 true fuel s = Some l ->
  forall n, p_file v2 n (go_tokens l) = None.
Proof.
  intros v2 s fuel l F P V H D E n. destruct (PropTpl.c95_current_version_refuted v2 s fuel F P V H D) as (l' & E' & T & _). rewrite E in E'. injection E' as <-. rewrite T. reflexivity.
Qed.

(** one query for all of them: each on its own takes half a minute *)
Definition c101_all := (c101_reading, c101_program, c101_v2_text_round_trip, c101_v1_text_round_trip, c101_v2_text_safe, c101_v1_text_safe, c101_text_type_checks, c101_current_version_refuted).
Print Assumptions c101_all.

(** The file of C95's example (7913 bytes, 1996 tokens in version 2): read at depth 200, in both versions; cut short, or with two tokens
    exchanged, it is not a file. *)
Definition shown (v2 : bool) : option (list token) := option_map go_tokens (go_text v2 true 6 (PropTpl.tpl_source (text "v2.0.5"))).
Definition swapped (l : list token) : list token := match l with a :: b :: l => b :: a :: l | l => l end.
Definition refused {A} (x : option A) : bool := match x with None => true | Some _ => false end.
Definition tried (v2 : bool) : bool :=
  match shown v2 with
  | Some ts => match p_file v2 200 ts with Some (p, is, ds) => same p (text "example") && Nat.eqb (List.length ds) 36 | None => false end &&
               refused (p_file v2 200 (removelast ts)) && refused (p_file v2 200 (firstn 500 ts ++ swapped (skipn 500 ts)))
  | None => false
  end.
Example c101_example : enums_fit PropTpl.tpl_ex /\ tried false = true /\ tried true = true.
Proof.
  split; [|split; vm_compute; reflexivity].
  intros e [[<-|[]]|(m & Hm & He)]; [vm_compute; discriminate|]. cbn in Hm. repeat (destruct Hm as [<-|Hm]; [destruct He|]). destruct Hm.
Qed.

(** A file written by hand, with what generated files do not have as well (an empty return, an index in an index, != with a
    call): what the parser reads is what a reader of Go reads.  A call of a call, a return in parentheses, a missing brace, a
    keyword for a name are refused. *)
Definition by_hand (rest : string) : list token := go_tokens (text ("package p // a comment
import (
	""errors""
)
var (
	E = errors.New(""cannot decode into a nil root struct"")
)
type T uint32
const (
	A = T(12)
	B = T(0)
)
type M map[*T][]byte
type S struct {
	a []*T; b string
}
func (s *S) f(b *polyglot.Buffer, x []T) *S {
	if s.a[x[0]] != x { return }
	if !g(s, 7).ok(x).t {
		var t *T
		t, e := s.g(b, polyglot.AnyKind)
		s.m[1], s.e = make(M, 3)
	} else {
		for i := uint32(0); i < n(s); i++ { defer h(&S{a: nil, b: make(map[T]string, k),}) }
	}
	for k, v := range s.a { polyglot.Encoder(b).Map(k).Nil() }
	return k, nil == v
}
" ++ rest)).
Definition n_ (s : string) : bytes := text s.
Definition v_ (s : string) : expr := Var (text s).
Example c101_by_hand :
  p_file true 100 (by_hand "") = Some (n_ "p", [n_ "errors"], [
    DVar (n_ "E"); DType (n_ "T") TyEnum; DConst (n_ "A") (n_ "T") 12; DConst (n_ "B") (n_ "T") 0; DType (n_ "M") (TyMap (n_ "*T") (n_ "[]byte"));
    DType (n_ "S") (TyStruct [(n_ "a", n_ "[]*T"); (n_ "b", n_ "string")]);
    DFunc (mkfunc (Some (n_ "S")) (n_ ".f") [n_ "s"; n_ "b"; n_ "x"] [XText (n_ "*S"); XBuffer; XText (n_ "[]T")] (Some (XText (n_ "*S")))
      [If (Neq (Idx (Sel (v_ "s") (n_ "a")) (Idx (v_ "x") (Num 0))) (v_ "x")) [Return []] [];
       If (Not (Sel (Met (App (n_ "g") [v_ "s"; Num 7]) ".ok" [v_ "x"]) (n_ "t")))
         [Let (n_ "t") (n_ "*T");
          Define [n_ "t"; n_ "e"] (Met (v_ "s") ".g" [v_ "b"; Const "polyglot.AnyKind"]);
          Assign [Idx (Sel (v_ "s") (n_ "m")) (Num 1); Sel (v_ "s") (n_ "e")] (Make (n_ "M") (Num 3))]
         [Count (n_ "i") (App (n_ "n") [v_ "s"])
            [Defer (App (n_ "h") [GoAst.Lit (n_ "S") [(n_ "a", NilLit); (n_ "b", MakeM (n_ "T") (n_ "string") (v_ "k"))]])]];
       Range (n_ "k") (n_ "v") (Sel (v_ "s") (n_ "a")) [Do (Met (Met (Lib "Encoder" (v_ "b")) ".Map" [v_ "k"]) ".Nil" [])];
       Return [v_ "k"; Eq NilLit (v_ "v")]] false)]) /\
  forallb (fun x => refused (p_file true 100 (by_hand x)))
    ["func f() { g()() }"; "func f() { return ( }"; "func f() { g() "; "func for() { }"; "func f() { x := g() h() }"; "func f() { if x { } else y() }";
     "func f() { for i := uint32(1); i < n; i++ { } }"; "func f() { for i := uint32(0); j < n; i++ { } }"; "type T"; "const ( A = 3 )"; "func f(a) { }"; "x := 3"]%string = true /\
  refused (p_file true 100 (by_hand "func f() { g() ; return }")) = false.
Proof. repeat split; vm_compute; reflexivity. Qed.
