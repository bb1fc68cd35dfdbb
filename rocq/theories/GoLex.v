(** Go's lexical rules (The Go Programming Language Specification: Lexical elements), for source text in ASCII, and the
    tokens of the programs of GoAst.

    - Automatic semicolons: after the last token of a line if that is a name, a literal, one of break, continue,
      fallthrough, return, ++, --, ), ], }.  "A semicolon may be omitted before a closing ) or }": the lexer below leaves
      such semicolons out, so that texts which differ only there have the same tokens.
    - Comments // to the end of the line; not /* */.
    - Not distinguished: operators of three characters; numbers are words that start with a digit; strings have no
      escapes; raw strings and runes are unknown characters.  Generated files have none of them, unless the token
      sequence shows it. *)
From Coq Require Import String Ascii.
From Verif Require Import Base Spec GenTables NameModel NameSpec EmitModel EmitSpec GoAst TplModel TplGo.
Local Open Scope list_scope.

Inductive token :=
| Id (w : bytes)        (* identifiers and keywords *)
| Lit (w : bytes)       (* numbers *)
| Quoted (s : bytes)    (* strings *)
| Op (s : bytes)
| Bad (c : Z).
Definition op (s : string) : token := Op (text s).
Definition semi : token := op ";".

Definition letterb (c : Z) : bool := (97 <=? c) && (c <=? 122) || (65 <=? c) && (c <=? 90) || (c =? 95).
Definition digitb (c : Z) : bool := (48 <=? c) && (c <=? 57).
Definition wordb (c : Z) : bool := letterb c || digitb c.
Definition keyword (w : bytes) : bool := existsb (same w) go_keywords.
Definition ends_line (t : token) : bool :=
  match t with
  | Id w => negb (keyword w) || existsb (same w) (map text ["break"; "continue"; "fallthrough"; "return"]%string)
  | Lit _ | Quoted _ => true
  | Op s => existsb (same s) (map text ["++"; "--"; ")"; "]"; "}"]%string)
  | Bad _ => false
  end.
Definition closes (t : token) : bool := match t with Op s => existsb (same s) (map text [")"; "}"]%string) | _ => false end.

(** what has been read of a token *)
Inductive partial := PNone | PWord (w : bytes) | PNum (w : bytes) | PQuote (w : bytes) | POp (c : Z) | PComment.
(** [l_semi]: the last token asks for a semicolon at the end of the line; [l_due]: and the line has ended *)
Record lst := mklst { l_part : partial; l_semi : bool; l_due : bool }.
(** a token is complete *)
Definition put (s : lst) (t : token) : list token * lst :=
  ((if l_due s && negb (closes t) then [semi] else []) ++ [t], mklst PNone (ends_line t) false).
Definition alone (c : Z) : bool := existsb (Z.eqb c) (text "(){}[],;.").
Definition starts_op (c : Z) : bool := existsb (Z.eqb c) (text ":=!+-*/&|<>^%").
Definition pairs : list bytes := map text [":="; "=="; "!="; "++"; "--"; "+="; "-="; "*="; "/="; "&&"; "||"; "<="; ">="; "<-"; "<<"; ">>"; "|="; "&="; "^="; "%="; "&^"]%string.
(** a character where a token starts *)
Definition fresh (s : lst) (c : Z) : list token * lst :=
  if c =? 10 then ([], mklst PNone false (l_due s || l_semi s))
  else if (c =? 32) || (c =? 9) || (c =? 13) then ([], mklst PNone (l_semi s) (l_due s))
  else if letterb c then ([], mklst (PWord [c]) (l_semi s) (l_due s))
  else if digitb c then ([], mklst (PNum [c]) (l_semi s) (l_due s))
  else if c =? 34 then ([], mklst (PQuote []) (l_semi s) (l_due s))
  else if alone c then put s (Op [c])
  else if starts_op c then ([], mklst (POp c) (l_semi s) (l_due s))
  else put s (Bad c).
Definition next (r : list token * lst) (f : lst -> list token * lst) : list token * lst :=
  let '(a, s) := r in let '(b, s) := f s in (a ++ b, s).
Definition step (s : lst) (c : Z) : list token * lst :=
  match l_part s with
  | PNone => fresh s c
  | PWord w => if wordb c then ([], mklst (PWord (w ++ [c])) (l_semi s) (l_due s)) else next (put s (Id w)) (fun s => fresh s c)
  | PNum w => if wordb c then ([], mklst (PNum (w ++ [c])) (l_semi s) (l_due s)) else next (put s (Lit w)) (fun s => fresh s c)
  | PQuote w => if c =? 34 then put s (Quoted w) else ([], mklst (PQuote (w ++ [c])) (l_semi s) (l_due s))
  | POp o =>
      if (o =? 47) && (c =? 47) then ([], mklst PComment (l_semi s) (l_due s))
      else if existsb (same [o; c]) pairs then put s (Op [o; c])
      else next (put s (Op [o])) (fun s => fresh s c)
  | PComment => if c =? 10 then fresh (mklst PNone (l_semi s) (l_due s)) 10 else ([], s)
  end.
Fixpoint lex (s : lst) (l : bytes) : list token * lst :=
  match l with [] => ([], s) | c :: l => next (step s c) (fun s => lex s l) end.
(** the tokens of a file (which ends in a newline, or has lost nothing but white space) *)
Definition go_tokens (l : bytes) : list token := fst (lex (mklst PNone false false) (l ++ [10])).

(** ---- The tokens of a program ---- *)
Definition id (s : string) : token := Id (text s).
(** a type, as GoAst has it: * and [] before a name *)
Fixpoint t_type (t : bytes) : list token :=
  match t with
  | 42 :: t' => op "*" :: t_type t'
  | 91 :: 93 :: t' => op "[" :: op "]" :: t_type t'
  | _ => [Id t]
  end.
Fixpoint commas (l : list (list token)) : list token :=
  match l with [] => [] | [a] => a | a :: l => a ++ op "," :: commas l end.
Definition parens (l : list token) : list token := op "(" :: l ++ [op ")"].
(** names of the library: ".M" and "polyglot.N" *)
Definition t_dotted (s : string) : list token :=
  match text s with
  | 46 :: m => [op "."; Id m]
  | _ => match strip (text "polyglot.") (text s) with Some n => [id "polyglot"; op "."; Id n] | None => [] end
  end.
Fixpoint t_expr (e : expr) : list token :=
  match e with
  | Var n => [Id n]
  | NilLit => [id "nil"]
  | Num z => [Lit (show_int z)]
  | Const s => t_dotted s
  | Sel e f => t_expr e ++ [op "."; Id f]
  | Idx e i => t_expr e ++ op "[" :: t_expr i ++ [op "]"]
  | App f args => Id f :: parens (commas (map t_expr args))
  | Make t n => id "make" :: parens (t_type t ++ op "," :: t_expr n)
  | MakeM k v n => id "make" :: parens ([id "map"; op "["] ++ t_type k ++ op "]" :: t_type v ++ op "," :: t_expr n)
  | GoAst.Lit t fs => op "&" :: Id t :: op "{" :: flat_map (fun f => Id (fst f) :: op ":" :: t_expr (snd f) ++ [op ","]) fs ++ [op "}"]
  | Lib f e => id "polyglot" :: op "." :: id f :: parens (t_expr e)
  | Met e m args => t_expr e ++ t_dotted m ++ parens (commas (map t_expr args))
  | Not e => op "!" :: t_expr e
  | Eq a b => t_expr a ++ op "==" :: t_expr b
  | Neq a b => t_expr a ++ op "!=" :: t_expr b
  end.
(** statements: separated by semicolons; [due]: one comes before the first *)
Section Block.
Variable ts : stmt -> list token.
Fixpoint t_block (due : bool) (l : list stmt) : list token :=
  match l with [] => [] | c :: l => (if due then [semi] else []) ++ ts c ++ t_block true l end.
Definition braces (l : list stmt) : list token := op "{" :: t_block false l ++ [op "}"].
End Block.
(** [If c a []] is written without else, but if [a] is one call: encode.templ 5 (where it is the only such statement) writes
    an empty else branch then.  In Go both mean the same. *)
Fixpoint t_stmt (c : stmt) : list token :=
  match c with
  | Do e => t_expr e
  | Let n t => id "var" :: Id n :: t_type t
  | Define ns e => commas (map (fun n => [Id n]) ns) ++ op ":=" :: t_expr e
  | Assign ls e => commas (map t_expr ls) ++ op "=" :: t_expr e
  | If c [Do e] [] => id "if" :: t_expr c ++ op "{" :: t_expr e ++ [op "}"; id "else"; op "{"; op "}"]
  | If c a [] => id "if" :: t_expr c ++ braces t_stmt a
  | If c a b => id "if" :: t_expr c ++ braces t_stmt a ++ id "else" :: braces t_stmt b
  | Count i n body => [id "for"; Id i; op ":="; id "uint32"; op "("; Lit (show_int 0); op ")"; semi; Id i; op "<"] ++ t_expr n ++
                      [semi; Id i; op "++"] ++ braces t_stmt body
  | Range k v e body => [id "for"; Id k; op ","; Id v; op ":="; id "range"] ++ t_expr e ++ braces t_stmt body
  | Return es => id "return" :: commas (map t_expr es)
  | Defer e => id "defer" :: t_expr e
  end.
Section Decls.
Variable v2 : bool.
Definition t_sig (x : tyx) : list token :=
  match x with
  | XText t => t_type t
  | XMap k v => [id "map"; op "["] ++ t_type k ++ op "]" :: t_type v
  | XBuffer => [op "*"; id "polyglot"; op "."; id "Buffer"]
  | XDecoder => [op "*"; id "polyglot"; op "."; id (if v2 then "BufferDecoder" else "Decoder")]
  end.
Definition t_param (p : bytes * tyx) : list token := Id (fst p) :: t_sig (snd p).
Definition t_result (r : option tyx) : list token := match r with Some x => t_sig x | None => [] end.
(** the name of a method has a dot before it in GoAst *)
Definition bare (n : bytes) : bytes := match n with 46 :: m => m | _ => n end.
Definition t_func (f : func) : list token :=
  let ps := combine (fn_params f) (fn_types f) in
  id "func" ::
  match fn_recv f, ps with
  | Some _, p :: ps => parens (t_param p) ++ Id (bare (fn_name f)) :: parens (commas (map t_param ps))
  | _, _ => Id (fn_name f) :: parens (commas (map t_param ps))
  end ++ t_result (fn_result f) ++ braces t_stmt (fn_body f).
Definition nil_message : bytes := text "cannot decode into a nil root struct".
Fixpoint t_fields (due : bool) (fs : list (bytes * bytes)) : list token :=
  match fs with [] => [] | (n, t) :: fs => (if due then [semi] else []) ++ Id n :: t_type t ++ t_fields true fs end.
(** declarations; an enum's constants are in one group after its type *)
Definition t_decl (d : decl) : list token :=
  match d with
  | DVar n => [id "var"; op "("; Id n; op "="; id "errors"; op "."; id "New"; op "("; Quoted nil_message; op ")"; op ")"]
  | DType n TyEnum => [id "type"; Id n; id "uint32"; semi; id "const"; op "("]
  | DType n (TyMap k v) => [id "type"; Id n; id "map"; op "["] ++ t_type k ++ op "]" :: t_type v
  | DType n (TyStruct fs) => [id "type"; Id n; id "struct"; op "{"] ++ t_fields false fs ++ [op "}"]
  | DConst n t v => [Id n; op "="; Id t; op "("; Lit (show_int v); op ")"]
  | DFunc f => t_func f
  end.
(** [group]: in a group of constants, a semicolon due or not *)
Fixpoint t_decls (group : option bool) (l : list decl) : list token :=
  match l with
  | [] => match group with Some _ => [op ")"] | None => [] end
  | d :: l =>
      match d with
      | DConst _ _ _ => (match group with Some true => [semi] | _ => [] end) ++ t_decl d ++ t_decls (Some true) l
      | _ => (match group with Some _ => [op ")"] | None => [] end) ++ semi :: t_decl d ++
             t_decls (match d with DType _ TyEnum => Some false | _ => None end) l
      end
  end.
(** a file: its package clause, its imports, its declarations *)
Definition t_file (package : bytes) (imports : list bytes) (P : list decl) : list token :=
  [id "package"; Id package; semi; id "import"; op "("] ++
  (match imports with [] => [] | i :: l => Quoted i :: flat_map (fun i => [semi; Quoted i]) l end) ++ op ")" :: t_decls None P.
End Decls.
