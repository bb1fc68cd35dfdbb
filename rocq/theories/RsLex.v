(** Rust's lexical rules (The Rust Reference: Lexical structure), for source text in ASCII, and the tokens of the programs of
    RsAst.

    - Tokens are those of GoLex: words (identifiers, keywords and "_"), numbers, strings, operators, unknown characters.
    - Newlines are white space.  Comments // to the end of the line; not /* */.
    - Not distinguished: "<<", ">>", "<=" and the like are read as two tokens (as the parser does where it expects "<" or ">"
      of a type); a lifetime is the token "'" and a word; character literals and raw strings likewise fall into pieces.
      Generated files have none of them, unless the token sequence shows it. *)
From Coq Require Import String Ascii.
From Verif Require Import Base Spec GenTables NameModel EmitModel GoAst RsGenModel RsAst TplModel GoLex.
Local Open Scope list_scope.

(** what has been read of a token *)
Inductive rpart := RNone | RWord (w : bytes) | RNum (w : bytes) | RQuote (w : bytes) | ROp (c : Z) | RComment.
Definition rs_alone (c : Z) : bool := existsb (Z.eqb c) (text "(){}[],;?#'@$~<>").
Definition rs_starts_op (c : Z) : bool := existsb (Z.eqb c) (text ":=!+-*/&|^%.").
Definition rs_pairs : list bytes := map text ["::"; "->"; "=>"; ".."; "=="; "!="; "&&"; "||"; "+="; "-="; "*="; "/="; "^="; "%="; "&="; "|="]%string.
(** a character where a token starts *)
Definition rs_fresh (c : Z) : list token * rpart :=
  if (c =? 10) || (c =? 32) || (c =? 9) || (c =? 13) then ([], RNone)
  else if letterb c then ([], RWord [c])
  else if digitb c then ([], RNum [c])
  else if c =? 34 then ([], RQuote [])
  else if rs_alone c then ([Op [c]], RNone)
  else if rs_starts_op c then ([], ROp c)
  else ([Bad c], RNone).
Definition before (t : token) (r : list token * rpart) : list token * rpart := (t :: fst r, snd r).
Definition rs_step (s : rpart) (c : Z) : list token * rpart :=
  match s with
  | RNone => rs_fresh c
  | RWord w => if wordb c then ([], RWord (w ++ [c])) else before (Id w) (rs_fresh c)
  | RNum w => if wordb c then ([], RNum (w ++ [c])) else before (Lit w) (rs_fresh c)
  | RQuote w => if c =? 34 then ([Quoted w], RNone) else ([], RQuote (w ++ [c]))
  | ROp o =>
      if (o =? 47) && (c =? 47) then ([], RComment)
      else if existsb (same [o; c]) rs_pairs then ([Op [o; c]], RNone)
      else before (Op [o]) (rs_fresh c)
  | RComment => if c =? 10 then ([], RNone) else ([], s)
  end.
Fixpoint rs_lex (s : rpart) (l : bytes) : list token * rpart :=
  match l with [] => ([], s) | c :: l => let '(a, s) := rs_step s c in let '(b, s) := rs_lex s l in (a ++ b, s) end.
(** the tokens of a file (which ends in a newline, or has lost nothing but white space) *)
Definition rs_tokens (l : bytes) : list token := fst (rs_lex RNone (l ++ [10])).

(** ---- The tokens of a program ---- *)
Definition angles (l : list token) : list token := op "<" :: l ++ [op ">"].
Fixpoint r_type (t : rty) : list token :=
  match t with
  | TyName n => [Id n]
  | TyVec t => id "Vec" :: angles (r_type t)
  | TyHash k v => id "HashMap" :: angles (r_type k ++ op "," :: r_type v)
  end.
(** a::b::c *)
Fixpoint joined (l : list string) : list token :=
  match l with [] => [] | [a] => [id a] | a :: l => id a :: op "::" :: joined l end.
(** names of the library: None, Kind::K, DecodingError::E *)
Definition r_const (s : string) : list token :=
  match strip (text "Kind::") (text s) with
  | Some k => [id "Kind"; op "::"; Id k]
  | None => match strip (text "DecodingError::") (text s) with Some e => [id "DecodingError"; op "::"; Id e] | None => [id s] end
  end.
(** ".m" *)
Definition r_dotted (s : string) : list token := match text s with 46 :: m => [op "."; Id m] | _ => [] end.
Fixpoint r_expr (e : rexpr) : list token :=
  match e with
  | EVar n => [Id n]
  | EConst s => r_const s
  | EField e f => r_expr e ++ [op "."; Id f]
  | EMet e m args => r_expr e ++ r_dotted m ++ parens (commas (map r_expr args))
  | ECall None f args => Id f :: parens (commas (map r_expr args))
  | ECall (Some q) f args => Id q :: op "::" :: Id f :: parens (commas (map r_expr args))
  | ETry e => r_expr e ++ [op "?"]
  | ERef e => op "&" :: r_expr e
  | EDeref e => op "*" :: r_expr e
  | ECast e => r_expr e ++ [id "as"; id "u32"]
  | EStruct t fs => Id t :: op "{" :: flat_map (fun f => Id (fst f) :: op ":" :: r_expr (snd f) ++ [op ","]) fs ++ [op "}"]
  end.
Definition r_pat (p : rpat) : list token := match p with PName n => [Id n] | PPair a b => parens [Id a; op ","; Id b] end.
Definition t_dyn_error : list token := id "Box" :: angles (id "dyn" :: joined ["std"; "error"; "Error"]%string).
(** Cursor<&mut Vec<u8>>, Result<Option<t>, Box<dyn std::error::Error>> *)
Definition t_reader : list token := [op "&"; id "mut"; id "Cursor"] ++ angles ([op "&"; id "mut"; id "Vec"] ++ angles [id "u8"]).
Definition t_answer (t : list token) : list token := id "Result" :: angles (id "Option" :: angles t ++ op "," :: t_dyn_error).
Fixpoint r_stmt (s : rstmt) : list token :=
  let block a := op "{" :: flat_map r_stmt a ++ [op "}"] in
  match s with
  | SDo e => r_expr e ++ [op ";"]
  | SLet mut n e => id "let" :: (if mut then [id "mut"] else []) ++ Id n :: op "=" :: r_expr e ++ [op ";"]
  | SIf e a => id "if" :: r_expr e ++ block a
  | SIfOk n e a => [id "if"; id "let"; id "Ok"; op "("; Id n; op ")"; op "="] ++ r_expr e ++ block a
  | SFor p e a => id "for" :: r_pat p ++ id "in" :: r_expr e ++ block a
  | STimes e a => [id "for"; id "_"; id "in"; Lit (show_int 0); op ".."] ++ r_expr e ++ block a
  | SReturn e => id "return" :: r_expr e ++ [op ";"]
  | STail e => r_expr e
  | SFn n t a => [id "fn"; Id n; op "("; id "b"; op ":"] ++ t_reader ++ [op ")"; op "->"] ++ t_answer (r_type t) ++ block a
  end.
Definition r_block (a : list rstmt) : list token := op "{" :: flat_map r_stmt a ++ [op "}"].
Definition t_life : list token := [op "'"; id "a"].
(** fn encode<'a> (&'a self, b: &'a mut Cursor<Vec<u8>>) -> Result<&mut Cursor<Vec<u8>>, Box<dyn std::error::Error>> *)
Definition t_writer : list token := id "mut" :: id "Cursor" :: angles (id "Vec" :: angles [id "u8"]).
Definition t_encode_sig : list token :=
  [id "fn"; id "encode"] ++ angles t_life ++ parens (op "&" :: t_life ++ [id "self"; op ","; id "b"; op ":"; op "&"] ++ t_life ++ t_writer) ++
  op "->" :: id "Result" :: angles (op "&" :: t_writer ++ op "," :: t_dyn_error).
(** fn decode (b: &mut Cursor<&mut Vec<u8>>) -> Result<Option<t>, Box<dyn std::error::Error>> *)
Definition t_decode_sig (t : bytes) : list token :=
  [id "fn"; id "decode"] ++ parens (id "b" :: op ":" :: t_reader) ++ op "->" :: t_answer [Id t].
Definition r_vis (v : vis) : list token :=
  match v with Private => [] | Public => [id "pub"] | Crate => id "pub" :: parens [id "crate"] end.
Definition r_decl (d : rdecl) : list token :=
  match d with
  | DUse path names =>
      id "use" :: joined path ++ (match names with [] => [] | _ => op "::" :: op "{" :: commas (map (fun n => [id n]) names) ++ [op "}"] end) ++ [op ";"]
  | DTrait false => [id "pub"; id "trait"; id "Encode"; op "{"] ++ t_encode_sig ++ [op ";"; op "}"]
  | DTrait true => [id "pub"; id "trait"; id "Decode"; op "{"] ++ t_decode_sig (text "Self") ++ [id "where"; id "Self"; op ":"; id "Sized"; op ";"; op "}"]
  | DEnum n vs =>
      [op "#"; op "["; id "derive"] ++ parens (commas (map (fun n => [id n]) ["Debug"; "Eq"; "PartialEq"; "TryFromPrimitive"; "Copy"; "Clone"]%string)) ++ [op "]"] ++
      [op "#"; op "["; id "repr"] ++ parens [id "u32"] ++ [op "]"; id "pub"; id "enum"; Id n; op "{"] ++
      flat_map (fun v => [Id (fst v); op "="; Lit (show_int (snd v)); op ","]) vs ++ [op "}"]
  | DStruct n fs =>
      [id "pub"; id "struct"; Id n; op "{"] ++
      flat_map (fun f => r_vis (fst (fst f)) ++ Id (snd (fst f)) :: op ":" :: r_type (snd f) ++ [op ","]) fs ++ [op "}"]
  | DEncode n a => [id "impl"; id "Encode"; id "for"; Id n; op "{"] ++ t_encode_sig ++ r_block a ++ [op "}"]
  | DDecode n a => [id "impl"; id "Decode"; id "for"; Id n; op "{"] ++ t_decode_sig n ++ r_block a ++ [op "}"]
  end.
Definition r_file (P : list rdecl) : list token := flat_map r_decl P.
