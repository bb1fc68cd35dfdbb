(** TypeScript's lexical rules (ECMAScript: Lexical Grammar), for source text in ASCII, and the tokens of the files of TsGenModel.

    - Tokens are those of GoLex: words (identifiers, keywords), numbers, strings, operators, unknown characters.
    - Generated files have no semicolons: where a statement ends, the line does (automatic semicolon insertion).  So the
      line breaks between tokens are kept: [nl] stands before the first token of a line, however many empty lines there are.
    - Comments // to the end of the line; not /* */.
    - Not distinguished: "<", ">" and what follows them are read as single characters (as the parser does where it expects
      the brackets of a type); strings have no escapes; single quotes, template literals, regular expressions, "$", and
      characters outside ASCII are unknown.  Generated files have none of them, unless the token sequence shows it. *)
From Coq Require Import String Ascii.
From Verif Require Import Base Spec GenTables NameModel EmitModel GoAst TplModel GoLex TsGenModel TsGenSpec.
Local Open Scope list_scope.

(** a line break *)
Definition nl : token := Op [10].
(** what has been read of a token; [b]: a line has ended since the last token *)
Inductive jpart := JNone (b : bool) | JWord (w : bytes) | JNum (w : bytes) | JQuote (w : bytes) | JOp (c : Z) | JSlash (b : bool) | JComment (b : bool).
Definition broken (b : bool) : list token := if b then [nl] else [].
Definition js_alone (c : Z) : bool := existsb (Z.eqb c) (text "(){}[],;:?.@#~<>").
Definition js_starts_op (c : Z) : bool := existsb (Z.eqb c) (text "=!+-*&|^%").
Definition js_pairs : list bytes := map text ["=>"; "=="; "!="; "++"; "--"; "&&"; "||"; "+="; "-="; "*="; "**"; "%="; "&="; "|="; "^="]%string.
(** a character where a token starts *)
Definition js_fresh (b : bool) (c : Z) : list token * jpart :=
  if (c =? 10) || (c =? 13) then ([], JNone true)
  else if (c =? 32) || (c =? 9) then ([], JNone b)
  else if letterb c then (broken b, JWord [c])
  else if digitb c then (broken b, JNum [c])
  else if c =? 34 then (broken b, JQuote [])
  else if c =? 47 then ([], JSlash b)
  else if js_alone c then (broken b ++ [Op [c]], JNone false)
  else if js_starts_op c then (broken b, JOp c)
  else (broken b ++ [Bad c], JNone false).
Definition after (t : list token) (r : list token * jpart) : list token * jpart := (t ++ fst r, snd r).
Definition js_step (s : jpart) (c : Z) : list token * jpart :=
  match s with
  | JNone b => js_fresh b c
  | JWord w => if wordb c then ([], JWord (w ++ [c])) else after [Id w] (js_fresh false c)
  | JNum w => if wordb c then ([], JNum (w ++ [c])) else after [Lit w] (js_fresh false c)
  | JQuote w => if c =? 34 then ([Quoted w], JNone false) else ([], JQuote (w ++ [c]))
  | JOp o => if existsb (same [o; c]) js_pairs then ([Op [o; c]], JNone false) else after [Op [o]] (js_fresh false c)
  | JSlash b => if c =? 47 then ([], JComment b) else after (broken b ++ [Op [47]]) (js_fresh false c)
  | JComment b => if (c =? 10) || (c =? 13) then ([], JNone true) else ([], s)
  end.
Fixpoint js_lex (s : jpart) (l : bytes) : list token * jpart :=
  match l with [] => ([], s) | c :: l => let '(a, s) := js_step s c in let '(b, s) := js_lex s l in (a ++ b, s) end.
(** the tokens of a file *)
Definition js_tokens (l : bytes) : list token := fst (js_lex (JNone false) (l ++ [10])).

(** ---- The tokens of a file ---- *)
(** the name of a field: its first letter in lower case *)
Definition jname (fd : fieldd) : bytes := match f_name fd with c :: t => (if is_upper c then c + 32 else c) :: t | [] => [] end.
(** _name *)
Definition mine (fd : fieldd) : list token := [id "this"; op "."; Id (text "_" ++ jname fd)].
Definition temp (fd : fieldd) : bytes := jname fd ++ text "Temp".
Definition j_type (t : ftyp) : list token :=
  match t with
  | TMap k v => [id "Map"; op "<"; Id (js_type k); op ","; Id (js_type v); op ">"]
  | t => [Id (js_type t)]
  end.
Definition j_ftype (fd : fieldd) : list token :=
  j_type (f_typ fd) ++ (match f_typ fd with TMap _ _ => [] | _ => if f_many fd then [op "["; op "]"] else [] end).
(** Kind.K *)
Definition j_kind (s : string) : list token :=
  match strip (text "Kind.") (text s) with Some k => [id "Kind"; op "."; Id k] | None => [id s] end.
Definition encoded_is (e : list token) : list token := nl :: id "encoded" :: op "=" :: e.
Definition decoded_is (e : list token) : list token := nl :: id "decoded" :: op "=" :: e.
Definition let_ (n : bytes) (e : list token) : list token := nl :: id "let" :: Id n :: op "=" :: e.
(** what writes a key, a value *)
Definition j_eitem (v : string) (i : item) : list token :=
  match i with
  | IMessage => encoded_is [id v; op "."; id "encode"; op "("; id "encoded"; op ")"]
  | IEnum fn => encoded_is [id fn; op "("; id "encoded"; op ","; id v; id "as"; id "number"; op ")"]
  | IValue fn => encoded_is [id fn; op "("; id "encoded"; op ","; id v; op ")"]
  end.
(** e.forEach((x) => { body }) *)
Definition for_each (e : list token) (x : list token) (body : list token) : list token :=
  nl :: e ++ [op "."; id "forEach"; op "("; op "("] ++ x ++ [op ")"; op "=>"; op "{"] ++ body ++ [nl; op "}"; op ")"].
Definition j_estmt (s : estmt) : list token :=
  match s with
  | EValue fn f as_number =>
      encoded_is ([id fn; op "("; id "encoded"; op ","; id "this"; op "."; Id (jname f)] ++ (if as_number then [id "as"; id "number"] else []) ++ [op ")"])
  | ESliceMsg fn kind f =>
      encoded_is ([id fn; op "("; id "encoded"; op ","] ++ mine f ++ [op "."; id "length"; op ","] ++ j_kind kind ++ [op ")"]) ++
      for_each (mine f) [id "field"] (encoded_is [id "field"; op "."; id "encode"; op "("; id "encoded"; op ")"])
  | ESlice fn f kind elem =>
      encoded_is ([id fn; op "("] ++ mine f ++ [op "."; id "length"; op ","] ++ (match kind with Some k => j_kind k | None => [] end) ++ [op ")"]) ++
      for_each (mine f) [id "field"] (encoded_is ((match elem with Some e => [id e] | None => [] end) ++ [op "("; id "encoded"; op ","; id "field"; op ")"]))
  | EMap fn f kk kv k v =>
      encoded_is ([id fn; op "("; id "encoded"; op ","] ++ mine f ++ [op "."; id "size"; op ","] ++ j_kind kk ++ op "," :: j_kind kv ++ [op ")"]) ++
      for_each (mine f) [id "v"; op ","; id "k"] (j_eitem "k" k ++ j_eitem "v" v)
  | EMsg f => encoded_is (mine f ++ [op "."; id "encode"; op "("; id "encoded"; op ")"; op ";"])
  end.
(** what reads an element, a key, a value into [v]; [t]: its type, [buf]: where an enum says how far it was read *)
Definition j_ditem (v : string) (t : list token) (rest : list token) (i : item) : list token :=
  match i with
  | IEnum fn =>
      let_ (text v ++ text "Enum") [id fn; op "("; id "decoded"; op ")"] ++
      [nl; id "const"; id v; op "="; op "{"; id "value"; op ":"; Id (text v ++ text "Enum"); id "as"] ++ t ++ [op "}"] ++ decoded_is rest
  | IMessage => let_ (text v) (t ++ [op "."; id "decode"; op "("; id "decoded"; op ")"]) ++ decoded_is [id v; op "."; id "buf"]
  | IValue fn => let_ (text v) [id fn; op "("; id "decoded"; op ")"] ++ decoded_is [id v; op "."; id "buf"]
  end.
(** let x = fn(decoded); decoded = x.buf; const xTemp: { value: t } = { value: init }; for (let i = 0; i < x.size; i++) { body } *)
Definition j_reads (fn : string) (f : fieldd) (init body : list token) : list token :=
  let_ (jname f) [id fn; op "("; id "decoded"; op ")"] ++ decoded_is [Id (jname f); op "."; id "buf"] ++
  [nl; id "const"; Id (temp f); op ":"; op "{"; id "value"; op ":"] ++ j_ftype f ++ [op "}"; op "="; op "{"; id "value"; op ":"] ++ init ++ [op "}"] ++
  [nl; id "for"; op "("; id "let"; id "i"; op "="; Lit (text "0"); op ";"; id "i"; op "<"; Id (jname f); op "."; id "size"; op ";"; id "i"; op "++"; op ")"; op "{"] ++
  body ++ [nl; op "}"].
Definition j_dstmt (s : dstmt) : list token :=
  match s with
  | DSlice fn f elem =>
      j_reads fn f [op "["; op "]"]
        (j_ditem "element" (match elem with IMessage => j_type (f_typ f) | _ => j_ftype f end) [id "element"; op "."; id "bufEnum"] elem ++
         [nl; Id (temp f); op "."; id "value"; op "."; id "push"; op "("; id "element"; op "."; id "value"; op ")"])
  | DMap fn f k v =>
      j_reads fn f [id "new"; id "Map"; op "("; op ")"]
        (match f_typ f with
         | TMap tk tv => j_ditem "key" (j_type tk) [id "keyEnum"; op "."; id "buf"] k ++ j_ditem "value" (j_type tv) [id "valueEnum"; op "."; id "buf"] v
         | _ => []
         end ++
         [nl; Id (jname f); op "."; id "value"; op "."; id "set"; op "("; id "key"; op ","; id "value"; op ")"])
  | DMsg f =>
      let_ (temp f) (j_ftype f ++ [op "."; id "decode"; op "("; id "decoded"; op ")"]) ++ decoded_is [Id (temp f); op "."; id "buf"]
  | DValue fn f true =>
      let_ (jname f ++ text "U32") [id fn; op "("; id "decoded"; op ")"] ++
      [nl; id "const"; Id (temp f); op "="; op "{"; id "value"; op ":"; Id (jname f ++ text "U32"); id "as"] ++ j_ftype f ++ [op "}"] ++
      decoded_is [Id (jname f ++ text "U32"); op "."; id "buf"]
  | DValue fn f false =>
      let_ (temp f) [id fn; op "("; id "decoded"; op ")"] ++ decoded_is [Id (temp f); op "."; id "buf"]
  end.
Definition j_param (f : fieldd) : list token := nl :: Id (jname f) :: op ":" :: j_ftype f ++ [op ","].
Definition j_assign (f : fieldd) : list token := nl :: mine f ++ [op "="; Id (jname f)].
(** the private field, get, set *)
Definition j_property (f : fieldd) : list token :=
  nl :: id "private" :: Id (text "_" ++ jname f) :: op ":" :: j_ftype f ++
  [nl; id "get"; Id (jname f); op "("; op ")"; op ":"] ++ j_ftype f ++ [op "{"; nl; id "return"] ++ mine f ++ [nl; op "}"] ++
  [nl; id "set"; Id (jname f); op "("; Id (jname f); op ":"] ++ j_ftype f ++ [op ")"; op "{"] ++ j_assign f ++ [nl; op "}"].
Definition j_decl (d : tsdecl) : list token :=
  match d with
  | TsEnum n vs =>
      [nl; id "enum"; Id n; op "{"] ++ flat_map (fun v => [nl; Id (fst v); op "="; Lit (show_int (snd v)); op ","]) vs ++ [nl; op "}"]
  | TsClass n ps e d args =>
      [nl; id "export"; id "class"; Id n; op "{"; nl; id "constructor"; op "("] ++ flat_map (fun p => j_param (fst p)) ps ++ [nl; op ")"; op "{"] ++
      flat_map (fun p => j_assign (fst p)) ps ++ [nl; op "}"] ++ flat_map (fun p => j_property (fst p)) ps ++
      [nl; id "encode"; op "("; id "buf"; op ":"; id "Uint8Array"; op ")"; op ":"; id "Uint8Array"; op "{"] ++ let_ (text "encoded") [id "buf"] ++
      flat_map j_estmt e ++ [nl; id "return"; id "encoded"; nl; op "}"] ++
      [nl; id "static"; id "decode"; op "("; id "buf"; op ":"; id "Uint8Array"; op ")"; op ":"; op "{"; id "buf"; op ":"; id "Uint8Array"; op ","; id "value"; op ":"; Id n; op "}"; op "{"] ++
      let_ (text "decoded") [id "buf"] ++ flat_map j_dstmt d ++
      [nl; id "return"; op "{"; id "buf"; op ":"; id "decoded"; op ","; id "value"; op ":"; id "new"; Id n; op "("] ++
      flat_map (fun f => [nl; Id (temp f); op "."; id "value"; op ","]) args ++ [nl; op ")"; op "}"; nl; op "}"; nl; op "}"]
  end.
(** import { a,b, } from "polyglot" *)
Definition j_import (names : list string) : list token :=
  [nl; id "import"; op "{"] ++ flat_map (fun n => [id n; op ","]) names ++ [op "}"; id "from"; Quoted (text "polyglot")].
