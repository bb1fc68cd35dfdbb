(** Go's text/template (https://pkg.go.dev/text/template), as far as the templates of /repo/generator/*/templates use it:
    the syntax between {{ and }}, trim markers, comments, define, template, if, else, else if, range, variables,
    methods and fields, function calls.  generator/golang/generator.go 41-66 (New), 112-130 (ExecuteTemplate).

    An error of text/template, a panic of a function it calls included (text/template turns it into an error), is [None].

    Simplifications: no pipelines, assignments (=), with, break, numbers other than decimal ones: the templates have
    none, and the parser below rejects what it does not know. *)
From Coq Require Import String Ascii.
From Verif Require Import Base Spec GenTables NameModel EmitModel.
Local Open Scope list_scope.

(** ---- Syntax ---- *)
Inductive texp :=
| XStr (s : string) | XNum (z : Z) | XVar (n : string) | XDot
| XGet (e : texp) (n : string) (args : list texp)        (* e.n args *)
| XCall (f : string) (args : list texp).                 (* f args *)
Inductive node :=
| NText (s : string)
| NOut (e : texp)                                        (* {{ e }} *)
| NSet (v : string) (e : texp)                           (* {{ v := e }} *)
| NIf (e : texp) (a b : list node)
| NRange (i v : string) (e : texp) (body : list node)    (* {{ range i, v := e }}; i = "" if it is not there *)
| NTpl (name : string) (e : texp).                       (* {{ template "name" e }} *)

(** ---- Parsing ---- *)
Definition chars := list_ascii_of_string.
Definition str_of := string_of_list_ascii.
Definition white (c : ascii) : bool := match c with " " | "009" | "010" | "013" => true | _ => false end%char.
Fixpoint drop_white (l : list ascii) : list ascii := match l with c :: l' => if white c then drop_white l' else l | [] => [] end.
Definition drop_white_end (l : list ascii) : list ascii := rev (drop_white (rev l)).
(** text and actions *)
Inductive piece := PText (s : list ascii) | PAct (s : list ascii).
Fixpoint scan (inside : bool) (acc : list ascii) (l : list ascii) : list piece :=
  match l with
  | "{" :: (("{" :: l2) as l1) => if inside then scan inside ("{" :: acc) l1 else PText (rev acc) :: scan true [] l2
  | "}" :: (("}" :: l2) as l1) => if inside then PAct (rev acc) :: scan false [] l2 else scan inside ("}" :: acc) l1
  | c :: l1 => scan inside (c :: acc) l1
  | [] => if inside then [PAct (rev acc)] else [PText (rev acc)]
  end%char.
(** trim markers: "- " and " -" *)
Definition trims_left (a : list ascii) : bool := match a with "-" :: c :: _ => white c | _ => false end%char.
Definition trims_right (a : list ascii) : bool := trims_left (rev a).
Definition unmark (a : list ascii) : list ascii :=
  let a := if trims_left a then skipn 1 a else a in if trims_right a then rev (skipn 1 (rev a)) else a.
Fixpoint trim (after : bool) (l : list piece) : list piece :=
  match l with
  | PText s :: l' =>
      let s := if after then drop_white s else s in
      let s := match l' with PAct a :: _ => if trims_left a then drop_white_end s else s | _ => s end in
      PText s :: trim false l'
  | PAct a :: l' => PAct (unmark a) :: trim (trims_right a) l'
  | [] => []
  end.
(** the words of an action *)
Inductive word := WId (s : string) | WStr (s : string) | WOpen | WClose | WComma.
Definition flush (acc : list ascii) (r : list word) : list word := match acc with [] => r | _ => WId (str_of (rev acc)) :: r end.
Fixpoint words (quoted : bool) (acc : list ascii) (l : list ascii) : list word :=
  match l with
  | [] => flush acc []
  | c :: l =>
      if quoted then (if ascii_dec c """" then WStr (str_of (rev acc)) :: words false [] l else words true (c :: acc) l)
      else if ascii_dec c """" then flush acc (words true [] l)
      else if white c then flush acc (words false [] l)
      else if ascii_dec c "(" then flush acc (WOpen :: words false [] l)
      else if ascii_dec c ")" then flush acc (WClose :: words false [] l)
      else if ascii_dec c "," then flush acc (WComma :: words false [] l)
      else words false (c :: acc) l
  end%char.
(** operands: .A.B, $x.A.B, names, numbers *)
Fixpoint split_dots (acc : list ascii) (l : list ascii) : list string :=
  match l with
  | [] => [str_of (rev acc)]
  | c :: l => if ascii_dec c "." then str_of (rev acc) :: split_dots [] l else split_dots (c :: acc) l
  end.
Fixpoint decimal (acc : Z) (l : list ascii) : option Z :=
  match l with
  | [] => Some acc
  | c :: l => let d := Z.of_N (N_of_ascii c) - 48 in if (0 <=? d) && (d <=? 9) then decimal (10 * acc + d) l else None
  end.
Definition operand (s : string) : option texp :=
  match decimal 0 (chars s) with
  | Some z => Some (XNum z)
  | None =>
      match split_dots [] (chars s) with
      | "" :: [""] => Some XDot
      | "" :: ps => Some (fold_left (fun e n => XGet e n []) ps XDot)
      | p :: ps => match chars p with
                   | "$"%char :: _ => Some (fold_left (fun e n => XGet e n []) ps (XVar p))
                   | _ => match ps with [] => Some (XCall p []) | _ => None end
                   end
      | [] => None
      end
  end%string.
(** a command: an operand and its arguments *)
Definition command (l : list texp) : option texp :=
  match l with
  | [e] => Some e
  | XCall f [] :: args => Some (XCall f args)
  | XGet e n [] :: args => Some (XGet e n args)
  | _ => None
  end.
Fixpoint operands (fuel : nat) (acc : list texp) (l : list word) : option (list texp * list word) :=
  match fuel with
  | O => None
  | S fuel =>
      match l with
      | WId s :: l => match operand s with Some e => operands fuel (acc ++ [e]) l | None => None end
      | WStr s :: l => operands fuel (acc ++ [XStr s]) l
      | WOpen :: l =>
          match operands fuel [] l with
          | Some (es, WClose :: l) => match command es with Some e => operands fuel (acc ++ [e]) l | None => None end
          | _ => None
          end
      | _ => Some (acc, l)
      end
  end.
Definition expression (l : list word) : option texp :=
  match operands (2 * length l + 1) [] l with Some (es, []) => command es | _ => None end.
(** actions *)
Inductive action :=
| AOut (e : texp) | ASet (v : string) (e : texp) | AIf (e : texp) | AElse | AElseIf (e : texp) | AEnd
| ARange (i v : string) (e : texp) | ATpl (n : string) (e : texp) | ADefine (n : string) | AComment.
Definition is_comment (a : list ascii) : bool := match a with "/" :: "*" :: _ => true | _ => false end%char.
Definition parse_action (a : list ascii) : option action :=
  if is_comment a then Some AComment
  else match words false [] a with
       | [WId "end"] => Some AEnd
       | [WId "else"] => Some AElse
       | WId "else" :: WId "if" :: l => option_map AElseIf (expression l)
       | WId "if" :: l => option_map AIf (expression l)
       | WId "range" :: WId v :: WId ":=" :: l => option_map (ARange "" v) (expression l)
       | WId "range" :: WId i :: WComma :: WId v :: WId ":=" :: l => option_map (ARange i v) (expression l)
       | [WId "define"; WStr n] => Some (ADefine n)
       | WId "template" :: WStr n :: l => option_map (ATpl n) (expression l)
       | WId v :: WId ":=" :: l => option_map (ASet v) (expression l)
       | l => option_map AOut (expression l)
       end%string.
(** blocks *)
Inductive stop := SEnd | SElse | SElseIf (e : texp) | SEof.
Fixpoint nodes (fuel : nat) (l : list piece) : option (list node * stop * list piece) :=
  match fuel with
  | O => None
  | S fuel =>
      let more n l := match nodes fuel l with Some (ns, s, l) => Some (n :: ns, s, l) | None => None end in
      match l with
      | [] => Some ([], SEof, [])
      | PText [] :: l => nodes fuel l
      | PText s :: l => more (NText (str_of s)) l
      | PAct a :: l =>
          match parse_action a with
          | None => None
          | Some AComment => nodes fuel l
          | Some AEnd => Some ([], SEnd, l)
          | Some AElse => Some ([], SElse, l)
          | Some (AElseIf e) => Some ([], SElseIf e, l)
          | Some (AOut e) => more (NOut e) l
          | Some (ASet v e) => more (NSet v e) l
          | Some (ATpl n e) => more (NTpl n e) l
          | Some (ADefine _) => None
          | Some (ARange i v e) => match nodes fuel l with Some (b, SEnd, l) => more (NRange i v e b) l | _ => None end
          | Some (AIf e) => match branches fuel e l with Some (n, l) => more n l | None => None end
          end
      end
  end
with branches (fuel : nat) (e : texp) (l : list piece) : option (node * list piece) :=
  match fuel with
  | O => None
  | S fuel =>
      match nodes fuel l with
      | Some (a, SEnd, l) => Some (NIf e a [], l)
      | Some (a, SElse, l) => match nodes fuel l with Some (b, SEnd, l) => Some (NIf e a b, l) | _ => None end
      | Some (a, SElseIf e', l) => match branches fuel e' l with Some (n, l) => Some (NIf e a [n], l) | None => None end
      | _ => None
      end
  end.
(** a file: its defines, and the rest *)
Fixpoint defines (fuel : nat) (l : list piece) : option (list (string * list node) * list piece) :=
  match fuel with
  | O => None
  | S fuel =>
      match l with
      | [] => Some ([], [])
      | p :: l =>
          let keep l := match defines fuel l with Some (ds, r) => Some (ds, p :: r) | None => None end in
          match p with
          | PAct a =>
              match parse_action a with
              | Some (ADefine n) =>
                  match nodes fuel l with
                  | Some (b, SEnd, l) => match defines fuel l with Some (ds, r) => Some ((n, b) :: ds, r) | None => None end
                  | _ => None
                  end
              | _ => keep l
              end
          | PText _ => keep l
          end
      end
  end.
Definition parse_file (name s : string) : option (list (string * list node)) :=
  let ps := trim false (scan false [] (chars s)) in
  match defines (S (length ps)) ps with
  | Some (ds, r) => match nodes (S (length ps)) r with Some (ns, SEof, []) => Some ((name, ns) :: ds) | _ => None end
  | None => None
  end.
(** ParseFS *)
Fixpoint parse_files (fs : list (string * string)) : option (list (string * list node)) :=
  match fs with
  | [] => Some []
  | (n, s) :: fs => match parse_file n s, parse_files fs with Some a, Some b => Some (a ++ b) | _, _ => None end
  end.

(** ---- Values ---- *)
Inductive tval :=
| VText (s : bytes)                    (* string *)
| VName (s : bytes) | VFull (s : bytes) (* protoreflect.Name, FullName *)
| VInt (z : Z) | VKind (k : pkind) | VCard (many : bool) | VTruth (b : bool)
| VStruct                              (* struct{} *)
| VList (l : list tval)                (* a slice *)
| VRec (fs : list (string * tval))     (* a map of strings, a struct *)
| VEnum (e : enumd) | VEnums (l : list enumd) | VValue (v : evald) | VValues (l : list evald)
| VMsg (m : msgd) | VMsgs (l : list msgd) | VRef (full : bytes) (* the descriptor of a message by its name *)
| VField (f : fieldd) | VFieldList (l : list fieldd).
(** if: what counts as true *)
Definition truth (v : tval) : option bool :=
  match v with
  | VText s | VName s | VFull s => Some (match s with [] => false | _ => true end)
  | VInt z => Some (negb (z =? 0))
  | VTruth b => Some b
  | VList l => Some (match l with [] => false | _ => true end)
  | _ => None
  end.
(** decimal digits of a number that is not negative *)
Fixpoint digits (fuel : nat) (z : Z) : bytes :=
  match fuel with
  | O => []
  | S fuel => (if z <? 10 then [] else digits fuel (z / 10)) ++ [48 + z mod 10]
  end.
Definition show_int (z : Z) : bytes := if z <? 0 then 45 :: digits 70 (- z) else digits 70 z.
(** printing *)
Definition show (v : tval) : option bytes :=
  match v with VText s | VName s | VFull s => Some s | VInt z => Some (show_int z) | _ => None end.

(** ---- Execution ---- *)
Definition env : Type := list (string * tval).
Fixpoint find_str {A} (n : string) (l : list (string * A)) : option A :=
  match l with [] => None | (m, a) :: l => if String.eqb n m then Some a else find_str n l end.
Section Exec.
Variable get : tval -> string -> list tval -> option tval.     (* fields and methods *)
Variable call : string -> list tval -> option tval.            (* FuncMap *)
Section Args.
Variable ev : texp -> option tval.
Fixpoint eval_all (l : list texp) : option (list tval) :=
  match l with
  | [] => Some []
  | e :: l => match ev e, eval_all l with Some v, Some vs => Some (v :: vs) | _, _ => None end
  end.
(** and, or: stop at the first argument that decides (Go 1.18) *)
Fixpoint eval_and (v : tval) (l : list texp) : option tval :=
  match l with
  | [] => Some v
  | e :: l => match truth v with Some true => match ev e with Some v => eval_and v l | None => None end | Some false => Some v | None => None end
  end.
Fixpoint eval_or (v : tval) (l : list texp) : option tval :=
  match l with
  | [] => Some v
  | e :: l => match truth v with Some false => match ev e with Some v => eval_or v l | None => None end | Some true => Some v | None => None end
  end.
End Args.
(** the kinds of protoreflect as numbers (google.golang.org/protobuf/reflect/protoreflect: Kind; Repeated = 3) *)
Definition kind_number (k : pkind) : Z :=
  match k with
  | KDouble => 1 | KFloat => 2 | KInt64 => 3 | KUint64 => 4 | KInt32 => 5 | KFixed64 => 6 | KFixed32 => 7 | KBool => 8 | KString => 9
  | KGroup => 10 | KMessage => 11 | KBytes => 12 | KUint32 => 13 | KEnum => 14 | KSfixed32 => 15 | KSfixed64 => 16 | KSint32 => 17 | KSint64 => 18
  end.
Definition card_number (many : bool) (z : Z) : bool := if many then z =? 3 else (z =? 1) || (z =? 2).
(** eq: strings; integers.  Optional is 1 and Required 2: the model does not tell them apart, and a comparison that
    would is an error here *)
Definition equal (a b : tval) : option bool :=
  match a, b with
  | VText s, VText t => Some (if list_eq_dec Z.eq_dec s t then true else false)
  | VInt x, VInt y => Some (x =? y)
  | VKind k, VInt y => Some (kind_number k =? y)
  | VCard many, VInt 3 => Some many
  | _, _ => None
  end.
Fixpoint eval (E : env) (dot : tval) (e : texp) {struct e} : option tval :=
  match e with
  | XStr s => Some (VText (text s))
  | XNum z => Some (VInt z)
  | XDot => Some dot
  | XVar n => find_str n E
  | XGet e n args => match eval E dot e, eval_all (eval E dot) args with Some v, Some vs => get v n vs | _, _ => None end
  | XCall f args =>
      if String.eqb f "and" then match args with e :: l => match eval E dot e with Some v => eval_and (eval E dot) v l | None => None end | [] => None end
      else if String.eqb f "or" then match args with e :: l => match eval E dot e with Some v => eval_or (eval E dot) v l | None => None end | [] => None end
      else match eval_all (eval E dot) args with
           | Some vs =>
               if String.eqb f "eq" then match vs with [a; b] => option_map VTruth (equal a b) | _ => None end
               else if String.eqb f "ne" then match vs with [a; b] => option_map (fun x => VTruth (negb x)) (equal a b) | _ => None end
               else if String.eqb f "not" then match vs with [a] => option_map (fun x => VTruth (negb x)) (truth a) | _ => None end
               else call f vs
           | None => None
           end
  end.
Definition both (a b : option bytes) : option bytes := match a, b with Some a, Some b => Some (a ++ b) | _, _ => None end.
Section Blocks.
Variable ex : env -> tval -> node -> option bytes.
Variables (dot : tval).
(** a variable is visible up to the end of its block *)
Fixpoint exec_list (E : env) (l : list node) : option bytes :=
  match l with
  | [] => Some []
  | NSet v e :: l => match eval E dot e with Some x => exec_list ((v, x) :: E) l | None => None end
  | n :: l => both (ex E dot n) (exec_list E l)
  end.
End Blocks.
Section Loop.
Variable body : Z -> tval -> option bytes.
Fixpoint loop (i : Z) (l : list tval) : option bytes :=
  match l with [] => Some [] | x :: l => both (body i x) (loop (i + 1) l) end.
End Loop.
(** range over a map: text/template visits the keys in their order; the list is taken to be sorted *)
Section Keys.
Variable body : string -> tval -> option bytes.
Fixpoint loop_keys (l : list (string * tval)) : option bytes :=
  match l with [] => Some [] | (k, x) :: l => both (body k x) (loop_keys l) end.
End Keys.
Section Nodes.
Variable tpl : string -> tval -> option bytes.
Fixpoint exec (E : env) (dot : tval) (n : node) {struct n} : option bytes :=
  match n with
  | NText s => Some (text s)
  | NOut e => match eval E dot e with Some v => show v | None => None end
  | NSet _ _ => Some []
  | NIf e a b =>
      match eval E dot e with
      | Some v => match truth v with
                  | Some true => exec_list exec dot E a
                  | Some false => exec_list exec dot E b
                  | None => None
                  end
      | None => None
      end
  | NRange i v e body =>
      match eval E dot e with
      | Some (VList l) => loop (fun j x => exec_list exec x ((v, x) :: (i, VInt j) :: E) body) 0 l
      | Some (VRec l) => loop_keys (fun k x => exec_list exec x ((v, x) :: (i, VText (text k)) :: E) body) l
      | _ => None
      end
  | NTpl name e => match eval E dot e with Some v => tpl name v | None => None end
  end.
End Nodes.
(** ExecuteTemplate: "$" is the data.  [fuel]: text/template stops at 100000 nested templates. *)
Fixpoint run (T : list (string * list node)) (fuel : nat) (name : string) (v : tval) : option bytes :=
  match fuel with
  | O => None
  | S fuel => match find_str name T with
              | Some l => exec_list (exec (run T fuel)) v [("$"%string, v)] l
              | None => None
              end
  end.
End Exec.
