(** Reading a Go file: a parser, by Go's grammar, for the part of the language that generated files use, from tokens (GoLex) to
    the syntax of GoAst.  It models nothing of /repo: it is a specification of what the TEXT of a generated file means, so that
    the programs of GoEmit need not be compared with the templates by eye.

    The Go Programming Language Specification: Primary expressions, Operators, Statements, Declarations, Source file
    organization.  [None]: not Go, or not in this part of the language.  The first argument of the recursive functions bounds
    their depth; that a bound is large enough is part of the theorems.
    - Operands: names, numbers, nil, polyglot.X; selectors, indices, calls; make; ! and & of a composite literal; one
      comparison.  An operator binds less than what follows an operand.
    - A semicolon may be missing before ) and } (the lexer leaves it out there).
    - Method names are read with a dot before them, as GoAst has them; whether a call of a name is one of a function or a
      conversion is not decided here; [fn_frame] is not syntax and is read as [false]. *)
From Coq Require Import String Ascii.
From Verif Require Import Base Spec EmitModel GoAst TplModel GoLex.
Local Open Scope list_scope.

Notation "'take' x <- e ;; k" := (match e with Some x => k | None => None end) (at level 200, x pattern, e at level 100, k at level 200).
Definition nexts (s : string) (l : list token) : bool := match l with Op o :: _ => same o (text s) | _ => false end.
Definition eat (s : string) (l : list token) : option (list token) := if nexts s l then Some (tl l) else None.
Definition word (s : string) (l : list token) : bool := match l with Id w :: _ => same w (text s) | _ => false end.
Definition eat_word (s : string) (l : list token) : option (list token) := if word s l then Some (tl l) else None.
(** a name *)
Definition name (l : list token) : option (bytes * list token) :=
  match l with Id w :: l => if keyword w then None else Some (w, l) | _ => None end.
Definition untext (b : bytes) : string := string_of_list_ascii (map (fun z => ascii_of_N (Z.to_N z)) b).
Definition number (w : bytes) : Z := fold_left (fun a c => 10 * a + (c - 48)) w 0.

(** ---- Types ---- *)
Fixpoint p_type (l : list token) : option (bytes * list token) :=
  match l with
  | Id w :: l => if keyword w then None else Some (w, l)
  | Op o :: l =>
      if same o (text "*") then take (t, l) <- p_type l;; Some (text "*" ++ t, l)
      else if same o (text "[") then
        match l with
        | Op c :: l => if same c (text "]") then take (t, l) <- p_type l;; Some (text "[]" ++ t, l) else None
        | _ => None
        end
      else None
  | _ => None
  end.
(** map[k]v, after "map" *)
Definition p_map (l : list token) : option (bytes * bytes * list token) :=
  take l <- eat "[" l;; take (k, l) <- p_type l;; take l <- eat "]" l;; take (v, l) <- p_type l;; Some (k, v, l).

(** ---- Expressions ---- *)
Fixpoint primary (n : nat) (l : list token) : option (expr * list token) :=
  match n with
  | O => None
  | S n =>
      match l with
      | GoLex.Lit w :: l => suffix n (Num (number w)) l
      | Id w :: l =>
          if keyword w then None
          else if same w (text "nil") then suffix n NilLit l
          else if same w (text "polyglot") then
            take l <- eat "." l;; take (f, l) <- name l;;
            if nexts "(" l
            then take (e, l) <- expression n (tl l);; take l <- eat ")" l;; suffix n (Lib (untext f) e) l
            else suffix n (Const (untext (text "polyglot." ++ f))) l
          else if same w (text "make") then
            take l <- eat "(" l;;
            if word "map" l
            then take (k, v, l) <- p_map (tl l);; take l <- eat "," l;; take (e, l) <- expression n l;; take l <- eat ")" l;; suffix n (MakeM k v e) l
            else take (t, l) <- p_type l;; take l <- eat "," l;; take (e, l) <- expression n l;; take l <- eat ")" l;; suffix n (Make t e) l
          else if nexts "(" l then take (es, l) <- arguments n (tl l);; suffix n (App w es) l
          else suffix n (Var w) l
      | _ => None
      end
  end
(** what follows an operand [e] *)
with suffix (n : nat) (e : expr) (l : list token) : option (expr * list token) :=
  match n with
  | O => None
  | S n =>
      if nexts "." l then
        take (f, l) <- name (tl l);;
        if nexts "(" l then take (es, l) <- arguments n (tl l);; suffix n (Met e (untext (46 :: f)) es) l
        else suffix n (Sel e f) l
      else if nexts "[" l then take (i, l) <- expression n (tl l);; take l <- eat "]" l;; suffix n (Idx e i) l
      else if nexts "(" l then None
      else Some (e, l)
  end
with unary (n : nat) (l : list token) : option (expr * list token) :=
  match n with
  | O => None
  | S n =>
      if nexts "!" l then take (e, l) <- unary n (tl l);; Some (Not e, l)
      else if nexts "&" l then take (t, l) <- name (tl l);; take l <- eat "{" l;; take (fs, l) <- elements n l;; Some (GoAst.Lit t fs, l)
      else primary n l
  end
with expression (n : nat) (l : list token) : option (expr * list token) :=
  match n with
  | O => None
  | S n =>
      take (a, l) <- unary n l;;
      if nexts "==" l then take (b, l) <- unary n (tl l);; Some (Eq a b, l)
      else if nexts "!=" l then take (b, l) <- unary n (tl l);; Some (Neq a b, l)
      else Some (a, l)
  end
(** the arguments of a call, after ( *)
with arguments (n : nat) (l : list token) : option (list expr * list token) :=
  match n with
  | O => None
  | S n =>
      if nexts ")" l then Some ([], tl l)
      else take (e, l) <- expression n l;;
        if nexts "," l then take (es, l) <- arguments n (tl l);; Some (e :: es, l)
        else take l <- eat ")" l;; Some ([e], l)
  end
(** the elements of a composite literal, after { *)
with elements (n : nat) (l : list token) : option (list (bytes * expr) * list token) :=
  match n with
  | O => None
  | S n =>
      if nexts "}" l then Some ([], tl l)
      else take (f, l) <- name l;; take l <- eat ":" l;; take (e, l) <- expression n l;;
        if nexts "," l then take (fs, l) <- elements n (tl l);; Some ((f, e) :: fs, l)
        else take l <- eat "}" l;; Some ([(f, e)], l)
  end.
(** one or more expressions *)
Fixpoint expressions (n : nat) (l : list token) : option (list expr * list token) :=
  match n with
  | O => None
  | S n =>
      take (e, l) <- expression n l;;
      if nexts "," l then take (es, l) <- expressions n (tl l);; Some (e :: es, l) else Some ([e], l)
  end.

(** ---- Statements ---- *)
Fixpoint names_of (es : list expr) : option (list bytes) :=
  match es with
  | [] => Some []
  | Var n :: es => take ns <- names_of es;; Some (n :: ns)
  | _ => None
  end.
(** expression statements, assignments, short variable declarations *)
Definition simple (n : nat) (l : list token) : option (stmt * list token) :=
  take (es, l) <- expressions n l;;
  if nexts ":=" l then take ns <- names_of es;; take (e, l) <- expression n (tl l);; Some (Define ns e, l)
  else if nexts "=" l then take (e, l) <- expression n (tl l);; Some (Assign es e, l)
  else match es with [e] => Some (Do e, l) | _ => None end.
Definition this_name (w : bytes) (l : list token) : option (list token) :=
  take (x, l) <- name l;; if same x w then Some l else None.
Fixpoint statement (n : nat) (l : list token) : option (stmt * list token) :=
  match n with
  | O => None
  | S n =>
      match l with
      | Id w :: l' =>
          if keyword w then
            if same w (text "var") then take (x, l) <- name l';; take (t, l) <- p_type l;; Some (Let x t, l)
            else if same w (text "return") then
              if nexts ";" l' || nexts "}" l' then Some (Return [], l') else take (es, l) <- expressions n l';; Some (Return es, l)
            else if same w (text "defer") then take (e, l) <- expression n l';; Some (Defer e, l)
            else if same w (text "if") then
              take (c, l) <- expression n l';; take l <- eat "{" l;; take (a, l) <- block n l;;
              if word "else" l then take l <- eat "{" (tl l);; take (b, l) <- block n l;; Some (If c a b, l)
              else Some (If c a [], l)
            else if same w (text "for") then
              take (k, l) <- name l';;
              if nexts "," l then
                take (v, l) <- name (tl l);; take l <- eat ":=" l;; take l <- eat_word "range" l;; take (e, l) <- expression n l;;
                take l <- eat "{" l;; take (b, l) <- block n l;; Some (Range k v e b, l)
              else
                (* for k := uint32(0); k < e; k++ *)
                take l <- eat ":=" l;; take l <- eat_word "uint32" l;; take l <- eat "(" l;;
                match l with
                | GoLex.Lit z :: l =>
                    if same z (text "0") then
                      take l <- eat ")" l;; take l <- eat ";" l;; take l <- this_name k l;; take l <- eat "<" l;; take (e, l) <- expression n l;;
                      take l <- eat ";" l;; take l <- this_name k l;; take l <- eat "++" l;; take l <- eat "{" l;; take (b, l) <- block n l;; Some (Count k e b, l)
                    else None
                | _ => None
                end
            else None
          else simple n l
      | _ => simple n l
      end
  end
(** after { *)
with block (n : nat) (l : list token) : option (list stmt * list token) :=
  match n with
  | O => None
  | S n =>
      if nexts "}" l then Some ([], tl l)
      else take (c, l) <- statement n l;;
        if nexts ";" l then take (cs, l) <- block n (tl l);; Some (c :: cs, l)
        else take l <- eat "}" l;; Some ([c], l)
  end.

(** ---- Declarations ---- *)
Section Decls.
Variable v2 : bool.
(** the type of a parameter or result *)
Definition p_sig (l : list token) : option (tyx * list token) :=
  if word "map" l then take (k, v, l) <- p_map (tl l);; Some (XMap k v, l)
  else if nexts "*" l && word "polyglot" (tl l) then
    take l <- eat "." (tl (tl l));; take (t, l) <- name l;;
    if same t (text "Buffer") then Some (XBuffer, l)
    else if same t (text (if v2 then "BufferDecoder" else "Decoder")) then Some (XDecoder, l)
    else None
  else take (t, l) <- p_type l;; Some (XText t, l).
Definition param (l : list token) : option (bytes * tyx * list token) :=
  take (x, l) <- name l;; take (t, l) <- p_sig l;; Some (x, t, l).
(** parameters, after ( *)
Fixpoint params (n : nat) (l : list token) : option (list (bytes * tyx) * list token) :=
  match n with
  | O => None
  | S n =>
      if nexts ")" l then Some ([], tl l)
      else take (x, t, l) <- param l;;
        if nexts "," l then take (ps, l) <- params n (tl l);; Some ((x, t) :: ps, l)
        else take l <- eat ")" l;; Some ([(x, t)], l)
  end.
(** the type a method belongs to: T of a receiver T or *T *)
Definition base_of (t : tyx) : option bytes :=
  match t with XText (42 :: b) => Some b | XText b => Some b | _ => None end.
(** a function or method, after "func" *)
Definition p_func (n : nat) (l : list token) : option (func * list token) :=
  take (recv, self, l) <- (if nexts "(" l
    then take (x, t, l) <- param (tl l);; take l <- eat ")" l;; take b <- base_of t;; Some (Some b, [(x, t)], l)
    else Some (None, [], l));;
  take (f, l) <- name l;; take l <- eat "(" l;; take (ps, l) <- params n l;;
  take (r, l) <- (if nexts "{" l then Some (None, l) else take (t, l) <- p_sig l;; Some (Some t, l));;
  take l <- eat "{" l;; take (b, l) <- block n l;;
  Some (mkfunc recv (match recv with Some _ => 46 :: f | None => f end) (map fst (self ++ ps)) (map snd (self ++ ps)) r b false, l).
(** the fields of a struct, after { *)
Fixpoint p_fields (n : nat) (l : list token) : option (list (bytes * bytes) * list token) :=
  match n with
  | O => None
  | S n =>
      if nexts "}" l then Some ([], tl l)
      else take (x, l) <- name l;; take (t, l) <- p_type l;;
        if nexts ";" l then take (fs, l) <- p_fields n (tl l);; Some ((x, t) :: fs, l)
        else take l <- eat "}" l;; Some ([(x, t)], l)
  end.
(** one declaration, but for groups of constants *)
Definition p_decl (n : nat) (l : list token) : option (decl * list token) :=
  if word "var" l then
    (* var ( x = errors.New("...") ) *)
    take l <- eat "(" (tl l);; take (x, l) <- name l;; take l <- eat "=" l;; take l <- eat_word "errors" l;; take l <- eat "." l;; take l <- eat_word "New" l;;
    take l <- eat "(" l;;
    match l with
    | Quoted q :: l => if same q nil_message then take l <- eat ")" l;; take l <- eat ")" l;; Some (DVar x, l) else None
    | _ => None
    end
  else if word "type" l then
    take (x, l) <- name (tl l);;
    if word "uint32" l then Some (DType x TyEnum, tl l)
    else if word "map" l then take (k, v, l) <- p_map (tl l);; Some (DType x (TyMap k v), l)
    else if word "struct" l then take l <- eat "{" (tl l);; take (fs, l) <- p_fields n l;; Some (DType x (TyStruct fs), l)
    else None
  else if word "func" l then take (f, l) <- p_func n (tl l);; Some (DFunc f, l)
  else None.
(** x = T(z) *)
Definition p_const (l : list token) : option (decl * list token) :=
  take (x, l) <- name l;; take l <- eat "=" l;; take (t, l) <- name l;; take l <- eat "(" l;;
  match l with GoLex.Lit z :: l => take l <- eat ")" l;; Some (DConst x t (number z), l) | _ => None end.
(** declarations, a semicolon before each; [group]: in a group of constants, with a semicolon due before the next or not *)
Fixpoint p_decls (n : nat) (group : option bool) (l : list token) : option (list decl) :=
  match n with
  | O => None
  | S n =>
      match group with
      | Some due =>
          if nexts ")" l then p_decls n None (tl l)
          else take l <- (if due then eat ";" l else Some l);; take (d, l) <- p_const l;; take ds <- p_decls n (Some true) l;; Some (d :: ds)
      | None =>
          match l with
          | [] => Some []
          | _ => take l <- eat ";" l;;
              if word "const" l then take l <- eat "(" (tl l);; p_decls n (Some false) l
              else take (d, l) <- p_decl n l;; take ds <- p_decls n None l;; Some (d :: ds)
          end
      end
  end.
(** the paths of an import declaration, after ( *)
Fixpoint p_paths (l : list token) : option (list bytes * list token) :=
  match l with
  | Quoted q :: l =>
      match l with
      | Op o :: l' => if same o (text ";") then take (qs, l) <- p_paths l';; Some (q :: qs, l) else if same o (text ")") then Some ([q], l') else None
      | _ => None
      end
  | Op o :: l => if same o (text ")") then Some ([], l) else None
  | _ => None
  end.
(** a source file: its package, what it imports, what it declares *)
Definition p_file (n : nat) (l : list token) : option (bytes * list bytes * list decl) :=
  take l <- eat_word "package" l;; take (p, l) <- name l;; take l <- eat ";" l;; take l <- eat_word "import" l;; take l <- eat "(" l;;
  take (is, l) <- p_paths l;; take ds <- p_decls n None l;; Some (p, is, ds).
End Decls.
(** what is not syntax *)
Definition bare_func (f : func) : func := mkfunc (fn_recv f) (fn_name f) (fn_params f) (fn_types f) (fn_result f) (fn_body f) false.
Definition syntax (d : decl) : decl := match d with DFunc f => DFunc (bare_func f) | d => d end.
(** Which calls the stack model counts (GoEmit: those of the methods and constructors of messages): methods Encode and decode of
    pointers, functions that return pointers. *)
Definition pointer (t : tyx) : bool := match t with XText (42 :: _) => true | _ => false end.
Definition counted (f : func) : bool :=
  match fn_recv f with
  | Some _ => existsb pointer (firstn 1 (fn_types f)) && (same (fn_name f) (text ".Encode") || same (fn_name f) (text ".decode"))
  | None => match fn_result f with Some t => pointer t | None => false end
  end.
Definition with_frames (d : decl) : decl :=
  match d with
  | DFunc f => DFunc (mkfunc (fn_recv f) (fn_name f) (fn_params f) (fn_types f) (fn_result f) (fn_body f) (counted f))
  | d => d
  end.
(** the program that a text is *)
Definition read_program (v2 : bool) (n : nat) (l : bytes) : option (list decl) :=
  take (p, is, ds) <- p_file v2 n (go_tokens l);; Some (map with_frames ds).
