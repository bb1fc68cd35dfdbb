(** Rust, as far as the files of generator/rust/templates use it: syntax, and what running it does.

    What is simplified:
    - values, not memory: a reference [&e] is the value of [e], [*e] likewise (Rust's borrow checker keeps a value from
      changing under a reference, so this makes no difference to a program that compiles);
    - there is one Cursor, [b];
    - [?] leaves the function with Err, the error unchanged (From<DecodingError> for Box<dyn Error> only boxes it);
    - types play no role when a program runs: what does not fit is [OStuck] (the program would not have compiled), except
      that Vec::with_capacity takes the type of the vector from the signature of the function it is in;
    - local functions see neither variables nor other local functions (Rust lets them see the latter). *)
From Coq Require Import String.
From Verif Require Import Base Spec RustModel GenTables EmitModel GoAst RsGenModel.
From Verif Require GenModel.
Local Open Scope list_scope.

(** ---- Syntax ---- *)
(** types: a name, Vec<t>, HashMap<k, v> *)
Inductive rty := TyName (n : bytes) | TyVec (t : rty) | TyHash (k v : rty).
Inductive rexpr :=
| EVar (n : bytes)
| EConst (s : string)                                   (* None, Kind::K, DecodingError::E *)
| EField (e : rexpr) (f : bytes)                        (* e.f *)
| EMet (e : rexpr) (m : string) (args : list rexpr)     (* e.m(args); the dot is part of m *)
| ECall (q : option bytes) (f : bytes) (args : list rexpr)   (* f(args), q::f(args) *)
| ETry (e : rexpr)                                      (* e? *)
| ERef (e : rexpr)                                      (* &e *)
| EDeref (e : rexpr)                                    (* *e *)
| ECast (e : rexpr)                                     (* e as u32 *)
| EStruct (t : bytes) (fs : list (bytes * rexpr)).      (* t{f: e, ...} *)
Inductive rpat := PName (n : bytes) | PPair (a b : bytes).
Inductive rstmt :=
| SDo (e : rexpr)                                       (* e; *)
| SLet (mut : bool) (n : bytes) (e : rexpr)             (* let n = e; let mut n = e; *)
| SIf (e : rexpr) (a : list rstmt)                      (* if e { a } *)
| SIfOk (n : bytes) (e : rexpr) (a : list rstmt)        (* if let Ok(n) = e { a } *)
| SFor (p : rpat) (e : rexpr) (a : list rstmt)          (* for p in e { a } *)
| STimes (e : rexpr) (a : list rstmt)                   (* for _ in 0..e { a } *)
| SReturn (e : rexpr)                                   (* return e; *)
| STail (e : rexpr)                                     (* e, at the end of a function *)
| SFn (n : bytes) (t : rty) (a : list rstmt).           (* fn n(b: &mut Cursor<&mut Vec<u8>>) -> Result<Option<t>, Box<dyn std::error::Error>> { a } *)
(** visibility of a field: nothing, pub, pub(crate) *)
Inductive vis := Private | Public | Crate.
Inductive rdecl :=
| DUse (path : list string) (names : list string)       (* use a::b::c; use a::{x, y}; *)
| DTrait (decode : bool)                                (* the two traits of messages.templ 2-8 *)
| DEnum (n : bytes) (vs : list (bytes * Z))
| DStruct (n : bytes) (fs : list (vis * bytes * rty))
| DEncode (n : bytes) (a : list rstmt)                  (* impl Encode for n { fn encode ... { a } } *)
| DDecode (n : bytes) (a : list rstmt).                 (* impl Decode for n { fn decode ... { a } } *)

(** ---- Values ---- *)
Inductive rv :=
| RvPrim (v : value)                                    (* numbers, bool, String, Vec<u8> *)
| RvEnum (t : bytes) (n : Z)
| RvStruct (t : bytes) (fs : list (bytes * rv))
| RvVec (l : list rv)
| RvHash (l : list (value * rv))
| RvSize (n : Z)                                        (* usize *)
| RvKind (k : Z)
| RvBool (b : bool)                                     (* of decode_none *)
| RvError (e : rsgerr)
| RvOk (v : rv) | RvErr (v : rv) | RvSome (v : rv) | RvNone
| RvCur.                                                (* the Cursor *)
Definition renv : Type := list (bytes * rv).

(** Running: a result and the Cursor after it; [ORet]: the function returned. *)
Inductive ores (A : Type) := OGo (a : A) (c : cursor) | ORet (v : rv) (c : cursor) | OStuck | ODie | ODeep.
Arguments OGo {A}. Arguments ORet {A}. Arguments OStuck {A}. Arguments ODie {A}. Arguments ODeep {A}.
Definition oseq {A B} (x : ores A) (k : A -> cursor -> ores B) : ores B :=
  match x with OGo a c => k a c | ORet v c => ORet v c | OStuck => OStuck | ODie => ODie | ODeep => ODeep end.
(** a call: both ways of leaving a function give its value *)
Definition oval {A} (f : A -> cursor -> ores rv) (x : ores A) : ores rv :=
  match x with OGo a c => f a c | ORet v c => OGo v c | OStuck => OStuck | ODie => ODie | ODeep => ODeep end.

Section Lookup.
Variable A : Type.
Fixpoint rfind (n : bytes) (l : list (bytes * A)) : option A :=
  match l with [] => None | (m, a) :: l => if same n m then Some a else rfind n l end.
End Lookup.
Arguments rfind {A}.
Fixpoint rset (n : bytes) (v : rv) (l : renv) : renv :=
  match l with [] => [] | (m, a) :: l => if same n m then (m, v) :: l else (m, a) :: rset n v l end.
(** HashMap::insert *)
Fixpoint hinsert {A} (k : value) (v : A) (l : list (value * A)) : list (value * A) :=
  match l with [] => [(k, v)] | (k', x) :: l => if GenModel.value_eq_dec k k' then (k, v) :: l else (k', x) :: hinsert k v l end.

(** Items of a file, by name. *)
Fixpoint find_enum (P : list rdecl) (n : bytes) : option (list (bytes * Z)) :=
  match P with [] => None | DEnum m vs :: P => if same n m then Some vs else find_enum P n | _ :: P => find_enum P n end.
Fixpoint find_struct (P : list rdecl) (n : bytes) : option (list bytes) :=
  match P with [] => None | DStruct m fs :: P => if same n m then Some (map (fun f => snd (fst f)) fs) else find_struct P n | _ :: P => find_struct P n end.
Fixpoint find_encode (P : list rdecl) (n : bytes) : option (list rstmt) :=
  match P with [] => None | DEncode m a :: P => if same n m then Some a else find_encode P n | _ :: P => find_encode P n end.
Fixpoint find_decode (P : list rdecl) (n : bytes) : option (list rstmt) :=
  match P with [] => None | DDecode m a :: P => if same n m then Some a else find_decode P n | _ :: P => find_decode P n end.
(** a type of the file hides the one of that name in the prelude *)
Definition own_type (P : list rdecl) (n : bytes) : bool :=
  match find_enum P n, find_struct P n with None, None => false | _, _ => true end.

(** Constants *)
Definition errors : list (string * DecodingError) :=
  [("DecodingError::InvalidArray", InvalidArray); ("DecodingError::InvalidMap", InvalidMap); ("DecodingError::InvalidU32", InvalidU32);
   ("DecodingError::InvalidEnum", InvalidEnum); ("DecodingError::InvalidStruct", InvalidStruct)]%string.
Definition const_of (s : string) : option rv :=
  if String.eqb s "None" then Some RvNone
  else match assoc s rs_kinds with
       | Some k => Some (RvKind k)
       | None => option_map (fun e => RvError (Decoding e)) (assoc s errors)
       end.

Section Run.
Variable rt : runtime.
Variable alloc : rty -> Z -> bool.       (* whether Vec::with_capacity(n) finds the memory for a vector of this type *)
Variable P : list rdecl.

(** ---- The library: encoder.rs, decoder.rs ---- *)
Definition of_rres {A} (f : A -> rv) (x : rres A) : ores rv :=
  match x with ROk a c => OGo (RvOk (f a)) c | RErr e c => OGo (RvErr (RvError (Decoding e))) c | RPanic => ODie end.
Definition of_res_cur (x : res cursor) : ores rv := match x with Ok c => OGo (RvOk RvCur) c | Panic => ODie end.
Definition size_of (v : value) : rv := match v with VSlice n _ | VMap n _ _ => RvSize n | _ => RvPrim v end.
Definition lib_call (m : string) (args : list rv) (c : cursor) : ores rv :=
  match args with
  | [] =>
      if String.eqb m ".decode_none" then match decode_none rt c with ROk b c => OGo (RvBool b) c | RErr _ _ => OStuck | RPanic => ODie end
      else if String.eqb m ".decode_error" then of_rres (fun p => RvError (Remote p)) (decode_error rt c)
      else match assoc m rs_decoder_methods with Some q => of_rres RvPrim (decode rt q c) | None => OStuck end
  | [RvKind k] => if String.eqb m ".decode_array" then of_rres size_of (decode rt (RSlice k) c) else OStuck
  | [RvKind k; RvKind k'] => if String.eqb m ".decode_map" then of_rres size_of (decode rt (RMap k k') c) else OStuck
  | [RvSize n; RvKind k] => if String.eqb m ".encode_array" then of_res_cur (encode c (VSlice n k)) else OStuck
  | [RvSize n; RvKind k; RvKind k'] => if String.eqb m ".encode_map" then of_res_cur (encode c (VMap n k k')) else OStuck
  | [RvPrim v] =>
      match assoc m rs_encoder_methods with
      | Some q => if GenModel.request_eq_dec q (want v) then of_res_cur (encode c v) else OStuck
      | None => OStuck
      end
  | _ => OStuck
  end.

Section Level.
(** calls of the functions of the file, one frame deeper, and of local functions *)
Variable enc : bytes -> rv -> cursor -> ores rv.        (* <T as Encode>::encode(x, b) *)
Variable dec : bytes -> cursor -> ores rv.              (* <T as Decode>::decode(b) *)
Variable loc : bytes -> option (cursor -> ores rv).
Variable here : rty.                                    (* t, in a function that returns Result<Option<t>, ...> *)

Definition method (x : rv) (m : string) (args : list rv) (c : cursor) : ores rv :=
  match x, args with
  | RvCur, _ => lib_call m args c
  | RvVec l, [] => if String.eqb m ".len" then OGo (RvSize (zlen l)) c else OStuck
  | RvHash l, [] => if String.eqb m ".len" then OGo (RvSize (zlen l)) c else OStuck
  | RvOk v, [] => if String.eqb m ".ok" then OGo (RvSome v) c else OStuck
  | RvErr _, [] => if String.eqb m ".ok" then OGo RvNone c else OStuck
  | RvSome v, [RvError _] => if String.eqb m ".ok_or" then OGo (RvOk v) c else OStuck
  | RvNone, [RvError e] => if String.eqb m ".ok_or" then OGo (RvErr (RvError e)) c else OStuck
  | RvStruct t _, [RvCur] => if String.eqb m ".encode" then enc t x c else OStuck
  | _, _ => OStuck
  end.
(** num_enum's TryFromPrimitive: the variant with this discriminant *)
Definition try_from (t : bytes) (vs : list (bytes * Z)) (v : rv) (c : cursor) : ores rv :=
  match v with
  | RvPrim (VU32 n) => OGo (if existsb (fun x => snd x =? n) vs then RvOk (RvEnum t n) else RvErr (RvPrim (VU32 n))) c
  | _ => OStuck
  end.
Definition path_call (q : bytes) (f : bytes) (args : list rv) (c : cursor) : ores rv :=
  if own_type P q then
    match args with
    | [RvCur] => if same f (text "decode") then dec q c else OStuck
    | [v] => if same f (text "try_from") then match find_enum P q with Some vs => try_from q vs v c | None => OStuck end else OStuck
    | _ => OStuck
    end
  else match args with
       | [RvSize n] =>
           if same q (text "Vec") && same f (text "with_capacity") then if alloc here n then OGo (RvVec []) c else ODie else OStuck
       | [] => if same q (text "HashMap") && same f (text "new") then OGo (RvHash []) c else OStuck
       | _ => OStuck
       end.
Definition plain_call (f : bytes) (args : list rv) (c : cursor) : ores rv :=
  match loc f with
  | Some g => match args with [RvCur] => g c | _ => OStuck end
  | None => match args with
            | [v] => if same f (text "Ok") then OGo (RvOk v) c else if same f (text "Err") then OGo (RvErr v) c else if same f (text "Some") then OGo (RvSome v) c else OStuck
            | _ => OStuck
            end
  end.
(** a struct expression initialises every field, once *)
Fixpoint all_in {A} (l : list (bytes * A)) (ns : list bytes) : option (list (bytes * A)) :=
  match ns with
  | [] => Some []
  | n :: ns => match rfind n l, all_in l ns with Some v, Some vs => Some ((n, v) :: vs) | _, _ => None end
  end.
Definition build (t : bytes) (l : list (bytes * rv)) : option rv :=
  match find_struct P t with
  | Some ns => if Nat.eqb (length l) (length ns) then option_map (RvStruct t) (all_in l ns) else None
  | None => None
  end.
(** ---- Expressions ---- *)
Section Each.
Variable ev : rexpr -> cursor -> ores rv.
Fixpoint reval_all (l : list rexpr) (c : cursor) : ores (list rv) :=
  match l with
  | [] => OGo [] c
  | e :: l => oseq (ev e c) (fun v c => oseq (reval_all l c) (fun vs c => OGo (v :: vs) c))
  end.
Fixpoint reval_fields (l : list (bytes * rexpr)) (c : cursor) : ores (list (bytes * rv)) :=
  match l with
  | [] => OGo [] c
  | (n, e) :: l => oseq (ev e c) (fun v c => oseq (reval_fields l c) (fun vs c => OGo ((n, v) :: vs) c))
  end.
End Each.
Fixpoint reval (E : renv) (e : rexpr) (c : cursor) {struct e} : ores rv :=
  match e with
  | EVar n => match rfind n E with Some v => OGo v c | None => OStuck end
  | EConst s => match const_of s with Some v => OGo v c | None => OStuck end
  | EField e f => oseq (reval E e c) (fun v c => match v with RvStruct _ fs => match rfind f fs with Some v => OGo v c | None => OStuck end | _ => OStuck end)
  | EMet e m args => oseq (reval E e c) (fun v c => oseq (reval_all (reval E) args c) (fun vs c => method v m vs c))
  | ECall None f args => oseq (reval_all (reval E) args c) (fun vs c => plain_call f vs c)
  | ECall (Some q) f args => oseq (reval_all (reval E) args c) (fun vs c => path_call q f vs c)
  | ETry e => oseq (reval E e c) (fun v c => match v with RvOk v => OGo v c | RvErr x => ORet (RvErr x) c | _ => OStuck end)
  | ERef e | EDeref e => reval E e c
  | ECast e => oseq (reval E e c) (fun v c => match v with RvEnum _ n => OGo (RvPrim (VU32 n)) c | _ => OStuck end)
  | EStruct t fs => oseq (reval_fields (reval E) fs c) (fun l c => match build t l with Some v => OGo v c | None => OStuck end)
  end.
(** ---- Statements ---- *)
(** the end of a block: its variables go *)
Definition leave (E : renv) (x : ores renv) : ores renv := oseq x (fun E' c => OGo (skipn (length E' - length E) E') c).
Section Block.
Variable ex : renv -> cursor -> rstmt -> ores renv.
Fixpoint rexec_list (E : renv) (c : cursor) (l : list rstmt) : ores renv :=
  match l with [] => OGo E c | s :: l => oseq (ex E c s) (fun E c => rexec_list E c l) end.
Definition block (E0 E : renv) (c : cursor) (l : list rstmt) : ores renv := leave E0 (rexec_list E c l).
End Block.
Section Loops.
Variable body : renv -> cursor -> ores renv.
Fixpoint times (n : nat) (E : renv) (c : cursor) : ores renv :=
  match n with O => OGo E c | S n => oseq (body E c) (fun E c => times n E c) end.
End Loops.
Section Loops2.
Context {A : Type}.
Variable body : A -> renv -> cursor -> ores renv.
Fixpoint over (xs : list A) (E : renv) (c : cursor) : ores renv :=
  match xs with [] => OGo E c | x :: xs => oseq (body x E c) (fun E c => over xs E c) end.
End Loops2.
Fixpoint rexec (E : renv) (c : cursor) (s : rstmt) {struct s} : ores renv :=
  match s with
  | SDo (EMet (EVar n) m args) =>
      (* push and insert change the variable *)
      oseq (reval_all (reval E) args c) (fun vs c =>
        match rfind n E, vs with
        | Some (RvVec l), [v] => if String.eqb m ".push" then OGo (rset n (RvVec (l ++ [v])) E) c else OStuck
        | Some (RvHash l), [RvPrim k; v] => if String.eqb m ".insert" then OGo (rset n (RvHash (hinsert k v l)) E) c else OStuck
        | _, _ => OStuck
        end)
  | SDo e => oseq (reval E e c) (fun _ c => OGo E c)
  | SLet _ n e => oseq (reval E e c) (fun v c => OGo ((n, v) :: E) c)
  | SIf e a => oseq (reval E e c) (fun v c => match v with RvBool true => block rexec E E c a | RvBool false => OGo E c | _ => OStuck end)
  | SIfOk n e a => oseq (reval E e c) (fun v c => match v with RvOk x => block rexec E ((n, x) :: E) c a | RvErr _ => OGo E c | _ => OStuck end)
  | SFor p e a =>
      oseq (reval E e c) (fun v c =>
        match p, v with
        | PName n, RvVec l => over (fun x E c => block rexec E ((n, x) :: E) c a) l E c
        | PPair k x, RvHash l => over (fun e E c => block rexec E ((x, snd e) :: (k, RvPrim (fst e)) :: E) c a) l E c
        | _, _ => OStuck
        end)
  | STimes e a => oseq (reval E e c) (fun v c => match v with RvSize n => times (fun E c => block rexec E E c a) (Z.to_nat n) E c | _ => OStuck end)
  | SReturn e | STail e => oseq (reval E e c) (fun v c => ORet v c)
  | SFn _ _ _ => OGo E c
  end.
(** a function: its value is that of its tail or of a return *)
Definition run_body (E : renv) (a : list rstmt) (c : cursor) : ores rv := oval (fun _ _ => OStuck) (rexec_list rexec E c a).
End Level.

(** the local functions of a body *)
Fixpoint find_fn (n : bytes) (a : list rstmt) : option (rty * list rstmt) :=
  match a with [] => None | SFn m t b :: a => if same n m then Some (t, b) else find_fn n a | _ :: a => find_fn n a end.
Definition b_cur : bytes * rv := (text "b", RvCur).
Definition locals enc dec (a : list rstmt) (n : bytes) : option (cursor -> ores rv) :=
  match find_fn n a with Some (t, b) => Some (run_body enc dec (fun _ => None) t [b_cur] b) | None => None end.
(** the functions of the file; [fuel]: how many of them may be active at a time *)
Fixpoint rs_run_decode (fuel : nat) (t : bytes) (c : cursor) : ores rv :=
  match fuel with
  | O => ODeep
  | S fuel => match find_decode P t with
              | Some a => run_body (fun _ _ _ => OStuck) (rs_run_decode fuel) (locals (fun _ _ _ => OStuck) (rs_run_decode fuel) a) (TyName t) [b_cur] a c
              | None => OStuck
              end
  end.
Fixpoint rs_run_encode (fuel : nat) (t : bytes) (x : rv) (c : cursor) : ores rv :=
  match fuel with
  | O => ODeep
  | S fuel => match find_encode P t with
              | Some a => run_body (rs_run_encode fuel) (fun _ _ => OStuck) (fun _ => None) (TyName t) [b_cur; (text "self", x)] a c
              | None => OStuck
              end
  end.
End Run.
