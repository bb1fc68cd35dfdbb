(** The part of Go that generated code uses: syntax, and what running it does (The Go Programming Language
    Specification).  GoEmit writes the templates of /repo/generator/golang/templates in this syntax.

    Memory is a list of objects (structs, arrays, maps) that pointers, slices and maps refer to by position, so
    two of them may be the same.  Simplifications:
    - a slice covers the whole of its array, and a nil slice is an empty one that has none; byte slices are values;
    - "range" visits a copy of the elements, a map in the order of its list; int has 64 bits;
    - one decoder and one buffer per run: the unread input, and the encoder calls made so far, are part of the state;
      what the library's functions do is given by [prim] (the models of decode.go);
    - stack frames are counted for functions that have [fn_frame] (those of messages), as in GenModel;
    - [Stuck] is what the compiler would not accept (an unknown name, a type that does not fit); only what is
      executed is looked at. *)
From Coq Require Import String.
From Verif Require Import Base Spec GenTables GenModel GenTrace NameModel EmitModel.

(** ---- Syntax ---- *)
Inductive expr :=
| Var (n : bytes)
| NilLit                                                (* nil *)
| Num (z : Z)
| Const (name : string)                                 (* polyglot.XKind *)
| Sel (e : expr) (f : bytes)                            (* e.f *)
| Idx (e i : expr)                                      (* e[i] *)
| App (f : bytes) (args : list expr)                    (* f(args): function or conversion *)
| Make (t : bytes) (n : expr)                           (* make(t, n) *)
| MakeM (k v : bytes) (n : expr)                        (* make(map[k]v, n) *)
| Lit (t : bytes) (fs : list (bytes * expr))            (* &t{f: e, ...} *)
| Lib (f : string) (e : expr)                           (* polyglot.f(e) *)
| Met (e : expr) (m : string) (args : list expr)        (* e.m(args); m with its dot *)
| Not (e : expr)
| Eq (a b : expr)
| Neq (a b : expr).
Inductive stmt :=
| Do (e : expr)
| Let (n t : bytes)                                     (* var n t *)
| Define (ns : list bytes) (e : expr)                   (* ns := e *)
| Assign (ls : list expr) (e : expr)                    (* ls = e *)
| If (c : expr) (a b : list stmt)
| Count (i : bytes) (n : expr) (body : list stmt)       (* for i := uint32(0); i < n; i++ *)
| Range (k v : bytes) (e : expr) (body : list stmt)     (* for k, v := range e *)
| Return (es : list expr)
| Defer (e : expr).
Inductive tdecl := TyEnum | TyMap (k v : bytes) | TyStruct (fs : list (bytes * bytes)).
(** types as written in a signature: a type text, map[k]v, *polyglot.Buffer, *polyglot.Decoder (v2: *polyglot.BufferDecoder) *)
Inductive tyx := XText (t : bytes) | XMap (k v : bytes) | XBuffer | XDecoder.
(** a function: receiver type, name, parameters (the receiver first) with their types, result, body *)
Record func := mkfunc { fn_recv : option bytes; fn_name : bytes; fn_params : list bytes; fn_types : list tyx; fn_result : option tyx;
  fn_body : list stmt; fn_frame : bool }.
Inductive decl := DVar (n : bytes) | DType (n : bytes) (t : tdecl) | DConst (n t : bytes) (v : Z) | DFunc (f : func).

(** ---- Values and memory ---- *)
Inductive gov :=
| GoBase (v : value)                        (* predeclared types, []byte, enums, int (as VI64) *)
| GoNil | GoKind (k : Z) | GoError (e : option gerr)
| GoOwn (n : bytes)                         (* the error in a variable of the package *)
| GoPtr (t : bytes) (a : option nat)        (* *t *)
| GoSlice (t : bytes) (a : option nat)      (* []t *)
| GoMap (t : bytes) (a : option nat)        (* t, or an unnamed map type if t is empty *)
| GoDecoder | GoBuffer.
Inductive obj := OStruct (fs : list (bytes * gov)) | OArray (xs : list gov) | OMap (l : list (value * gov)).
Record st := mkst { env : list (bytes * gov); heap : list obj; inp : bytes; out : list value; made : list make }.
Inductive ex (A : Type) := Fine (a : A) | Panics | Deep | Stuck.
Arguments Fine {A}. Arguments Panics {A}. Arguments Deep {A}. Arguments Stuck {A}.
Definition ebind {A B} (x : ex A) (k : A -> ex B) : ex B :=
  match x with Fine a => k a | Panics => Panics | Deep => Deep | Stuck => Stuck end.
Notation "'let?' x ':=' e 'in' k" := (ebind e (fun x => k)) (at level 200, x pattern, e at level 100, k at level 200).
Definition need {A} (x : option A) : ex A := match x with Some a => Fine a | None => Stuck end.

Definition same (a b : bytes) : bool := if list_eq_dec Z.eq_dec a b then true else false.
Fixpoint find_name {A} (n : bytes) (l : list (bytes * A)) : option A :=
  match l with [] => None | (m, a) :: l => if same n m then Some a else find_name n l end.
Fixpoint set_name {A} (n : bytes) (a : A) (l : list (bytes * A)) : list (bytes * A) :=
  match l with [] => [] | (m, b) :: l => if same n m then (m, a) :: l else (m, b) :: set_name n a l end.
Fixpoint set_at {A} (i : nat) (a : A) (l : list A) : list A :=
  match l, i with [], _ => [] | _ :: l, O => a :: l | b :: l, S i => b :: set_at i a l end.
Fixpoint put_key {A} (k : value) (a : A) (l : list (value * A)) : list (value * A) :=
  match l with [] => [(k, a)] | (k', b) :: l => if value_eq_dec k k' then (k, a) :: l else (k', b) :: put_key k a l end.
Definition set_env (s : st) (e : list (bytes * gov)) : st := mkst e (heap s) (inp s) (out s) (made s).
Definition set_heap (s : st) (h : list obj) : st := mkst (env s) h (inp s) (out s) (made s).
Definition set_inp (s : st) (b : bytes) : st := mkst (env s) (heap s) b (out s) (made s).
Definition add_out (s : st) (v : value) : st := mkst (env s) (heap s) (inp s) (out s ++ [v]) (made s).
Definition add_made (s : st) (m : make) : st := mkst (env s) (heap s) (inp s) (out s) (made s ++ [m]).
Definition alloc (s : st) (o : obj) : nat * st := (length (heap s), set_heap s (heap s ++ [o])).

(** assignability: a value for a variable that holds [old] *)
Definition fit (old v : gov) : option gov :=
  match old, v with
  | GoBase a, GoBase b => if request_eq_dec (want a) (want b) then Some (GoBase b) else None
  | GoError _, GoError e => Some (GoError e)
  | GoError _, GoNil => Some (GoError None)
  | GoPtr t _, GoPtr t' a => if same t t' then Some (GoPtr t a) else None
  | GoPtr t _, GoNil => Some (GoPtr t None)
  | GoSlice t _, GoSlice t' a => if same t t' then Some (GoSlice t a) else None
  | GoMap t _, GoMap t' a => if same t t' || same t' [] then Some (GoMap t a) else None
  | _, _ => None
  end.

Section Run.
Variable P : list decl.
Variable room : Z -> bool.                                       (* GenTrace *)
Variable prim : option bytes -> request -> bytes -> outcome.     (* the library's decoder *)

Definition find_type (n : bytes) : option tdecl :=
  find_name n (flat_map (fun d => match d with DType n t => [(n, t)] | _ => [] end) P).
Definition same_recv (a b : option bytes) : bool :=
  match a, b with None, None => true | Some a, Some b => same a b | _, _ => false end.
Fixpoint find_func (recv : option bytes) (n : bytes) (l : list decl) : option func :=
  match l with
  | [] => None
  | DFunc f :: l => if same_recv recv (fn_recv f) && same n (fn_name f) then Some f else find_func recv n l
  | _ :: l => find_func recv n l
  end.

(** a type of the package; a local variable of the same name hides it *)
Definition type_here (s : st) (n : bytes) : option tdecl :=
  match find_name n (env s) with Some _ => None | None => find_type n end.
Definition base_type (t : bytes) : option request :=
  find_name t (map (fun p => (text (fst p), snd p)) go_types).
Definition strip (p t : bytes) : option bytes :=
  if same (firstn (length p) t) p then Some (skipn (length p) t) else None.
(** the zero value of a type that is no slice *)
Definition zero_plain (s : st) (t : bytes) : option gov :=
  if same t (text "error") then Some (GoError None)
  else match base_type t with
       | Some q => Some (GoBase (zero_prim q))
       | None =>
           match strip (text "*") t with
           | Some n => match type_here s n with Some (TyStruct _) => Some (GoPtr n None) | _ => None end
           | None => match type_here s t with
                     | Some TyEnum => Some (GoBase (VU32 0))
                     | Some (TyMap _ _) => Some (GoMap t None)
                     | _ => None
                     end
           end
       end.
Definition zero_of (s : st) (t : bytes) : option gov :=
  match base_type t, strip (text "[]") t with
  | None, Some e => match zero_plain s e with Some _ => Some (GoSlice e None) | None => None end
  | _, _ => zero_plain s t
  end.

(** The library, decode.go (v2/decode.go), decoder.go (v2/decoder.go): a failing method returns its error with a
    zero value *)
Definition lib_decode (q : request) (dst : option bytes) (s : st) : ex (list gov * st) :=
  match prim dst q (inp s) with
  | Done r v => Fine ([match v with VSlice n _ | VMap n _ _ => GoBase (VU32 n) | _ => GoBase v end; GoError None], set_inp s r)
  | Fail r e => Fine ([match q with RSlice _ | RMap _ _ => GoBase (VU32 0) | _ => GoBase (zero_prim q) end; GoError (Some e)], set_inp s r)
  | Crash => Panics
  end.
Definition decoder_method (m : string) (args : list gov) (s : st) : ex (list gov * st) :=
  if String.eqb m ".Nil" then
    match args with
    | [] => match prim None RNil (inp s) with
            | Done r _ => Fine ([GoBase (VBool true)], set_inp s r)
            | Fail r _ => Fine ([GoBase (VBool false)], set_inp s r)
            | Crash => Panics
            end
    | _ => Stuck
    end
  else if String.eqb m ".Slice" then match args with [GoKind k] => lib_decode (RSlice k) None s | _ => Stuck end
  else if String.eqb m ".Map" then match args with [GoKind k; GoKind v] => lib_decode (RMap k v) None s | _ => Stuck end
  else if String.eqb m ".Return" then match args with [] => Fine ([], s) | _ => Stuck end
  else match assoc m go_decoder_methods, args with
       | Some (q, true), [GoNil] => lib_decode q None s
       | Some (q, true), [GoBase (VBytes p)] => lib_decode q (Some p) s
       | Some (q, false), [] => lib_decode q None s
       | _, _ => Stuck
       end.
(** encode.go, encoder.go (v2): every method returns the encoder *)
Definition encoder_method (m : string) (args : list gov) (s : st) : ex (list gov * st) :=
  let write v := Fine ([GoBuffer], add_out s v) in
  if String.eqb m ".Nil" then match args with [] => write VNil | _ => Stuck end
  else if String.eqb m ".Slice" then match args with [GoBase (VU32 n); GoKind k] => write (VSlice n k) | _ => Stuck end
  else if String.eqb m ".Map" then match args with [GoBase (VU32 n); GoKind k; GoKind v] => write (VMap n k v) | _ => Stuck end
  else if String.eqb m ".Error" then match args with [GoBase (VError p)] => write (VError p) | _ => Stuck end
  else match assoc m go_encoder_methods, args with
       | Some q, [GoBase v] => if request_eq_dec q (want v) then write v else Stuck
       | _, _ => Stuck
       end.

(** reading memory *)
Definition fetch (s : st) (a : nat) : ex obj := need (nth_error (heap s) a).
Definition select (s : st) (v : gov) (f : bytes) : ex gov :=
  match v with
  | GoPtr _ (Some a) => let? o := fetch s a in match o with OStruct fs => need (find_name f fs) | _ => Stuck end
  | GoPtr _ None => Panics
  | _ => Stuck
  end.
Definition index (s : st) (v i : gov) : ex gov :=
  match v, i with
  | GoSlice _ (Some a), GoBase (VU32 i) =>
      let? o := fetch s a in
      match o with OArray xs => match nth_error xs (Z.to_nat i) with Some x => Fine x | None => Panics end | _ => Stuck end
  | GoSlice _ None, GoBase (VU32 _) => Panics
  | _, _ => Stuck
  end.
Definition length_of (s : st) (v : gov) : ex Z :=
  match v with
  | GoSlice _ (Some a) => let? o := fetch s a in match o with OArray xs => Fine (zlen xs) | _ => Stuck end
  | GoMap _ (Some a) => let? o := fetch s a in match o with OMap l => Fine (zlen l) | _ => Stuck end
  | GoSlice _ None | GoMap _ None => Fine 0
  | _ => Stuck
  end.
Definition equal (a b : gov) : ex bool :=
  match a, b with
  | GoBase a, GoBase b => Fine (if value_eq_dec a b then true else false)
  | GoPtr _ a, GoNil | GoSlice _ a, GoNil | GoMap _ a, GoNil => Fine (match a with None => true | Some _ => false end)
  | GoError e, GoNil => Fine (match e with None => true | Some _ => false end)
  | _, _ => Stuck
  end.

(** [callee recv f args]: calling a function of the package *)
Variable callee : option bytes -> bytes -> list gov -> st -> ex (list gov * st).

(** f(args): a variable is no function; then the predeclared functions, the types, the functions of the package *)
Definition apply (f : bytes) (args : list gov) (s : st) : ex (list gov * st) :=
  match find_name f (env s) with
  | Some _ => Stuck
  | None =>
      if same f (text "len") then
        match args with [v] => let? n := length_of s v in Fine ([GoBase (VI64 n)], s) | _ => Stuck end
      else if same f (text "uint32") then
        match args with [GoBase (VI64 n)] | [GoBase (VU32 n)] => Fine ([GoBase (VU32 (u32 n))], s) | _ => Stuck end
      else match find_type f with
           | Some TyEnum => match args with [GoBase (VU32 n)] => Fine ([GoBase (VU32 n)], s) | _ => Stuck end
           | Some _ => Stuck
           | None => callee None f args s
           end
  end.
Definition method (v : gov) (m : string) (args : list gov) (s : st) : ex (list gov * st) :=
  match v with
  | GoDecoder => decoder_method m args s
  | GoBuffer => encoder_method m args s
  | GoPtr t _ | GoMap t _ => callee (Some t) (text m) (v :: args) s
  | _ => Stuck
  end.
Section Lists.
Variable ev : expr -> st -> ex (list gov * st).
Definition one (e : expr) (s : st) : ex (gov * st) :=
  let? (vs, s) := ev e s in match vs with [v] => Fine (v, s) | _ => Stuck end.
Fixpoint each (es : list expr) (s : st) : ex (list gov * st) :=
  match es with
  | [] => Fine ([], s)
  | e :: es => let? (v, s) := one e s in let? (vs, s) := each es s in Fine (v :: vs, s)
  end.
(** the fields of a composite literal, on top of zero values *)
Fixpoint fill (fs : list (bytes * expr)) (x : list (bytes * gov)) (s : st) : ex (list (bytes * gov) * st) :=
  match fs with
  | [] => Fine (x, s)
  | (n, e) :: fs =>
      let? (v, s) := one e s in
      let? old := need (find_name n x) in
      let? v := need (fit old v) in
      fill fs (set_name n v x) s
  end.
End Lists.
Fixpoint zeros (s : st) (fs : list (bytes * bytes)) : option (list (bytes * gov)) :=
  match fs with
  | [] => Some []
  | (n, t) :: fs => match zero_of s t, zeros s fs with Some v, Some vs => Some ((n, v) :: vs) | _, _ => None end
  end.
Fixpoint eval (e : expr) (s : st) : ex (list gov * st) :=
  match e with
  | Var n => match find_name n (env s) with
             | Some v => Fine ([v], s)
             | None => if existsb (fun d => match d with DVar m => same n m | _ => false end) P then Fine ([GoOwn n], s) else Stuck
             end
  | NilLit => Fine ([GoNil], s)
  | Num z => Fine ([GoBase (VU32 z)], s)
  | Const name => let? k := need (assoc name go_kinds) in Fine ([GoKind k], s)
  | Sel e f => let? (v, s) := one eval e s in let? x := select s v f in Fine ([x], s)
  | Idx e i => let? (v, s) := one eval e s in let? (i, s) := one eval i s in let? x := index s v i in Fine ([x], s)
  | App f args => let? (vs, s) := each eval args s in apply f vs s
  | Make t n =>
      let? (n, s) := one eval n s in
      match n, strip (text "[]") t with
      | GoBase (VU32 n), Some e =>
          let? z := need (zero_plain s e) in
          if room n then
            let (a, s) := alloc (add_made s (MakeSlice n)) (OArray (repeat z (Z.to_nat n))) in Fine ([GoSlice e (Some a)], s)
          else Panics
      | _, _ => Stuck
      end
  | MakeM k v n =>
      let? (n, s) := one eval n s in
      match n with
      | GoBase (VU32 n) => let (a, s) := alloc (add_made s (MakeMap n)) (OMap []) in Fine ([GoMap [] (Some a)], s)
      | _ => Stuck
      end
  | Lit t fs =>
      match type_here s t with
      | Some (TyStruct ts) =>
          let? x := need (zeros s ts) in
          let? (x, s) := fill eval fs x s in
          let (a, s) := alloc s (OStruct x) in Fine ([GoPtr t (Some a)], s)
      | _ => Stuck
      end
  | Lib f e =>
      let? (v, s) := one eval e s in
      match v with
      | GoBuffer => if String.eqb f "Encoder" then Fine ([GoBuffer], s) else Stuck
      | GoBase (VBytes p) =>
          if String.eqb f "Decoder" || String.eqb f "GetDecoder" then Fine ([GoDecoder], set_inp s p) else Stuck
      | _ => Stuck
      end
  | Met e m args => let? (v, s) := one eval e s in let? (vs, s) := each eval args s in method v m vs s
  | Not e => let? (v, s) := one eval e s in match v with GoBase (VBool b) => Fine ([GoBase (VBool (negb b))], s) | _ => Stuck end
  | Eq a b => let? (a, s) := one eval a s in let? (b, s) := one eval b s in
              let? r := equal a b in Fine ([GoBase (VBool r)], s)
  | Neq a b => let? (a, s) := one eval a s in let? (b, s) := one eval b s in
               let? r := equal a b in Fine ([GoBase (VBool (negb r))], s)
  end.

(** assignment to a variable, a field, an element, a map entry *)
Definition store (l : expr) (v : gov) (s : st) : ex st :=
  match l with
  | Var n =>
      let? old := need (find_name n (env s)) in
      let? v := need (fit old v) in
      Fine (set_env s (set_name n v (env s)))
  | Sel e f =>
      let? (x, s) := one eval e s in
      match x with
      | GoPtr _ (Some a) =>
          let? o := fetch s a in
          match o with
          | OStruct fs =>
              let? old := need (find_name f fs) in
              let? v := need (fit old v) in
              Fine (set_heap s (set_at a (OStruct (set_name f v fs)) (heap s)))
          | _ => Stuck
          end
      | GoPtr _ None => Panics
      | _ => Stuck
      end
  | Idx e i =>
      let? (x, s) := one eval e s in
      let? (i, s) := one eval i s in
      match x, i with
      | GoSlice _ (Some a), GoBase (VU32 i) =>
          let? o := fetch s a in
          match o with
          | OArray xs =>
              match nth_error xs (Z.to_nat i) with
              | Some old =>
                  let? v := need (fit old v) in
                  Fine (set_heap s (set_at a (OArray (set_at (Z.to_nat i) v xs)) (heap s)))
              | None => Panics
              end
          | _ => Stuck
          end
      | GoSlice _ None, GoBase (VU32 _) => Panics
      | GoMap _ (Some a), GoBase k =>
          let? o := fetch s a in
          match o with OMap l => Fine (set_heap s (set_at a (OMap (put_key k v l)) (heap s))) | _ => Stuck end
      | GoMap _ None, GoBase _ => Panics
      | _, _ => Stuck
      end
  | _ => Stuck
  end.
Fixpoint stores (ls : list expr) (vs : list gov) (s : st) : ex st :=
  match ls, vs with
  | [], [] => Fine s
  | l :: ls, v :: vs => let? s := store l v s in stores ls vs s
  | _, _ => Stuck
  end.
Fixpoint declare (ns : list bytes) (vs : list gov) (s : st) : ex st :=
  match ns, vs with
  | [], [] => Fine s
  | n :: ns, v :: vs => declare ns vs (set_env s (if same n (text "_") then env s else (n, v) :: env s))
  | _, _ => Stuck
  end.

Inductive signal := Next | Ret (vs : list gov).
Section Blocks.
Variable run1 : stmt -> st -> ex (signal * st).
Fixpoint seq (l : list stmt) (s : st) : ex (signal * st) :=
  match l with
  | [] => Fine (Next, s)
  | c :: l => let? (g, s) := run1 c s in match g with Next => seq l s | Ret vs => Fine (Ret vs, s) end
  end.
(** a block: its declarations end with it *)
Definition leave (e0 e : list (bytes * gov)) : list (bytes * gov) := skipn (length e - length e0) e.
Definition block (ns : list bytes) (vs : list gov) (l : list stmt) (s : st) : ex (signal * st) :=
  let? s1 := declare ns vs s in
  let? (g, s1) := seq l s1 in
  Fine (g, set_env s1 (leave (env s) (env s1))).
End Blocks.
Fixpoint loop (body : list gov -> st -> ex (signal * st)) (items : list (list gov)) (s : st) : ex (signal * st) :=
  match items with
  | [] => Fine (Next, s)
  | vs :: items =>
      let? (g, s) := body vs s in
      match g with Next => loop body items s | Ret vs => Fine (Ret vs, s) end
  end.
Fixpoint count_from (i : Z) (n : nat) : list (list gov) :=
  match n with O => [] | S n => [GoBase (VU32 i)] :: count_from (i + 1) n end.
Definition items_of (s : st) (v : gov) : ex (list (list gov)) :=
  match v with
  | GoSlice _ (Some a) =>
      let? o := fetch s a in
      match o with OArray xs => Fine (map (fun p => [GoBase (VI64 (fst p)); snd p]) (numbered 0 xs)) | _ => Stuck end
  | GoMap _ (Some a) =>
      let? o := fetch s a in
      match o with OMap l => Fine (map (fun p => [GoBase (fst p); snd p]) l) | _ => Stuck end
  | GoSlice _ None | GoMap _ None => Fine []
  | _ => Stuck
  end.
Fixpoint exec (c : stmt) (s : st) {struct c} : ex (signal * st) :=
  match c with
  | Do e => let? (_, s) := eval e s in Fine (Next, s)
  | Let n t => let? v := need (zero_of s t) in let? s := declare [n] [v] s in Fine (Next, s)
  | Define ns e => let? (vs, s) := eval e s in let? s := declare ns vs s in Fine (Next, s)
  | Assign ls e => let? (vs, s) := eval e s in let? s := stores ls vs s in Fine (Next, s)
  | If c a b =>
      let? (v, s) := one eval c s in
      match v with
      | GoBase (VBool true) => block exec [] [] a s
      | GoBase (VBool false) => block exec [] [] b s
      | _ => Stuck
      end
  | Count i n body =>
      let? (v, s) := one eval n s in
      match v with
      | GoBase (VU32 n) => loop (fun vs => block exec [i] vs body) (count_from 0 (Z.to_nat n)) s
      | _ => Stuck
      end
  | Range k v e body =>
      let? (x, s) := one eval e s in
      let? l := items_of s x in
      loop (fun vs => block exec [k; v] vs body) l s
  | Return es => match es with
                 | [e] => let? (vs, s) := eval e s in Fine (Ret vs, s)
                 | _ => let? (vs, s) := each eval es s in Fine (Ret vs, s)
                 end
  | Defer e => Fine (Next, s)
  end.
(** a call: the body with the parameters as variables *)
Definition enter (f : func) (args : list gov) (s : st) : ex (list gov * st) :=
  let? s1 := declare (fn_params f) args (set_env s []) in
  let? (g, s1) := seq exec (fn_body f) s1 in
  Fine (match g with Ret vs => vs | Next => [] end, set_env s1 (env s)).
End Run.

(** Calling a function with [fuel] stack frames left.  *)
Section Program.
Variables (P : list decl) (room : Z -> bool) (prim : option bytes -> request -> bytes -> outcome).
Fixpoint call_go (fuel : nat) (recv : option bytes) (f : bytes) (args : list gov) (s : st) : ex (list gov * st) :=
  match fuel with
  | O => Deep
  | S fuel =>
      let step recv f args s :=
        match find_func recv f P with
        | None => Stuck
        | Some fn => if fn_frame fn then call_go fuel recv f args s else enter P room prim (call_go fuel) fn args s
        end in
      match find_func recv f P with None => Stuck | Some fn => enter P room prim step fn args s end
  end.
End Program.
