(** The Go compiler's checks of function bodies, for the Go of GoAst (The Go Programming Language Specification: scopes,
    assignability, conversions, calls, return statements, terminating statements, and "declared and not used").

    - ":=" is taken to declare all its names (generated code never uses it to assign);
    - a local variable named like a predeclared function or a package (len, make, polyglot) is not looked for where
      the name is used in that role by the syntax itself (make, polyglot.F);
    - which names a package may declare is the subject of PkgSpec (C89). *)
From Coq Require Import String.
From Verif Require Import Base Spec GenTables GenModel NameModel EmitModel GoAst.
Local Open Scope list_scope.

Inductive ty :=
| Basic (q : request)                       (* predeclared types and []byte *)
| IntT | ErrT | KindT | DecT | EncT | BufT  (* int, error, polyglot.Kind, *polyglot.Decoder, ... *)
| EnumT (n : bytes) | PtrT (n : bytes) | SliceT (t : ty)
| MapN (n : bytes) | MapL (k v : ty)        (* a declared map type; map[k]v *)
| NilT | NumT.                              (* nil; a number without a type *)
Definition ty_eq_dec (a b : ty) : {a = b} + {a <> b}.
Proof. decide equality; try apply request_eq_dec; apply (list_eq_dec Z.eq_dec). Defined.
Definition is_ty (a b : ty) : bool := if ty_eq_dec a b then true else false.
Definition scope : Type := list (bytes * ty).

(** does an expression read variable [n] *)
Fixpoint uses_e (n : bytes) (e : expr) : bool :=
  match e with
  | Var m => same n m
  | NilLit | Num _ | Const _ => false
  | Sel e _ | Lib _ e | Not e | Make _ e | MakeM _ _ e => uses_e n e
  | Idx a b | Eq a b | Neq a b => uses_e n a || uses_e n b
  | App _ es => existsb (uses_e n) es
  | Lit _ fs => existsb (fun f => uses_e n (snd f)) fs
  | Met e _ es => uses_e n e || existsb (uses_e n) es
  end.
(** assigning to a variable is no use of it *)
Definition uses_l (n : bytes) (l : expr) : bool := match l with Var _ => false | _ => uses_e n l end.
Section Uses.
Variable us : bytes -> stmt -> bool.
(** in the rest of a block: up to a declaration of the same name *)
Fixpoint uses_b (n : bytes) (l : list stmt) : bool :=
  match l with
  | [] => false
  | c :: l => us n c || match c with
                        | Let m _ => negb (same n m) && uses_b n l
                        | Define ms _ => negb (existsb (same n) ms) && uses_b n l
                        | _ => uses_b n l
                        end
  end.
End Uses.
Fixpoint uses (n : bytes) (c : stmt) {struct c} : bool :=
  match c with
  | Do e | Defer e | Define _ e => uses_e n e
  | Let _ _ => false
  | Assign ls e => existsb (uses_l n) ls || uses_e n e
  | If c a b => uses_e n c || uses_b uses n a || uses_b uses n b
  | Count i k body => uses_e n k || negb (same n i) && uses_b uses n body
  | Range k v e body => uses_e n e || negb (same n k) && negb (same n v) && uses_b uses n body
  | Return es => existsb (uses_e n) es
  end.
Definition uses_in : bytes -> list stmt -> bool := uses_b uses.

Section Check.
Variables (v2 : bool) (P : list decl).
Definition decl_of (n : bytes) (d : decl) : bool :=
  match d with
  | DVar m | DType m _ | DConst m _ _ => same n m
  | DFunc f => match fn_recv f with None => same n (fn_name f) | Some _ => false end
  end.
Definition declared (n : bytes) : bool := existsb (decl_of n) P.
Definition local (G : scope) (n : bytes) : bool := existsb (fun v => same n (fst v)) G.

(** ---- Types ---- *)
Definition type_named (G : scope) (n : bytes) : option ty :=
  if local G n then None
  else match find_type P n with
       | Some TyEnum => Some (EnumT n)
       | Some (TyMap _ _) => Some (MapN n)
       | Some (TyStruct _) => None
       | None => if declared n then None
                 else if same n (text "error") then Some ErrT
                 else option_map Basic (base_type n)
       end.
Definition struct_named (G : scope) (n : bytes) : option (list (bytes * bytes)) :=
  if local G n then None else match find_type P n with Some (TyStruct fs) => Some fs | _ => None end.
Definition type_elem (G : scope) (t : bytes) : option ty :=
  match strip (text "*") t with
  | Some n => option_map (fun _ => PtrT n) (struct_named G n)
  | None => type_named G t
  end.
Definition type_of (G : scope) (t : bytes) : option ty :=
  match type_elem G t, strip (text "[]") t with
  | Some x, _ => Some x
  | None, Some e => option_map SliceT (type_elem G e)
  | None, None => None
  end.
Definition type_written (G : scope) (x : tyx) : option ty :=
  match x with
  | XText t => type_of G t
  | XMap k v => match type_of G k, type_of G v with Some k, Some v => Some (MapL k v) | _, _ => None end
  | XBuffer => Some BufT
  | XDecoder => Some DecT
  end.
Fixpoint all_types (ts : list (option ty)) : option (list ty) :=
  match ts with
  | [] => Some []
  | Some t :: ts => option_map (cons t) (all_types ts)
  | None :: _ => None
  end.

(** a value of type [v] can be assigned to a variable of type [t] *)
Definition assignable (v t : ty) : bool :=
  is_ty v t ||
  match v, t with
  | NilT, (PtrT _ | SliceT _ | MapN _ | MapL _ _ | ErrT | Basic RBytes) => true
  | NumT, (Basic (RU8 | RU16 | RU32 | RU64 | RI32 | RI64 | RF32 | RF64) | IntT | EnumT _) => true
  | MapL k v, MapN n => match find_type P n with
                        | Some (TyMap kt vt) => match type_of [] kt, type_of [] vt with Some k', Some v' => is_ty k k' && is_ty v v' | _, _ => false end
                        | _ => false
                        end
  | _, _ => false
  end.
Fixpoint assign_all (vs ts : list ty) : bool :=
  match vs, ts with [], [] => true | v :: vs, t :: ts => assignable v t && assign_all vs ts | _, _ => false end.
Definition integer (t : ty) : bool := match t with Basic (RU8 | RU16 | RU32 | RU64 | RI32 | RI64) | IntT | EnumT _ | NumT => true | _ => false end.
Definition key_type (t : ty) : bool := match t with Basic RBytes => false | Basic _ | IntT | EnumT _ | PtrT _ => true | _ => false end.
Definition compared (a b : ty) : bool :=
  match a, b with
  | (PtrT _ | SliceT _ | MapN _ | MapL _ _ | ErrT | Basic RBytes), NilT => true
  | _, _ => key_type a && (assignable b a)
  end.

(** ---- The library: decoder.go, encoder.go (v2/...) ---- *)
Definition decoder_sig (m : string) (args : list ty) : option (list ty) :=
  if String.eqb m ".Nil" then match args with [] => Some [Basic RBool] | _ => None end
  else if String.eqb m ".Slice" then match args with [KindT] => Some [Basic RU32; ErrT] | _ => None end
  else if String.eqb m ".Map" then match args with [KindT; KindT] => Some [Basic RU32; ErrT] | _ => None end
  else if String.eqb m ".Return" then match args with [] => if v2 then None else Some [] | _ => None end
  else match assoc m go_decoder_methods, args with
       | Some (q, true), [a] => if assignable a (Basic RBytes) then Some [Basic q; ErrT] else None
       | Some (q, false), [] => Some [Basic q; ErrT]
       | _, _ => None
       end.
Definition encoder_sig (m : string) (args : list ty) : option (list ty) :=
  let want ts := if assign_all args ts then Some [EncT] else None in
  if String.eqb m ".Nil" then want []
  else if String.eqb m ".Slice" then want [Basic RU32; KindT]
  else if String.eqb m ".Map" then want [Basic RU32; KindT; KindT]
  else if String.eqb m ".Error" then want [ErrT]
  else match assoc m go_encoder_methods with Some q => want [Basic q] | None => None end.

(** ---- Expressions ---- *)
(** calling a function or method of the package (its receiver is the first parameter) *)
Definition call_sig (f : func) (args : list ty) : option (list ty) :=
  match all_types (map (type_written []) (fn_types f)) with
  | Some ts => if assign_all args ts
               then match fn_result f with None => Some [] | Some x => option_map (fun t => [t]) (type_written [] x) end
               else None
  | None => None
  end.
Definition method_sig (t : ty) (m : string) (args : list ty) : option (list ty) :=
  match t with
  | DecT => decoder_sig m args
  | EncT => encoder_sig m args
  | PtrT n | MapN n => match find_func (Some n) (text m) P with Some f => call_sig f (t :: args) | None => None end
  | _ => None
  end.
Definition app_sig (G : scope) (f : bytes) (args : list ty) : option (list ty) :=
  if local G f then None
  else match find_type P f, find_func None f P with
       | Some TyEnum, _ => match args with [t] => if integer t then Some [EnumT f] else None | _ => None end
       | Some _, _ => None
       | None, Some g => call_sig g args
       | None, None =>
           if declared f then None
           else if same f (text "len") then match args with [t] => match t with SliceT _ | MapN _ | MapL _ _ => Some [IntT] | _ => None end | _ => None end
           else if same f (text "uint32") then match args with [t] => if integer t then Some [Basic RU32] else None | _ => None end
           else None
       end.
Section Lists.
Variable ev : expr -> option (list ty).
Definition ty1 (e : expr) : option ty := match ev e with Some [t] => Some t | _ => None end.
Fixpoint tys (es : list expr) : option (list ty) :=
  match es with [] => Some [] | e :: es => match ty1 e, tys es with Some t, Some ts => Some (t :: ts) | _, _ => None end end.
(** the fields of a composite literal *)
Fixpoint literal (fs : list (bytes * bytes)) (l : list (bytes * expr)) : bool :=
  match l with
  | [] => true
  | (n, e) :: l =>
      match find_name n fs with
      | Some t => match type_of [] t, ty1 e with Some t, Some v => assignable v t | _, _ => false end
      | None => false
      end && negb (existsb (fun f => same n (fst f)) l) && literal fs l
  end.
End Lists.
Fixpoint ety (G : scope) (e : expr) {struct e} : option (list ty) :=
  match e with
  | Var n => match find_name n G with
             | Some t => Some [t]
             | None => if existsb (fun d => match d with DVar m => same n m | _ => false end) P then Some [ErrT] else None
             end
  | NilLit => Some [NilT]
  | Num _ => Some [NumT]
  | Const name => option_map (fun _ => [KindT]) (assoc name go_kinds)
  | Sel e f => match ty1 (ety G) e with
               | Some (PtrT n) => match find_type P n with
                                  | Some (TyStruct fs) => match find_name f fs with Some t => option_map (fun t => [t]) (type_of [] t) | None => None end
                                  | _ => None
                                  end
               | _ => None
               end
  | Idx e i => match ty1 (ety G) e, ty1 (ety G) i with
               | Some (SliceT t), Some u => if integer u then Some [t] else None
               | Some (MapN n), Some u => match find_type P n with
                                          | Some (TyMap k v) => match type_of [] k, type_of [] v with
                                                                | Some k, Some v => if assignable u k then Some [v] else None
                                                                | _, _ => None
                                                                end
                                          | _ => None
                                          end
               | _, _ => None
               end
  | App f args => match tys (ety G) args with Some ts => app_sig G f ts | None => None end
  | Make t n => match type_of G t, ty1 (ety G) n with
                | Some (SliceT t), Some u => if integer u then Some [SliceT t] else None
                | _, _ => None
                end
  | MakeM k v n => match type_of G k, type_of G v, ty1 (ety G) n with
                   | Some k, Some v, Some u => if integer u && key_type k then Some [MapL k v] else None
                   | _, _, _ => None
                   end
  | Lit t l => match struct_named G t with
               | Some fs => if literal (ety G) fs l then Some [PtrT t] else None
               | None => None
               end
  | Lib f e => match ty1 (ety G) e with
               | Some BufT => if String.eqb f "Encoder" then Some [EncT] else None
               | Some (Basic RBytes) => if String.eqb f (if v2 then "Decoder" else "GetDecoder") then Some [DecT] else None
               | _ => None
               end
  | Met e m args => match ty1 (ety G) e, tys (ety G) args with Some t, Some ts => method_sig t m ts | _, _ => None end
  | Not e => match ty1 (ety G) e with Some (Basic RBool) => Some [Basic RBool] | _ => None end
  | Eq a b | Neq a b => match ty1 (ety G) a, ty1 (ety G) b with
                        | Some a, Some b => if compared a b then Some [Basic RBool] else None
                        | _, _ => None
                        end
  end.
Definition is_call (e : expr) : bool := match e with Met _ _ _ => true | _ => false end.
(** what can be assigned to: variables, fields, elements *)
Definition place (G : scope) (l : expr) : option ty :=
  match l with
  | Var n => find_name n G
  | Sel _ _ | Idx _ _ => ty1 (ety G) l
  | _ => None
  end.

(** ---- Statements ---- *)
Definition fresh_use (here : list bytes) (rest : list stmt) (v : bytes * ty) : bool :=
  same (fst v) (text "_") || negb (existsb (same (fst v)) here) && uses_in (fst v) rest.
Section Blocks.
(** the variables a statement declares *)
Variable chk : stmt -> scope -> option scope.
(** [here]: the names declared in this block already.  Every variable is used in the rest of its block. *)
Fixpoint check_block (l : list stmt) (here : list bytes) (G : scope) : bool :=
  match l with
  | [] => true
  | c :: l => match chk c G with
              | Some vs => forallb (fresh_use here l) vs && check_block l (map fst vs ++ here) (vs ++ G)
              | None => false
              end
  end.
End Blocks.
Definition when {A} (b : bool) (a : A) : option A := if b then Some a else None.
Definition named (n : bytes) (t : ty) : scope := if same n (text "_") then [] else [(n, t)].
Fixpoint check (R : list ty) (c : stmt) (G : scope) {struct c} : option scope :=
  match c with
  | Do e | Defer e => match ety G e with Some _ => when (is_call e) [] | None => None end
  | Let n t => option_map (fun t => [(n, t)]) (type_of G t)
  | Define ns e => match ety G e with Some ts => when (Nat.eqb (length ns) (length ts)) (combine ns ts) | None => None end
  | Assign ls e => match all_types (map (place G) ls), ety G e with Some ts, Some vs => when (assign_all vs ts) [] | _, _ => None end
  | If c a b => match ety G c with
                | Some [Basic RBool] => when (check_block (check R) a [] G && check_block (check R) b [] G) []
                | _ => None
                end
  | Count i n body => match ety G n with Some [Basic RU32] => when (check_block (check R) body [] ((i, Basic RU32) :: G)) [] | _ => None end
  | Range k v e body =>
      match ety G e with
      | Some [SliceT t] => when (forallb (fresh_use [] body) (named k IntT ++ named v t) && check_block (check R) body [] (named v t ++ named k IntT ++ G)) []
      | Some [MapN n] =>
          match find_type P n with
          | Some (TyMap kt vt) =>
              match type_of [] kt, type_of [] vt with
              | Some kt, Some t => when (forallb (fresh_use [] body) (named k kt ++ named v t) && check_block (check R) body [] (named v t ++ named k kt ++ G)) []
              | _, _ => None
              end
          | _ => None
          end
      | _ => None
      end
  | Return es => match tys (ety G) es with Some ts => when (assign_all ts R) [] | None => None end
  end.
(** a function with a result ends in a return statement *)
Fixpoint ends (l : list stmt) : bool :=
  match l with [] => false | [Return _] => true | _ :: l => ends l end.
Definition check_func (f : func) : bool :=
  match all_types (map (type_written []) (fn_types f)),
        match fn_result f with None => Some [] | Some x => option_map (fun t => [t]) (type_written [] x) end with
  | Some ts, Some R =>
      Nat.eqb (length ts) (length (fn_params f)) &&
      check_block (check R) (fn_body f) (fn_params f) (combine (fn_params f) ts) &&
      match R with [] => true | _ => ends (fn_body f) end
  | _, _ => false
  end.
Definition is_some {A} (x : option A) : bool := match x with Some _ => true | None => false end.
Definition check_decl (d : decl) : bool :=
  match d with
  | DVar _ => true
  | DType _ TyEnum => true
  | DType _ (TyMap k v) => match type_of [] k, type_of [] v with Some k, Some _ => key_type k | _, _ => false end
  | DType _ (TyStruct fs) => forallb (fun f => is_some (type_of [] (snd f))) fs
  | DConst _ t v => match type_of [] t with Some (EnumT _) => (0 <=? v) && (v <? 2 ^ 32) | _ => false end
  | DFunc f => check_func f
  end.
End Check.
Definition type_checks (v2 : bool) (P : list decl) : bool := forallb (check_decl v2 P) P.
