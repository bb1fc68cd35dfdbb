(** Specification of C86 and C87: byte strings instead of memory. *)
From Verif Require Import Base Spec BufSpec AliasModel.
From Verif Require V1Model V2Model.

(** ** C86: the log of a client that feeds a buffer its own contents

    The state is what the buffer holds and what each kept slice reads. *)
Definition part (l : bytes) (i j : Z) : bytes := ztake (j - i) (zdrop i l).
Definition own_log {op} (log : bytes -> op -> bytes) (forget : op -> bool)
  (s : bytes * list bytes) (a : ract op) : bytes * list bytes :=
  let (l, hs) := s in
  match a with
  | ROp o => (log l o, if forget o then [] else hs)
  | RTake i j => (l, hs ++ [part l i j])
  | RBytes k => (l ++ wire (VBytes (nth k hs [])), hs)
  | RWrite k => (l ++ nth k hs [], hs)
  end.
(** arguments in range; [size] bounds the byte slices *)
Definition own_ok {op} (ok : bytes -> op -> Prop) (size : Z) (s : bytes * list bytes) (a : ract op) : Prop :=
  let (l, hs) := s in
  match a with
  | ROp o => ok l o
  | RTake i j => 0 <= i <= j /\ j <= zlen l
  | RBytes k => (k < length hs)%nat /\ zlen (nth k hs []) < size
  | RWrite k => (k < length hs)%nat
  end.
Fixpoint own_ok_all {op} (log : bytes -> op -> bytes) (forget : op -> bool) (ok : bytes -> op -> Prop) (size : Z)
  (s : bytes * list bytes) (l : list (ract op)) : Prop :=
  match l with
  | [] => True
  | a :: l => own_ok ok size s a /\ own_ok_all log forget ok size (own_log log forget s a) l
  end.
Definition forget1 (o : V1Model.op) : bool := match o with V1Model.OReset => true | _ => false end.
Definition forget2 (o : V2Model.op) : bool :=
  match o with V2Model.OReset | V2Model.OMove _ => true | _ => false end.

(** the encoding of a byte slice of [n] bytes up to its contents *)
Definition hdr (n : Z) : bytes := 4 :: 10 :: varint n.

(** ** C87: decoding into destinations *)

(** a slice within its array *)
Definition sound (h : heap) (s : slice) : Prop :=
  (sarr s < length h)%nat /\ 0 <= lo s /\ 0 <= slen s <= scap s /\ lo s + scap s <= zlen (array h (sarr s)).
(** cell [i] of array [a] belongs to the memory of the slice, up to its capacity *)
Definition owns (s : slice) (a : nat) (i : Z) : Prop := sarr s = a /\ lo s <= i < lo s + scap s.
(** ... up to its length *)
Definition shows (s : slice) (a : nat) (i : Z) : Prop := sarr s = a /\ lo s <= i < lo s + slen s.
(** destinations of a list of calls *)
Definition dests (cs : list hcall) : list slice :=
  flat_map (fun c => match c with CBytes (Some s) => [s] | _ => [] end) cs.
(** the destinations share no memory with the input [d] and with each other *)
Definition apart (d : slice) (cs : list hcall) : Prop :=
  (forall s a i, In s (dests cs) -> owns s a i -> ~ shows d a i) /\
  (forall i j s t a k, nth_error (dests cs) i = Some s -> nth_error (dests cs) j = Some t ->
     owns s a k -> owns t a k -> i = j).
(** the request a call makes, and the value of its result in a heap *)
Definition req (c : hcall) : request := match c with CBytes _ => Spec.RBytes | CRead q => q end.
Definition final (h : heap) (v : hval) : value :=
  match v with HSlice s => VBytes (ocontent h s) | HValue v => v end.
(** the byte-string decoders with the destinations' contents, in sequence *)
Fixpoint read_calls (dec : option bytes -> request -> bytes -> outcome) (h : heap) (cs : list hcall) (b : bytes)
  : option (list value * bytes) :=
  match cs with
  | [] => Some ([], b)
  | c :: cs =>
      match dec (match c with CBytes (Some s) => Some (content h s) | _ => None end) (req c) b with
      | Done b v => match read_calls dec h cs b with
                    | Some (vs, b) => Some (v :: vs, b)
                    | None => None
                    end
      | _ => None
      end
  end.

(** whatever shares no memory with a destination reads the same before and after *)
Definition preserved (cs : list hcall) (h h' : heap) : Prop :=
  forall s, sound h s -> (forall t a i, In t (dests cs) -> owns t a i -> ~ shows s a i) -> content h' s = content h s.
(** the results stay as they are when memory that existed before the calls (the input, say) is
    overwritten later, unless it was given as a destination; and no two of them share memory *)
Definition independent (cs : list hcall) (h h' : heap) (vs : list hval) : Prop :=
  (forall a i p, (a < length h)%nat -> (forall s, In s (dests cs) -> sarr s <> a) ->
     map (final (put h' a i p)) vs = map (final h') vs) /\
  (forall i j t u a k, nth_error vs i = Some (HSlice (Some t)) -> nth_error vs j = Some (HSlice (Some u)) ->
     owns t a k -> owns u a k -> i = j).
