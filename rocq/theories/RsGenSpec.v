(** Vocabulary for the theorems about generated Rust code.  Only descriptors (RsGenModel: [rtype],
    [rfield], [rschema]), struct values ([gval]) and the wire format are referred to; [layout],
    [struct_type], [readable] are those of the Go theorems, applied to the same descriptors
    ([forget] drops the number of enum values). *)
From Verif Require Import Base Spec Utf8 RustModel RustSpec GenTables RsGenModel.
From Verif Require GenModel GenSpec.
Import GenModel (gval, GPrim, GList, GMap, GMsg).
Export GenSpec (no_nil, depth, prims).

Definition rfields_of (S : rschema) (m : nat) : list rfield := nth m S [].

(** [inside P S x f]: [P] holds of [x] (a struct field described by [f]) and of everything in it. *)
Section Inside.
Variable P : rfield -> gval -> Prop.
Fixpoint inside (S : rschema) (x : gval) (f : rfield) {struct x} : Prop :=
  P f x /\
  match f, x with
  | ROne (RMsg m), GMsg (Some xs) =>
      (fix each (xs : list gval) (fs : list rfield) : Prop :=
         match xs, fs with
         | x :: xs, f :: fs => inside S x f /\ each xs fs
         | _, _ => True
         end) xs (rfields_of S m)
  | RMany t, GList xs =>
      (fix each (xs : list gval) : Prop :=
         match xs with [] => True | x :: xs => inside S x (ROne t) /\ each xs end) xs
  | RMapOf _ t, GMap (Some l) =>
      (fix each (l : list (value * gval)) : Prop :=
         match l with [] => True | (_, x) :: l => inside S x (ROne t) /\ each l end) l
  | _, _ => True
  end.
End Inside.

(** What Rust can hold: strings are UTF-8, enums are one of the declared values, messages are there. *)
Definition node_ready (f : rfield) (x : gval) : Prop :=
  match f, x with
  | ROne (RScalar _), GPrim v => text_ok v
  | ROne (REnum n), GPrim (VU32 e) => e < n
  | ROne (RMsg _), GMsg None => False
  | RMapOf _ _, GMap (Some l) => Forall (fun e : value * gval => text_ok (fst e)) l
  | _, _ => True
  end.
Definition ready := inside node_ready.
(** Every Vec in the value can be allocated. *)
Definition affordable (alloc : rtype -> Z -> bool) := inside (fun f x =>
  match f, x with RMany t, GList xs => alloc t (zlen xs) = true | _, _ => True end).

(** A struct, as the Go theorems have it, and as Rust has it *)
Definition go_struct (S : rschema) (xs : list gval) (m : nat) : Prop :=
  GenSpec.struct_type (forget S) xs m.
Definition rust_struct (S : rschema) (xs : list gval) (m : nat) : Prop :=
  go_struct S xs m /\ ready S (GMsg (Some xs)) (ROne (RMsg m)) /\ no_nil (GMsg (Some xs)).
Definition bytes_of (S : rschema) (m : nat) (xs : list gval) : bytes :=
  GenSpec.layout (forget S) (GMsg (Some xs)) (GenModel.One (GenModel.Msg m)).
Definition anchored_all (S : rschema) (m : nat) (xs : list gval) : Prop :=
  GenSpec.readable (forget S) (GMsg (Some xs)) (GenModel.One (GenModel.Msg m)).

(** What can follow a message that encodes to nothing: nothing, or two bytes or more that do not start
    with a Nil or with the two kind bytes of an error. *)
Definition quiet (t : bytes) : Prop :=
  t = [] \/ exists a b u, t = a :: b :: u /\ a <> 0 /\ ~ (a = 6 /\ b = 5).

(** Nil maps come back empty. *)
Fixpoint settle (x : gval) : gval :=
  match x with
  | GPrim v => GPrim v
  | GList xs => GList (map settle xs)
  | GMap None => GMap (Some [])
  | GMap (Some l) => GMap (Some (map (fun e : value * gval => (fst e, settle (snd e))) l))
  | GMsg None => GMsg None
  | GMsg (Some xs) => GMsg (Some (map settle xs))
  end.

(** No message is missing (nil) anywhere in the value; nil maps may be. *)
Fixpoint messages_present (x : gval) : Prop :=
  match x with
  | GPrim _ => True
  | GList xs => (fix each (xs : list gval) := match xs with [] => True | x :: xs => messages_present x /\ each xs end) xs
  | GMap None => True
  | GMap (Some l) =>
      (fix each (l : list (value * gval)) := match l with [] => True | (_, x) :: l => messages_present x /\ each l end) l
  | GMsg None => False
  | GMsg (Some xs) => (fix each (xs : list gval) := match xs with [] => True | x :: xs => messages_present x /\ each xs end) xs
  end.

(** The decoder moved forward in the same buffer, or stayed. *)
Definition forward (c c' : cursor) : Prop := buf c' = buf c /\ pos c <= pos c' <= zlen (buf c).

(** Message [a] mentions message [b]: singular, repeated or as a map value. *)
Definition mentions (S : rschema) (a b : nat) : Prop :=
  exists f, In f (rfields_of S a) /\
    match f with ROne t | RMany t | RMapOf _ t => t = RMsg b end.
(** [b] can be reached from [a] by mentions (in any number of steps). *)
Inductive reaches (S : rschema) : nat -> nat -> Prop :=
| reaches_refl a : reaches S a a
| reaches_step a b c : mentions S a b -> reaches S b c -> reaches S a c.
Definition has_map (S : rschema) (m : nat) : Prop := exists k t, In (RMapOf k t) (rfields_of S m).
