(** Vocabulary for the theorems about generated Go code.  Only descriptors and struct values
    (GenModel: [field], [schema], [gval]) and the wire format are referred to. *)
From Verif Require Import Base Spec GenTables GenModel.

(** Which values a protobuf scalar kind holds (protobuf's own scalar type table; an enum is its
    uint32 number). *)
Definition holds (k : pkind) (v : value) : Prop :=
  valid v /\
  match k, v with
  | KBool, VBool _ => True
  | (KInt32 | KSint32 | KSfixed32), VI32 _ => True
  | (KUint32 | KFixed32 | KEnum), VU32 _ => True
  | (KInt64 | KSint64 | KSfixed64), VI64 _ => True
  | (KUint64 | KFixed64), VU64 _ => True
  | KFloat, VF32 _ => True
  | KDouble, VF64 _ => True
  | KString, VString _ => True
  | KBytes, VBytes _ => True
  | _, _ => False
  end.

Definition fields_of (S : schema) (m : nat) : list field := nth m S [].

(** [has_type S x f]: the struct field described by [f] can contain [x].  Slices and maps have
    fewer than 2^32 elements; map keys are distinct. *)
Fixpoint has_type (S : schema) (x : gval) (f : field) {struct x} : Prop :=
  match f, x with
  | One (Scalar k), GPrim v => holds k v
  | One (Msg m), GMsg None => (m < length S)%nat
  | One (Msg m), GMsg (Some xs) =>
      (m < length S)%nat /\
      (fix each (xs : list gval) (fs : list field) : Prop :=
         match xs, fs with
         | [], [] => True
         | x :: xs, f :: fs => has_type S x f /\ each xs fs
         | _, _ => False
         end) xs (fields_of S m)
  | Many t, GList xs =>
      zlen xs < 2 ^ 32 /\
      (fix each (xs : list gval) : Prop :=
         match xs with [] => True | x :: xs => has_type S x (One t) /\ each xs end) xs
  | MapOf k t, GMap None => True
  | MapOf k t, GMap (Some l) =>
      zlen l < 2 ^ 32 /\ NoDup (map fst l) /\
      (fix each (l : list (value * gval)) : Prop :=
         match l with
         | [] => True
         | (kv, x) :: l => holds k kv /\ has_type S x (One t) /\ each l
         end) l
  | _, _ => False
  end.
Definition struct_type (S : schema) (xs : list gval) (m : nat) : Prop :=
  has_type S (GMsg (Some xs)) (One (Msg m)).

(** What an input can describe: as [has_type], but the entries of a map may repeat keys ([GMap] is then
    the sequence of entries that was sent). *)
Fixpoint sent_type (S : schema) (x : gval) (f : field) {struct x} : Prop :=
  match f, x with
  | One (Scalar k), GPrim v => holds k v
  | One (Msg m), GMsg None => (m < length S)%nat
  | One (Msg m), GMsg (Some xs) =>
      (m < length S)%nat /\
      (fix each (xs : list gval) (fs : list field) : Prop :=
         match xs, fs with
         | [], [] => True
         | x :: xs, f :: fs => sent_type S x f /\ each xs fs
         | _, _ => False
         end) xs (fields_of S m)
  | Many t, GList xs =>
      zlen xs < 2 ^ 32 /\
      (fix each (xs : list gval) : Prop :=
         match xs with [] => True | x :: xs => sent_type S x (One t) /\ each xs end) xs
  | MapOf k t, GMap None => True
  | MapOf k t, GMap (Some l) =>
      zlen l < 2 ^ 32 /\
      (fix each (l : list (value * gval)) : Prop :=
         match l with
         | [] => True
         | (kv, x) :: l => holds k kv /\ sent_type S x (One t) /\ each l
         end) l
  | _, _ => False
  end.
Definition sent_struct (S : schema) (xs : list gval) (m : nat) : Prop :=
  sent_type S (GMsg (Some xs)) (One (Msg m)).
(** The value of the last entry for [k], or [v] if there is none. *)
Fixpoint last_of {A} (k : value) (v : A) (l : list (value * A)) : A :=
  match l with
  | [] => v
  | (k', v') :: l => last_of k (if value_eq_dec k k' then v' else v) l
  end.
(** Each key once, with its last value. *)
Fixpoint last_wins {A} (l : list (value * A)) : list (value * A) :=
  match l with
  | [] => []
  | (k, v) :: l => (k, last_of k v l) :: filter (fun e => if value_eq_dec k (fst e) then false else true) (last_wins l)
  end.
(** The maps a sequence of entries stands for, throughout a value. *)
Fixpoint collapse (x : gval) : gval :=
  match x with
  | GPrim v => GPrim v
  | GList xs => GList (map collapse xs)
  | GMap None => GMap None
  | GMap (Some l) => GMap (Some (last_wins (map (fun e : value * gval => (fst e, collapse (snd e))) l)))
  | GMsg None => GMsg None
  | GMsg (Some xs) => GMsg (Some (map collapse xs))
  end.

(** [everywhere P S x f]: [P m xs] holds of every non-nil message inside [x] (including [x]
    itself); [m] is its message number. *)
Section Everywhere.
Variable P : nat -> list gval -> Prop.
Fixpoint everywhere (S : schema) (x : gval) (f : field) {struct x} : Prop :=
  match f, x with
  | One (Msg m), GMsg (Some xs) =>
      P m xs /\
      (fix each (xs : list gval) (fs : list field) : Prop :=
         match xs, fs with
         | x :: xs, f :: fs => everywhere S x f /\ each xs fs
         | _, _ => True
         end) xs (fields_of S m)
  | Many t, GList xs =>
      (fix each (xs : list gval) : Prop :=
         match xs with [] => True | x :: xs => everywhere S x (One t) /\ each xs end) xs
  | MapOf k t, GMap (Some l) =>
      (fix each (l : list (value * gval)) : Prop :=
         match l with [] => True | (_, x) :: l => everywhere S x (One t) /\ each l end) l
  | _, _ => True
  end.
End Everywhere.

(** A scalar field or a repeated (non-map) field. *)
Definition plain_field (f : field) : bool :=
  match f with One (Scalar _) | Many _ => true | _ => false end.
(** The value of the first message or map field, in declaration order. *)
Fixpoint first_message (xs : list gval) (fs : list field) : option gval :=
  match xs, fs with
  | x :: xs, f :: fs => if plain_field f then first_message xs fs else Some x
  | _, _ => None
  end.
(** A struct is anchored if it has a scalar or repeated field, or if its first message/map field
    is a map or a non-nil message.  (Otherwise what it encodes to is empty or starts with a Nil.) *)
Definition anchored (S : schema) (m : nat) (xs : list gval) : Prop :=
  existsb plain_field (fields_of S m) = true \/
  (exists y, first_message xs (fields_of S m) = Some (GMsg (Some y))) \/
  (exists y, first_message xs (fields_of S m) = Some (GMap y)).
Definition readable (S : schema) := everywhere (anchored S) S.

(** No nil message, and no nil map, anywhere inside. *)
Fixpoint no_nil (x : gval) : Prop :=
  match x with
  | GPrim _ => True
  | GList xs => (fix each (xs : list gval) := match xs with [] => True | x :: xs => no_nil x /\ each xs end) xs
  | GMap None => False
  | GMap (Some l) =>
      (fix each (l : list (value * gval)) := match l with [] => True | (_, x) :: l => no_nil x /\ each l end) l
  | GMsg None => False
  | GMsg (Some xs) => (fix each (xs : list gval) := match xs with [] => True | x :: xs => no_nil x /\ each xs end) xs
  end.
(** Nil messages only directly as struct fields, not as slice elements or map values; no nil
    maps.  [elem]: we are looking at a slice element or map value. *)
Fixpoint tidy (elem : bool) (x : gval) : Prop :=
  match x with
  | GPrim _ => True
  | GList xs => (fix each (xs : list gval) := match xs with [] => True | x :: xs => tidy true x /\ each xs end) xs
  | GMap None => False
  | GMap (Some l) =>
      (fix each (l : list (value * gval)) := match l with [] => True | (_, x) :: l => tidy true x /\ each l end) l
  | GMsg None => elem = false
  | GMsg (Some xs) => (fix each (xs : list gval) := match xs with [] => True | x :: xs => tidy false x /\ each xs end) xs
  end.

(** Nesting depth of messages. *)
Fixpoint depth (x : gval) : nat :=
  match x with
  | GPrim _ => 0
  | GList xs => (fix each (xs : list gval) := match xs with [] => 0%nat | x :: xs => Nat.max (depth x) (each xs) end) xs
  | GMap None => 0
  | GMap (Some l) =>
      (fix each (l : list (value * gval)) := match l with [] => 0%nat | (_, x) :: l => Nat.max (depth x) (each l) end) l
  | GMsg None => 1
  | GMsg (Some xs) => S ((fix each (xs : list gval) := match xs with [] => 0%nat | x :: xs => Nat.max (depth x) (each xs) end) xs)
  end.

(** [overlay keep x f old]: what a struct field of type [f] that held [old] holds after the
    encoding of [x] was decoded into it.  [blank m] is the struct NewM() returns.  [keep] (version 2,
    message directly in a struct field): a nil message leaves the old one in place and a non-nil
    one replaces it; otherwise (slice elements, map values, everything in version 1) a message is
    decoded into the old one, or into a blank one if there was none. *)
Section Overlay.
Variable v2 : bool.
Variable S : schema.
Variable blank : nat -> list gval.
Definition base (m : nat) (old : gval) : list gval :=
  match old with GMsg (Some s) => s | _ => blank m end.
Fixpoint overlay (keep : bool) (x : gval) (f : field) (old : gval) {struct x} : gval :=
  match f, x with
  | One (Msg m), GMsg None => if keep then old else GMsg (Some (base m old))
  | One (Msg m), GMsg (Some xs) =>
      GMsg (Some ((fix each (xs : list gval) (fs : list field) (olds : list gval) : list gval :=
                     match xs, fs, olds with
                     | x :: xs, f :: fs, o :: olds => overlay v2 x f o :: each xs fs olds
                     | _, _, _ => []
                     end) xs (fields_of S m) (if keep then blank m else base m old)))
  | Many t, GList xs =>
      let fresh := map (fun _ => zero (One t)) xs in
      let olds := match old with
                  | GList ys => if (length ys =? length xs)%nat then ys else fresh
                  | _ => fresh
                  end in
      GList ((fix each (xs : list gval) (olds : list gval) : list gval :=
                match xs, olds with
                | x :: xs, o :: olds => overlay false x (One t) o :: each xs olds
                | _, _ => []
                end) xs olds)
  | MapOf _ _, GMap None => GMap (Some [])
  | MapOf _ t, GMap (Some l) =>
      GMap (Some (map (fun e : value * gval => (fst e, overlay false (snd e) (One t) (GMsg None))) l))
  | _, _ => x
  end.
End Overlay.

(** All scalars inside a value, map keys included. *)
Fixpoint prims (x : gval) : list value :=
  match x with
  | GPrim v => [v]
  | GList xs => flat_map prims xs
  | GMap (Some l) => flat_map (fun e : value * gval => fst e :: prims (snd e)) l
  | GMsg (Some xs) => flat_map prims xs
  | _ => []
  end.

(** The struct NewM() returns in version 2: every field has Go's zero value. *)
Definition zero_struct (S : schema) (m : nat) : list gval := map zero (fields_of S m).

(** ---- The format of generated messages ----
    A struct's scalar fields come first, then its repeated fields, then its messages and maps, each
    group in declaration order; nil messages are a Nil.  Repeated fields and maps start with a
    Slice/Map header announcing the number of elements and the kinds of elements, keys, values. *)
Definition announced (t : ftype) : Z :=
  match t with
  | Msg _ => 3
  | Scalar k => match k with
      | KBytes => 4 | KString => 5 | KBool => 7
      | KUint32 | KFixed32 | KEnum => 10
      | KUint64 | KFixed64 => 11
      | KInt32 | KSint32 | KSfixed32 => 12
      | KInt64 | KSint64 | KSfixed64 => 13
      | KFloat => 14 | KDouble => 15
      | KMessage | KGroup => 3
      end
  end.
Definition is_scalar (f : field) : bool := match f with One (Scalar _) => true | _ => false end.
Definition is_repeated (f : field) : bool := match f with Many _ => true | _ => false end.
Definition is_message (f : field) : bool := match f with One (Msg _) | MapOf _ _ => true | _ => false end.
Definition group (p : field -> bool) (l : list (field * bytes)) : bytes :=
  concat (map snd (filter (fun e => p (fst e)) l)).
Fixpoint layout (S : schema) (x : gval) (f : field) {struct x} : bytes :=
  match f, x with
  | One (Scalar _), GPrim v => wire v
  | One (Msg _), GMsg None => [0]
  | One (Msg m), GMsg (Some xs) =>
      let l := (fix each (xs : list gval) (fs : list field) : list (field * bytes) :=
                  match xs, fs with
                  | x :: xs, f :: fs => (f, layout S x f) :: each xs fs
                  | _, _ => []
                  end) xs (fields_of S m) in
      group is_scalar l ++ group is_repeated l ++ group is_message l
  | Many t, GList xs =>
      wire (VSlice (zlen xs) (announced t)) ++ flat_map (fun x => layout S x (One t)) xs
  | MapOf k t, GMap None => wire (VMap 0 (announced (Scalar k)) (announced t))
  | MapOf k t, GMap (Some l) =>
      wire (VMap (zlen l) (announced (Scalar k)) (announced t)) ++
      flat_map (fun e : value * gval => wire (fst e) ++ layout S (snd e) (One t)) l
  | _, _ => []
  end.

(** ---- Recursion without progress ---- *)
(** Message types of which a value can be decoded without consuming any input: no repeated
    fields, no maps, no scalars (version 2: except bytes, whose decoder accepts a length of five
    continuation bytes without consuming it, see C14), only messages of the same sort. *)
Inductive vacuous (v2 : bool) (S : schema) : nat -> Prop :=
| vacuous_intro m : (m < length S)%nat ->
    (forall f, In f (fields_of S m) ->
       (v2 = true /\ f = One (Scalar KBytes)) \/ exists q, f = One (Msg q) /\ vacuous v2 S q) ->
    vacuous v2 S m.
(** Decoding an [a] can reach the decoder of its field of type [b] with no input consumed. *)
Definition left_edge (v2 : bool) (S : schema) (a b : nat) : Prop :=
  (forall f, In f (fields_of S a) -> is_repeated f = false /\
     (is_scalar f = true -> v2 = true /\ f = One (Scalar KBytes))) /\
  exists pre post, fields_of S a = pre ++ One (Msg b) :: post /\
    forall f, In f pre -> is_message f = true -> exists q, f = One (Msg q) /\ vacuous v2 S q.
(** No infinite chain of such fields starts at [m]. *)
Definition well_founded_at (v2 : bool) (S : schema) (m : nat) : Prop :=
  Acc (fun b a => left_edge v2 S a b) m.
(** [a] has a singular field of message type [b]. *)
Definition creates (S : schema) (a b : nat) : Prop := In (One (Msg b)) (fields_of S a).

(** What decoding [b] into a message of type [m] may come back with: a typed message and a rest of
    the input, an error, or a Go panic - but not a stack overflow. *)
Definition returns (S : schema) (m : nat) (b : bytes) (x : gres (list gval)) : Prop :=
  match x with
  | GDone r y => (exists c, b = c ++ r) /\ struct_type S y m
  | GErr _ | GPanic => True
  | GDeep | GBroken => False
  end.
(** A Bytes kind byte followed by a length of five continuation bytes (C14). *)
Definition bad_input : bytes := [4; 10; 128; 128; 128; 128; 128].

(** Version 1: every NewM() returns within [K] frames; the struct it returns. *)
Definition new_ok (S : schema) (K : nat) : Prop :=
  forall m, (m < length S)%nat -> exists q s, New false S K m = GDone q s.
Definition blank1 (S : schema) (K : nat) (m : nat) : list gval :=
  match New false S K m with GDone _ s => s | _ => [] end.
