(** Vocabulary for the theorems about failed decoding and memory (GenTrace). *)
From Verif Require Import Base Spec GenTables GenModel GenSpec GenTrace.

(** What is left of a result if the partial struct is forgotten. *)
Definition outcome_of {A} (x : tres A) : gres A :=
  match x with
  | TDone r a => GDone r a | TErr e _ => GErr e
  | TPanic => GPanic | TDeep => GDeep | TBroken => GBroken
  end.
Definition unlimited (_ : Z) : bool := true.

(** The makes up to and including the first slice for which there is no room, if there is one. *)
Fixpoint refused (room : Z -> bool) (l : list make) : option (list make) :=
  match l with
  | [] => None
  | MakeSlice n :: l => if room n then option_map (cons (MakeSlice n)) (refused room l) else Some [MakeSlice n]
  | MakeMap n :: l => option_map (cons (MakeMap n)) (refused room l)
  end.
(** An execution with limited memory: the same, or a panic at the first refused make. *)
Definition limit {A} (room : Z -> bool) (x : run A) : run A :=
  match refused room (fst x) with None => x | Some l => (l, TPanic) end.

(** Elements (slots of slices and maps) asked for. *)
Definition asked (m : make) : Z := match m with MakeSlice n | MakeMap n => n end.
Definition total (l : list make) : Z := fold_right (fun m s => asked m + s) 0 l.

(** The positions of a message's fields in the order in which they are encoded and decoded: scalars,
    then repeated fields, then messages and maps. *)
Fixpoint places (p : field -> bool) (fs : list field) (i : nat) : list nat :=
  match fs with
  | [] => []
  | f :: fs => if p f then i :: places p fs (S i) else places p fs (S i)
  end.
Definition wire_order (fs : list field) : list nat :=
  places is_scalar fs 0 ++ places is_repeated fs 0 ++ places is_message fs 0.

(** No message type can be decoded from nothing, and (version 2) there are no repeated bytes fields, whose
    elements can be decoded from nothing (C14). *)
Definition every_element_counts (v2 : bool) (S : schema) : Prop :=
  (forall m, ~ vacuous v2 S m) /\
  (v2 = true -> forall fs, In fs S -> ~ In (Many (Scalar KBytes)) fs).

(** The encoding of field number [j] of a struct of type [m]. *)
Definition piece (S : schema) (m : nat) (xs : list gval) (j : nat) : bytes :=
  match nth_error xs j, nth_error (fields_of S m) j with
  | Some x, Some f => layout S x f
  | _, _ => []
  end.
(** What field number [j] holds after [xs] was decoded into [old]. *)
Definition field_after (v2 : bool) (S : schema) (blank : nat -> list gval) (m : nat) (xs old : list gval) (j : nat)
  : option gval :=
  match nth_error xs j, nth_error (fields_of S m) j, nth_error old j with
  | Some x, Some f, Some o => Some (overlay v2 S blank v2 x f o)
  | _, _, _ => None
  end.
(** The members at some positions, in that order. *)
Definition pick {A} (is : list nat) (l : list A) : list A :=
  flat_map (fun i => match nth_error l i with Some a => [a] | None => [] end) is.
(** The schema with one more message type, made of some of the fields of message [m] (in the order given). *)
Definition with_part (S : schema) (m : nat) (is : list nat) : schema := S ++ [pick is (fields_of S m)].
(** No message has a repeated field or a map. *)
Definition singular_only (S : schema) : Prop :=
  forall fs f, In fs S -> In f fs -> match f with One _ => True | _ => False end.

(** What a field of type [f] that contained [old] contains after decoding it from [b] failed with [e].
    [T], [D]: the decoder of messages (fuel, message, struct, input), with and without the struct after an error;
    [prim]: the library's decoder; [create]: NewM(); [again]: whether old messages are decoded into again. *)
Section LeftBehind.
Variable T : nat -> nat -> list gval -> bytes -> run (list gval).
Variable D : schema -> nat -> nat -> option (list gval) -> bytes -> option (gres (list gval)).
Variable prim : request -> bytes -> outcome.
Variable create : nat -> list gval -> Prop.
Variable S : schema.
Variable fuel : nat.
(** An element of a slice, or a singular field. *)
Inductive torn (again : bool) : ftype -> gval -> bytes -> gerr -> gval -> Prop :=
| T_scalar k old b e : torn again (Scalar k) old b e (zero (One (Scalar k)))
| T_again m s b l e ys : again = true -> T fuel m s b = (l, TErr e ys) -> torn again (Msg m) (GMsg (Some s)) b e (GMsg (Some ys))
| T_new m old s b l e ys : again = false \/ old = GMsg None -> create m s -> T fuel m s b = (l, TErr e ys) ->
    torn again (Msg m) old b e (GMsg (Some ys)).
Inductive left_behind (again : bool) : field -> gval -> bytes -> gerr -> gval -> Prop :=
| L_one t old b e y : torn again t old b e y -> left_behind again (One t) old b e y
| L_slice_header t old b e r :               (* no Slice header: nothing changed *)
    prim (RSlice (announced t)) b = Fail r e -> left_behind again (Many t) old b e old
| L_slice t os base b n k r n' r' e ys z :   (* [ys] were read: what a slice of [n'] elements would contain *)
    prim (RSlice (announced t)) b = Done r (VSlice n k) ->
    base = (if zlen os =? n then os else repeat (zero (One t)) (Z.to_nat n)) ->
    D (S ++ [[Many t]]) (Datatypes.S fuel) (length S) (Some [GList (firstn n' base)]) (wire (VSlice (Z.of_nat n') (announced t)) ++ r)
      = Some (GDone r' [GList ys]) ->
    (n' < length base)%nat -> torn true t (nth n' base (zero (One t))) r' e z ->
    left_behind again (Many t) (GList os) b e (GList (ys ++ z :: skipn (Datatypes.S n') base))
| L_map_header kk t old b e r :
    prim (RMap (announced (Scalar kk)) (announced t)) b = Fail r e -> left_behind again (MapOf kk t) old b e old
| L_map kk t old b n k1 k2 r n' r' e y :     (* the first [n'] entries were read *)
    prim (RMap (announced (Scalar kk)) (announced t)) b = Done r (VMap n k1 k2) -> Z.of_nat n' < n ->
    D (S ++ [[MapOf kk t]]) (Datatypes.S fuel) (length S) (Some [GMap None]) (wire (VMap (Z.of_nat n') (announced (Scalar kk)) (announced t)) ++ r)
      = Some (GDone r' [GMap (Some y)]) ->
    D (S ++ [[MapOf kk t]]) (Datatypes.S fuel) (length S) (Some [GMap None]) (wire (VMap (Z.of_nat n' + 1) (announced (Scalar kk)) (announced t)) ++ r)
      = Some (GErr e) ->
    left_behind again (MapOf kk t) old b e (GMap (Some y)).
End LeftBehind.
