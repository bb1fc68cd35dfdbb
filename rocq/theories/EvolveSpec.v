(** Vocabulary for changes of schema: two schemas (say, of the sender and of the receiver) and which
    message types of the one correspond to which of the other. *)
From Verif Require Import Base Spec GenTables GenModel GenSpec.

(** [corr a b]: message [a] of the first schema corresponds to message [b] of the second. *)
Section Like.
Variable corr : nat -> nat -> Prop.
(** The same kind on the wire: int32/sint32/sfixed32, uint32/fixed32/enum, int64/sint64/sfixed64,
    uint64/fixed64, otherwise the same kind; messages: corresponding ones. *)
Definition like_type (t t' : ftype) : Prop :=
  match t, t' with
  | Scalar k, Scalar k' => announced (Scalar k) = announced (Scalar k')
  | Msg a, Msg b => corr a b
  | _, _ => False
  end.
Definition like (f f' : field) : Prop :=
  match f, f' with
  | One t, One t' | Many t, Many t' => like_type t t'
  | MapOf k t, MapOf k' t' => like_type (Scalar k) (Scalar k') /\ like_type t t'
  | _, _ => False
  end.
End Like.
(** Corresponding messages have alike fields in the same order.  Names and field numbers play no part. *)
Definition compatible (S S' : schema) (corr : nat -> nat -> Prop) : Prop :=
  forall a b, corr a b -> (a < length S)%nat /\ (b < length S')%nat /\ Forall2 (like corr) (fields_of S a) (fields_of S' b).

(** Message [m'] of [S'] is message [m] of [S] with the fields [ext] appended. *)
Definition grown (S S' : schema) (corr : nat -> nat -> Prop) (m m' : nat) (ext : list field) : Prop :=
  compatible S S' corr /\ (m < length S)%nat /\ (m' < length S')%nat /\
  exists fs, fields_of S' m' = fs ++ ext /\ Forall2 (like corr) (fields_of S m) fs.
(** Where a field stands on the wire: scalars, then repeated fields, then messages and maps. *)
Definition rank (f : field) : nat :=
  match f with One (Scalar _) => 0 | Many _ => 1 | One (Msg _) | MapOf _ _ => 2 end.
(** No field of [ext] is moved in front of one of [fs]. *)
Definition in_order (fs ext : list field) : Prop := forall f e, In f fs -> In e ext -> (rank f <= rank e)%nat.
