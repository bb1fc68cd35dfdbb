(** Descriptors the statement about type checking (C94) leaves out. *)
From Coq Require Import String.
From Verif Require Import Base GenTables NameModel EmitModel EmitSpec CompSpec GoEmit.

(** protobuf's own rule for map keys *)
Definition keys_legal (f : filed) : Prop :=
  forall m fd kt vt, has_message f m -> In fd (m_fields m) -> f_typ fd = TMap kt vt -> legal_key (kind_of kt).
(** enum values are numbered in a uint32 *)
Definition enums_fit (f : filed) : Prop := forall e, shallow_enum f e -> zlen (e_values e) <= 2 ^ 32.
(** no repeated field has an enum type which Go calls Uint32 (the generator writes its type as []uint32) *)
Definition no_uint32 (f : filed) : Prop :=
  forall m fd s, has_message f m -> In fd (m_fields m) -> f_many fd = true -> f_typ fd = TEnum s -> camel s <> text "Uint32".

(** What the Go generator supports, in protobuf's terms. *)
Definition supported_field (fd : fieldd) : Prop :=
  match f_typ fd with
  | TScalar k => k <> KGroup /\ (f_many fd = true -> k <> KBytes)
  | TEnum _ => f_many fd = false
  | TMsg _ => True
  | TMap _ v => v <> TScalar KGroup /\ v <> TScalar KBytes
  end.
Definition no_map (fd : fieldd) : Prop := forall k v, f_typ fd <> TMap k v.
Definition supported (f : filed) : Prop :=
  forall m, has_message f m -> (forall fd, In fd (m_fields m) -> supported_field fd) /\ (m_fields m = [] \/ exists fd, In fd (m_fields m) /\ no_map fd).
