(** Which protobuf descriptors the generators support, in protobuf's terms. *)
From Verif Require Import Base Spec GenTables GenModel RsGenModel.

(** protobuf's map keys *)
Definition legal_key (k : pkind) : Prop :=
  In k [KBool; KInt32; KSint32; KUint32; KInt64; KSint64; KUint64; KSfixed32; KFixed32; KSfixed64; KFixed64; KString].
(** groups are not supported; a field of kind message has a message type *)
Definition plain_kind (k : pkind) : Prop := k <> KMessage /\ k <> KGroup.

(** Go: repeated bytes, repeated enums and maps to bytes are not supported. *)
Inductive go_field (S : schema) : field -> Prop :=
| gf_one k : plain_kind k -> go_field S (One (Scalar k))
| gf_many k : plain_kind k -> k <> KBytes -> k <> KEnum -> go_field S (Many (Scalar k))
| gf_one_msg m : (m < length S)%nat -> go_field S (One (Msg m))
| gf_many_msg m : (m < length S)%nat -> go_field S (Many (Msg m))
| gf_map k v : legal_key k -> plain_kind v -> v <> KBytes -> go_field S (MapOf k (Scalar v))
| gf_map_msg k m : legal_key k -> (m < length S)%nat -> go_field S (MapOf k (Msg m)).
(** and a message must not consist of map fields only *)
Definition go_message (S : schema) (fs : list field) : Prop :=
  (forall f, In f fs -> go_field S f) /\ (fs = [] \/ exists f, In f fs /\ forall k t, f <> MapOf k t).

(** Rust: only strings, bytes and messages can be repeated; only strings can be map keys; only numbers,
    bools, enums and messages can be map values. *)
Inductive rust_field (S : rschema) : rfield -> Prop :=
| rf_one k : plain_kind k -> k <> KEnum -> rust_field S (ROne (RScalar k))
| rf_one_enum n : rust_field S (ROne (REnum n))
| rf_many k : k = KString \/ k = KBytes -> rust_field S (RMany (RScalar k))
| rf_one_msg m : (m < length S)%nat -> rust_field S (ROne (RMsg m))
| rf_many_msg m : (m < length S)%nat -> rust_field S (RMany (RMsg m))
| rf_map v : plain_kind v -> v <> KEnum -> v <> KString -> v <> KBytes -> rust_field S (RMapOf KString (RScalar v))
| rf_map_enum n : rust_field S (RMapOf KString (REnum n))
| rf_map_msg m : (m < length S)%nat -> rust_field S (RMapOf KString (RMsg m)).
(** [b] is reached from [a] through singular message fields, at least one *)
Inductive contains (S : rschema) : nat -> nat -> Prop :=
| contains_one a b : In (ROne (RMsg b)) (nth a S []) -> contains S a b
| contains_more a b c : In (ROne (RMsg b)) (nth a S []) -> contains S b c -> contains S a c.
