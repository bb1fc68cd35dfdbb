(** What a protobuf file must look like for its generated Rust text to be well formed, in terms of descriptors. *)
From Coq Require Import String.
From Verif Require Import Base Spec GenTables NameModel NameSpec EmitModel EmitSpec TplGo TplSpec.
Local Open Scope list_scope.

(** a type that has a Rust type; the names of enums and messages are CamelCase'd, as in Go *)
Definition rs_type_ok (t : ftyp) : Prop :=
  match t with TScalar k => scalar k | TEnum s | TMsg s => go_ident s | TMap _ _ => False end.
(** fields are named as they are written, in snake case *)
Definition rs_field_ok (fd : fieldd) : Prop :=
  identifier (f_name fd) /\
  match f_typ fd with
  | TMap k v => (exists k', k = TScalar k' /\ scalar k') /\ rs_type_ok v
  | t => rs_type_ok t
  end.
(** values of enums are named as they are written *)
Definition rs_enum_ok (e : enumd) : Prop := go_ident (e_full e) /\ forall v, In v (e_values e) -> identifier (v_name v).
Record rs_nameable (f : filed) : Prop := {
  rn_enums : forall e, In e (d_enums f) -> rs_enum_ok e;
  rn_nested : forall m e, In m (d_msgs f) -> In e (m_enums m) -> rs_enum_ok e;
  rn_messages : forall m, has_message f m -> go_ident (m_full m);
  rn_fields : forall m fd, has_message f m -> In fd (m_fields m) -> rs_field_ok fd
}.
(** descriptors as protoc passes them *)
Definition rs_legal_type (t : ftyp) : Prop :=
  match t with TScalar k => scalar k | TEnum s | TMsg s => plain_name s | TMap _ _ => False end.
Definition rs_legal_field (fd : fieldd) : Prop :=
  identifier (f_name fd) /\
  match f_typ fd with
  | TMap k v => (exists k', k = TScalar k' /\ scalar k') /\ rs_legal_type v
  | t => rs_legal_type t
  end.
Definition rs_legal_enum (e : enumd) : Prop := plain_name (e_full e) /\ forall v, In v (e_values e) -> identifier (v_name v).
Record rs_legal_file (f : filed) : Prop := {
  rl_enums : forall e, In e (d_enums f) -> rs_legal_enum e;
  rl_nested : forall m e, In m (d_msgs f) -> In e (m_enums m) -> rs_legal_enum e;
  rl_messages : forall m, has_message f m -> plain_name (m_full m) /\ forall fd, In fd (m_fields m) -> rs_legal_field fd
}.
