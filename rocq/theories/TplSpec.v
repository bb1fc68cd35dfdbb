(** What a protobuf file must look like for its generated Go text to be well formed, in terms of descriptors. *)
From Coq Require Import String.
From Verif Require Import Base Spec GenTables NameModel NameSpec EmitModel EmitSpec TplGo.
Local Open Scope list_scope.

(** the Go name of a descriptor is an identifier *)
Definition go_ident (s : bytes) : Prop := exists r, CamelCase s = Ok r /\ identifier r.
(** scalar kinds: all but enum, message and (the long deprecated) group *)
Definition scalar (k : pkind) : Prop := k <> KGroup /\ k <> KEnum /\ k <> KMessage.
(** a type that has a Go type.  A repeated enum: CamelCase gets the full name with "[]" before it, so that its first letter
    is not made upper case; it may be a keyword then. *)
Definition go_type (many : bool) (t : ftyp) : Prop :=
  match t with
  | TScalar k => scalar k
  | TEnum s => if many then exists w, CamelCase (str "[]" ++ s) = Ok (str "[]" ++ w) /\ identifier w /\ ~ In w go_keywords else go_ident s
  | TMsg s => go_ident s
  | TMap _ _ => False
  end.
Definition go_field (fd : fieldd) : Prop :=
  go_ident (f_name fd) /\
  match f_typ fd with
  | TMap k v => f_many fd = true /\ go_ident (f_full fd) /\ go_type false v /\ exists k', k = TScalar k' /\ scalar k'
  | t => go_type (f_many fd) t
  end.
Definition go_enum (e : enumd) : Prop := go_ident (e_full e) /\ forall v, In v (e_values e) -> go_ident (v_full v).
Record nameable (f : filed) : Prop := {
  nm_enums : forall e, In e (d_enums f) -> go_enum e;
  nm_nested : forall m e, In m (d_msgs f) -> In e (m_enums m) -> go_enum e;
  nm_messages : forall m, has_message f m -> go_ident (m_full m);
  nm_fields : forall m fd, has_message f m -> In fd (m_fields m) -> go_field fd
}.
(** descriptors as protoc passes them: full names are identifiers joined by dots, map fields are repeated and have scalar
    keys, maps have neither maps nor groups as values *)
Definition plain_name (s : bytes) : Prop := full_name s /\ exists c t, s = c :: t /\ letter c.
Definition legal_type (many : bool) (t : ftyp) : Prop :=
  match t with
  | TScalar k => scalar k
  | TEnum s => plain_name s /\ (many = true -> ~ In s go_keywords)
  | TMsg s => plain_name s
  | TMap _ _ => False
  end.
Definition legal_field (fd : fieldd) : Prop :=
  plain_name (f_name fd) /\ plain_name (f_full fd) /\
  match f_typ fd with
  | TMap k v => f_many fd = true /\ legal_type false v /\ exists k', k = TScalar k' /\ scalar k'
  | t => legal_type (f_many fd) t
  end.
Definition legal_enum (e : enumd) : Prop := plain_name (e_full e) /\ forall v, In v (e_values e) -> plain_name (v_full v).
Record legal_file (f : filed) : Prop := {
  lf_enums : forall e, In e (d_enums f) -> legal_enum e;
  lf_nested : forall m e, In m (d_msgs f) -> In e (m_enums m) -> legal_enum e;
  lf_messages : forall m, has_message f m -> plain_name (m_full m) /\ forall fd, In fd (m_fields m) -> legal_field fd
}.
(** what the header has of the file *)
Definition one_line (l : bytes) : Prop := ~ In 10 l.
Definition package_name (p : bytes) : Prop := identifier p /\ ~ In p go_keywords.
(** how deep messages are nested *)
Fixpoint height (m : msgd) : nat := match m with mkmsg _ _ _ _ nested => S (list_max (map height nested)) end.
Definition depth (f : filed) : nat := list_max (map height (d_msgs f)).
