(** What a protobuf file must look like for its generated TypeScript text to be read as intended, in terms of descriptors. *)
From Coq Require Import String.
From Verif Require Import Base Spec GenTables NameModel NameSpec EmitModel EmitSpec TplGo TplSpec RsTplSpec.
Local Open Scope list_scope.

(** the same conditions as for Rust: fields and enum values are named with identifiers, CamelCase makes identifiers of the full
    names of enums and messages, types are those a descriptor has *)
Definition ts_nameable (f : filed) : Prop := rs_nameable f.
Definition ts_legal_file (f : filed) : Prop := rs_legal_file f.
(** no line ends in it: ASCII text without line feed and carriage return *)
Definition js_line (l : bytes) : Prop := forall c, In c l -> c <> 10 /\ c <> 13 /\ c < 128.
(** a name that can be imported *)
Definition importable (n : string) : Prop := identifier (text n).
