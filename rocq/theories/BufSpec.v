(** Abstract byte-log specification of the two Go buffers (C22, C25-C27).  The only thing taken
    from the models is the type of client operations. *)
From Verif Require Import Base Spec.
From Verif Require V1Model V2Model.

(** v1: encoding and writing append, Reset empties. *)
Definition log1 (l : bytes) (o : V1Model.op) : bytes :=
  match o with
  | V1Model.OEncode v => l ++ wire v
  | V1Model.OWrite p => l ++ p
  | V1Model.OReset => []
  end.
Definition ok1 (o : V1Model.op) : Prop :=
  match o with V1Model.OEncode v => valid v | _ => True end.
Definition appends1 (o : V1Model.op) : Prop :=
  match o with V1Model.OReset => False | _ => True end.

(** v2: Grow changes nothing visible, moving the offset by [-k] drops the last [k] bytes. *)
Definition log2 (l : bytes) (o : V2Model.op) : bytes :=
  match o with
  | V2Model.OEncode v => l ++ wire v
  | V2Model.OWrite p => l ++ p
  | V2Model.OReset => []
  | V2Model.OGrow _ => l
  | V2Model.OMove k => ztake (zlen l + k) l
  end.
(** arguments for which v2 follows the log: values in range with byte slices below 2^28 (C06),
    Grow with a non-negative size, and moves backwards within the written bytes *)
Definition ok2 (l : bytes) (o : V2Model.op) : Prop :=
  match o with
  | V2Model.OEncode v => valid v /\ (forall p, v = VBytes p -> zlen p < 2 ^ 28)
  | V2Model.OWrite _ | V2Model.OReset => True
  | V2Model.OGrow n => 0 <= n
  | V2Model.OMove k => - zlen l <= k <= 0
  end.
(** a whole history of such operations, starting with log [l] *)
Fixpoint ok2_all (l : bytes) (ops : list V2Model.op) : Prop :=
  match ops with
  | [] => True
  | o :: ops => ok2 l o /\ ok2_all (log2 l o) ops
  end.
Definition appends2 (o : V2Model.op) : Prop :=
  match o with V2Model.OEncode _ | V2Model.OWrite _ | V2Model.OGrow _ => True | _ => False end.

(** the payload of a value: the bytes of a byte slice, string or error *)
Definition payload_of (v : value) : bytes :=
  match v with VBytes p | VString p | VError p => p | _ => [] end.
(** byte slices below 2^28 (C06) *)
Definition small (v : value) : Prop := forall p, v = VBytes p -> zlen p < 2 ^ 28.
Definition small_bytes (vs : list value) : Prop := forall p, In (VBytes p) vs -> zlen p < 2 ^ 28.
