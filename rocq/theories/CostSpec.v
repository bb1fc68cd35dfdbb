(** Specification of what v2 buffers cost (C79): the room each client call asks for, and sizes. *)
From Verif Require Import Base Spec BufSpec.
From Verif Require V2Model.

(** the room a call asks for beyond the bytes already written: for encoding a value its largest
    possible encoding (C07), for Write the bytes given, for Grow its argument *)
Definition request (o : V2Model.op) : Z :=
  match o with
  | V2Model.OEncode v => max_size v
  | V2Model.OWrite p => zlen p
  | V2Model.OGrow n => n
  | V2Model.OReset | V2Model.OMove _ => 0
  end.
(** the most room a history ever asks for, counting the bytes written so far *)
Fixpoint peak (l : bytes) (ops : list V2Model.op) : Z :=
  match ops with
  | [] => 0
  | o :: ops => Z.max (zlen l + request o) (peak (log2 l o) ops)
  end.
(** bytes in a list of memory blocks *)
Definition block_bytes (bs : list bytes) : Z := fold_right (fun b n => zlen b + n) 0 bs.
(** the calls that write something *)
Definition writes (o : V2Model.op) : Prop :=
  match o with V2Model.OEncode _ | V2Model.OWrite _ => True | _ => False end.
(** the memory allocator rounds a request for [n] bytes up by at most [w * n + s] bytes *)
Definition spare_at_most (w s : Z) (g : V2Model.policy) : Prop :=
  forall i n, 0 <= n -> zlen (g i n) <= w * n + s.
