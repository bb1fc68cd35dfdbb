(** What a call of a generated function does to memory. *)
From Coq Require Import String.
From Verif Require Import Base Spec GenTables GenModel GenTrace NameModel NameSpec EmitModel EmitSpec GoAst GoEmit GoRunSpec.
From Verif Require V1Model V2Model.

(** Between [s] and [s']: the struct at [a] (with all it consists of) now holds [ys]; no other object that existed has
    changed; nothing was encoded; [l] was asked of the allocator. *)
Definition struct_became (ms : list msgd) (m : msgd) (a : nat) (fp : list nat) (ys : list gval) (l : list make) (s s' : st) : Prop :=
  (exists fp', struct_at ms (heap s') a m ys fp' /\ only_at (heap s) (heap s') (a :: fp) (a :: fp')) /\
  env s' = env s /\ out s' = out s /\ made s' = made s ++ l.
(** The result [o] of running code is the outcome [t] of the tree model. *)
Definition decode_ran (ms : list msgd) (m : msgd) (a : nat) (fp : list nat) (s : st) (o : ex (list gov * st)) (t : run (list gval)) : Prop :=
  match t with
  | (l, TDone r ys) => exists s', o = Fine ([GoNil], s') /\ inp s' = r /\ struct_became ms m a fp ys l s s'
  | (l, TErr e ys) => exists s', o = Fine ([GoError (Some e)], s') /\ struct_became ms m a fp ys l s s'
  | (_, TPanic) => o = Panics
  | (_, TDeep) => o = Deep
  | (_, TBroken) => False
  end.
(** the value of a *M variable *)
Definition pointer_to (ms : list msgd) (m : msgd) (h : list obj) (x : option (list gval)) (v : gov) : Prop :=
  exists fp, rep ms h (mkfield [] [] false (TMsg (m_full m))) (GMsg x) v fp.
(** The encoder calls [l] were made, and nothing else happened. *)
Definition encoded (s : st) (l : list value) : st := mkst (env s) (heap s) (inp s) (out s ++ l) (made s).
(** Programs of the two versions; the library is the one of C01-C27. *)
Definition go1 (W : Z) (f : filed) (room : Z -> bool) (n : nat) (recv : option bytes) (name : string) (args : list gov) (s : st) : ex (list gov * st) :=
  call_go (go_program false f) room (V1Model.decode W) n recv (text name) args s.
Definition go2 (W : Z) (f : filed) (room : Z -> bool) (n : nat) (recv : option bytes) (name : string) (args : list gov) (s : st) : ex (list gov * st) :=
  call_go (go_program true f) room (fun dst => V2Model.decode W (V1Model.oget dst)) n recv (text name) args s.
Definition new1 (W : Z) (f : filed) (room : Z -> bool) (n : nat) (m : msgd) (s : st) : ex (list gov * st) :=
  call_go (go_program false f) room (V1Model.decode W) n None (new_name (camel (m_full m))) [] s.
Definition new2 (W : Z) (f : filed) (room : Z -> bool) (n : nat) (m : msgd) (s : st) : ex (list gov * st) :=
  call_go (go_program true f) room (fun dst => V2Model.decode W (V1Model.oget dst)) n None (new_name (camel (m_full m))) [] s.
(** the type of a message *)
Definition gotype (m : msgd) : bytes := camel (m_full m).
(** A new struct that holds [xs]: nothing else changed. *)
Definition new_struct (f : filed) (m : msgd) (xs : list gval) (s : st) (o : ex (list gov * st)) : Prop :=
  exists a fp s', o = Fine ([GoPtr (gotype m) (Some a)], s') /\ struct_at (messages_of f) (heap s') a m xs fp /\
    only_at (heap s) (heap s') [] (a :: fp) /\ env s' = env s /\ inp s' = inp s /\ out s' = out s /\ made s' = made s.
(** The struct at [a] holds [xs] and consists of objects that are not in the memory [h]; what is in [h] has not changed. *)
Definition made_anew (f : filed) (m : msgd) (xs : list gval) (a : nat) (h h' : list obj) : Prop :=
  exists fp, struct_at (messages_of f) h' a m xs fp /\ only_at h h' [] (a :: fp).
