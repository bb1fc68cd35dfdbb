(** Specification of well-behaved pool clients (C28-C30), in terms of the trace of calls only. *)
From Verif Require Import Base Spec BufSpec PoolModel.
From Verif Require V1Model V2Model.

(** What thread [t] has done with the object at address [a] since it got (or made) it; [None] if
    it does not own it: it never got it, or has called Put on it. *)
Section Clients.
Context {A O X : Type}.
Definition history := nat -> nat -> option ((X + A) * list O).
Definition nothing : history := fun _ _ => None.
Definition assign (h : history) (t a : nat) (v : option ((X + A) * list O)) : history :=
  fun t' a' => if Nat.eq_dec t' t then if Nat.eq_dec a' a then v else h t' a' else h t' a'.
Definition note (h : history) (e : event A O X) : history :=
  match e with
  | EGet t a x => assign h t a (Some (inl x, []))
  | EMake t a o => assign h t a (Some (inr o, []))
  | EOp t a p => assign h t a (match h t a with Some (x, ps) => Some (x, ps ++ [p]) | None => None end)
  | EClear t a => assign h t a None
  | _ => h
  end.
(** A client uses and Puts only what it owns. *)
Definition allowed (h : history) (e : event A O X) : Prop :=
  match e with EOp t a _ | EClear t a => h t a <> None | _ => True end.
Fixpoint orderly (h : history) (tr : list (event A O X)) : Prop :=
  match tr with [] => True | e :: tr => allowed h e /\ orderly (note h e) tr end.
Definition histories (tr : list (event A O X)) : history := fold_left note tr nothing.
End Clients.
Arguments history : clear implicits.

(** Buffers a client makes itself have length = capacity (NewBuffer, NewBufferSize). *)
Definition makes_full (e : buf_event) : Prop :=
  match e with EMake _ _ b => V2Model.blen b = V2Model.Cap b | _ => True end.
(** What a client holding a decoder expects to have in front of it: its input, less what its own
    calls consumed; and the outcome of its next call. *)
Fixpoint reading (b : bytes) (ops : list (request * outcome)) : bytes :=
  match ops with
  | [] => b
  | (q, o) :: ops => reading (match rest_of o with Some r => r | None => b end) ops
  end.
Fixpoint own_outcomes (W : Z) (b : bytes) (ops : list (request * outcome)) : Prop :=
  match ops with
  | [] => True
  | (q, o) :: ops => o = V1Model.decode W None q b /\
      own_outcomes W (match rest_of o with Some r => r | None => b end) ops
  end.
Definition input_of (x : bytes + bytes) : bytes := match x with inl b => b | inr b => b end.
