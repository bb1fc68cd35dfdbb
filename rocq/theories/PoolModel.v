(** Model of the two pools: /repo/v2/pool.go (buffers) and /repo/decoder.go 23-51 (v1 decoders).
    Any number of client threads, any interleaving of their calls.

    Both are a sync.Pool of pointers to objects.  sync.Pool is library code, modelled by its
    documentation: a collection that any thread may Put into and Get from; Get removes and returns
    an arbitrary element or returns nil (even when the pool is not empty), and elements may be
    dropped at any time (garbage collection).  Each sync.Pool operation and each method call on
    an object is one step; the two statements of Put/ReturnDecoder are two steps. *)
From Verif Require Import Base Spec.
From Verif Require V1Model V2Model.

(** ** sync.Pool with its clients, for objects [A] with operations [O] *)
Section Pool.
Context {A O X : Type}.
Variable mk : X -> A.            (* the object Get makes when the pool returns nil *)
Variable reuse : X -> A -> A.    (* what Get does to an object from the pool *)
Variable clear : A -> A.         (* what Put does to an object before handing it to the pool *)
Variable app : O -> A -> A -> Prop.  (* an operation on an object *)

(** [heap]: the objects by address; [free]: the contents of the sync.Pool, with multiplicity;
    [pend]: the Put calls that have cleared their object and not yet handed it to the pool. *)
Record state := mkst { heap : nat -> option A; free : list nat; pend : list (nat * nat) }.
Definition empty_pool : state := mkst (fun _ => None) [] [].
Definition set (h : nat -> option A) (a : nat) (o : A) : nat -> option A :=
  fun a' => if Nat.eq_dec a' a then Some o else h a'.

Inductive event :=
| EGet (t a : nat) (x : X)      (* thread [t]'s Get(x) returns the object at [a] *)
| EMake (t a : nat) (o : A)     (* thread [t] makes an object of its own *)
| EOp (t a : nat) (o : O)       (* thread [t] calls a method *)
| EClear (t a : nat)            (* thread [t] calls Put: first statement *)
| EPut (t a : nat)              (* second statement *)
| EPutNil (t : nat)             (* thread [t] calls Put(nil) *)
| EDrop (a : nat).              (* the pool drops an element *)

Inductive step : state -> event -> state -> Prop :=
| S_get_new s t a x : heap s a = None ->
    step s (EGet t a x) (mkst (set (heap s) a (mk x)) (free s) (pend s))
| S_get_pool s t a x o f1 f2 : free s = f1 ++ a :: f2 -> heap s a = Some o ->
    step s (EGet t a x) (mkst (set (heap s) a (reuse x o)) (f1 ++ f2) (pend s))
| S_make s t a o : heap s a = None ->
    step s (EMake t a o) (mkst (set (heap s) a o) (free s) (pend s))
| S_op s t a p o o' : heap s a = Some o -> app p o o' ->
    step s (EOp t a p) (mkst (set (heap s) a o') (free s) (pend s))
| S_clear s t a o : heap s a = Some o ->
    step s (EClear t a) (mkst (set (heap s) a (clear o)) (free s) ((t, a) :: pend s))
| S_put s t a p1 p2 : pend s = p1 ++ (t, a) :: p2 ->
    step s (EPut t a) (mkst (heap s) (a :: free s) (p1 ++ p2))
| S_put_nil s t : step s (EPutNil t) s
| S_drop s a f1 f2 : free s = f1 ++ a :: f2 ->
    step s (EDrop a) (mkst (heap s) (f1 ++ f2) (pend s)).

Inductive steps : state -> list event -> state -> Prop :=
| Steps_nil s : steps s [] s
| Steps_cons s e s1 tr s2 : step s e s1 -> steps s1 tr s2 -> steps s (e :: tr) s2.
End Pool.
Arguments event : clear implicits.
Arguments state : clear implicits.

(** ** v2/pool.go

    Get, 35-42: [b = NewBuffer()] if the pool returned nil, else the buffer as it is.
    Put, 44-49: [if b != nil { b.Reset(); p.pool.Put(b) }].
    GetBuffer, PutBuffer, 51-57: the same on a package-level pool. *)
Definition buf_mk (_ : unit) : V2Model.buffer := V2Model.NewBuffer.
Definition buf_reuse (_ : unit) (b : V2Model.buffer) : V2Model.buffer := b.
Definition buf_clear (b : V2Model.buffer) : V2Model.buffer := V2Model.Reset b.
(** A method call with whatever reallocation policy append follows.  If it panics and the client
    recovers, part of its stores may have happened: the array contents are arbitrary, everything
    else is as before (a call that reallocates does not panic, see [c24_short_slice]). *)
Inductive buf_op (o : V2Model.op) (b : V2Model.buffer) : V2Model.buffer -> Prop :=
| B_ok g b' : V2Model.apply g b o = Ok b' -> buf_op o b b'
| B_panic g arr' : V2Model.apply g b o = Panic -> zlen arr' = zlen (V2Model.arr b) ->
    buf_op o b (V2Model.mkbuf (V2Model.old b) arr' (V2Model.blen b) (V2Model.off b)).
Definition buf_state := state V2Model.buffer.
Definition buf_event := event V2Model.buffer V2Model.op unit.
Definition buf_steps : buf_state -> list buf_event -> buf_state -> Prop :=
  steps buf_mk buf_reuse buf_clear buf_op.

(** ** decoder.go 23-51

    A Decoder is its remaining input [b].  GetDecoder, 29-40: a new Decoder, or one from the pool
    with [d.b = b].  ReturnDecoder, 42-47, and Return, 49-51: [d.b = nil], then Put. *)
Definition dec_mk (b : bytes) : bytes := b.
Definition dec_reuse (b : bytes) (_ : bytes) : bytes := b.
Definition dec_clear (_ : bytes) : bytes := [].
(** decoder.go 53-130: a decoder method [d.b, value, err = decodeX(d.b)], together with its outcome;
    a panic leaves [d.b] as it was. *)
Inductive dec_op (W : Z) (qo : request * outcome) (b : bytes) : bytes -> Prop :=
| D_op : snd qo = V1Model.decode W None (fst qo) b ->
    dec_op W qo b (match rest_of (snd qo) with Some r => r | None => b end).
Definition dec_state := state bytes.
Definition dec_event := event bytes (request * outcome) bytes.
Definition dec_steps (W : Z) : dec_state -> list dec_event -> dec_state -> Prop :=
  steps dec_mk dec_reuse dec_clear (dec_op W).
