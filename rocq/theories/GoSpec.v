(** Specification vocabulary for the behaviour of the Go decoders on arbitrary input (C11-C21,
    C32).  Refers only to byte strings. *)
From Verif Require Import Base Spec.

(** The bytes before the (length) varint in an encoding of the requested kind. *)
Definition lead (q : request) : bytes :=
  match q with
  | RMap k1 k2 => [2; k1; k2; 10] | RSlice k => [1; k; 10]
  | RBytes => [4; 10] | RString => [5; 10] | RError => [6; 5; 10]
  | _ => header q
  end.
(** The maximum number of digits of that varint; 0 for kinds without a varint. *)
Definition digits (q : request) : Z :=
  match q with
  | RU16 => 3
  | RU32 | RI32 | RMap _ _ | RSlice _ | RBytes | RString | RError => 5
  | RU64 | RI64 => 10
  | _ => 0
  end.
(** [t] is a varint cut off: at least one digit, fewer than [n], no terminating digit. *)
Definition truncated (n : Z) (t : bytes) : Prop :=
  t <> [] /\ zlen t < n /\ Forall (fun c => 128 <= c) t.

(** The integer requests, their width and the value read from a varint's magnitude. *)
Definition int_value (q : request) (m : Z) : option value :=
  match q with
  | RU16 => Some (VU16 (m mod 2 ^ 16))
  | RU32 => Some (VU32 (m mod 2 ^ 32))
  | RU64 => Some (VU64 (m mod 2 ^ 64))
  | RI32 => Some (VI32 (unzigzag (m mod 2 ^ 32)))
  | RI64 => Some (VI64 (unzigzag (m mod 2 ^ 64)))
  | _ => None
  end.

(** Requests that carry a length-prefixed payload. *)
Definition has_payload (q : request) : Prop :=
  match q with RBytes | RString | RError => True | _ => False end.
(** Requests for a fixed shape: neither a header with a length nor a payload. *)
Definition scalar_req (q : request) : Prop :=
  match q with RMap _ _ | RSlice _ | RBytes | RString | RError => False | _ => True end.

(** Where a failed call leaves the input.  [length_at t ds r]: at [t] there is a well-formed
    uint32 length field with digits [ds], followed by [r]; [cut_at t]: one that is cut off. *)
Definition length_at (t ds r : bytes) : Prop := exists u, t = 10 :: u /\ vsplit 5 u ds r.
Definition cut_at (t : bytes) : Prop := exists u, t = 10 :: u /\ truncated 5 u.
Definition bad_length (t : bytes) : Prop := ~ cut_at t /\ forall ds r, ~ length_at t ds r.

(** What an acceptable encoding of a fixed-shape request looks like in v1. *)
Definition scalar_shape1 (q : request) (t : bytes) : Prop :=
  match q with
  | RNil => True
  | RBool | RU8 => 1 <= zlen t
  | RF32 => 4 <= zlen t
  | RF64 => 8 <= zlen t
  | _ => exists ds r, vsplit (digits q) t ds r
  end.
Definition scalar_shape2 (q : request) (t : bytes) : Prop :=
  match q with
  | RBool => exists r, t = 0 :: r \/ t = 1 :: r
  | _ => scalar_shape1 q t
  end.

(** v1: [left1 q b r] - the call [q] on input [b] fails and leaves [r]. *)
Inductive left1 : request -> bytes -> bytes -> Prop :=
| L1_kind q b :                        (* wrong kind bytes: nothing consumed *)
    (forall t, b <> header q ++ t) -> left1 q b b
| L1_scalar q t :                      (* right kind, malformed scalar: nothing consumed *)
    scalar_req q -> ~ scalar_shape1 q t -> ~ truncated (digits q) t ->
    left1 q (header q ++ t) (header q ++ t)
| L1_length q t :                      (* malformed length: the header is consumed *)
    ~ scalar_req q -> q <> RError -> bad_length t ->
    left1 q (header q ++ t) t
| L1_payload q t ds r :                (* payload missing: header and length are consumed *)
    (q = RBytes \/ q = RString) -> length_at t ds r -> zlen r < dval ds mod 2 ^ 32 ->
    left1 q (header q ++ t) r
| L1_error t r :                       (* Error is a kind byte followed by a String *)
    left1 RString t r -> left1 RError (6 :: t) r.

(** v2: as v1, but a header with nothing behind it is left alone, and Bytes never consumes
    anything on failure. *)
Inductive left2 : request -> bytes -> bytes -> Prop :=
| L2_kind q b :
    (forall t, b <> header q ++ t) -> left2 q b b
| L2_bare q :                          (* the bare header: nothing consumed *)
    ~ scalar_req q -> left2 q (header q) (header q)
| L2_scalar q t :
    scalar_req q -> ~ scalar_shape2 q t -> ~ truncated (digits q) t ->
    left2 q (header q ++ t) (header q ++ t)
| L2_length q t :
    ~ scalar_req q -> q <> RError -> q <> RBytes -> t <> [] -> bad_length t ->
    left2 q (header q ++ t) t
| L2_string t ds r :
    length_at t ds r -> zlen r < dval ds mod 2 ^ 32 ->
    left2 RString (5 :: t) r
| L2_error t r :
    t <> [] -> left2 RString t r -> left2 RError (6 :: t) r
| L2_bytes_length t :                  (* malformed length: nothing consumed ... *)
    bad_length t ->                    (* ... but five continuation bytes are not an error *)
    (forall cs r, t = 10 :: cs ++ r -> zlen cs = 5 -> ~ Forall (fun c => 128 <= c) cs) ->
    left2 RBytes (4 :: t) (4 :: t)
| L2_bytes_payload t ds r :
    length_at t ds r -> zlen r < dval ds mod 2 ^ 32 ->
    left2 RBytes (4 :: t) (4 :: t).

(** What the decoders accept: [accepts v2 q b r v] - the call [q] on input [b] succeeds with [v]
    and leaves [r]; [v2] selects the version. *)
Inductive accepts (v2 : bool) : request -> bytes -> bytes -> value -> Prop :=
| A_nil r : accepts v2 RNil (0 :: r) r VNil
| A_bool x r :                          (* v2: 0 or 1 only; v1: any byte, true iff 1 *)
    (v2 = true -> x = 0 \/ x = 1) -> accepts v2 RBool (7 :: x :: r) r (VBool (x =? 1))
| A_u8 n r : accepts v2 RU8 (8 :: n :: r) r (VU8 n)
| A_int q t ds r v :                    (* any terminated varint, minimal or not, reduced *)
    vsplit (digits q) t ds r -> int_value q (dval ds) = Some v ->
    accepts v2 q (header q ++ t) r v
| A_f32 n r : 0 <= n < 2 ^ 32 -> accepts v2 RF32 (14 :: be4 n ++ r) r (VF32 n)
| A_f64 n r : 0 <= n < 2 ^ 64 -> accepts v2 RF64 (15 :: be8 n ++ r) r (VF64 n)
| A_map k1 k2 t ds r : length_at t ds r ->
    accepts v2 (RMap k1 k2) (2 :: k1 :: k2 :: t) r (VMap (dval ds mod 2 ^ 32) k1 k2)
| A_slice k t ds r : length_at t ds r ->
    accepts v2 (RSlice k) (1 :: k :: t) r (VSlice (dval ds mod 2 ^ 32) k)
| A_bytes t ds p r : length_at t ds (p ++ r) -> zlen p = dval ds mod 2 ^ 32 ->
    accepts v2 RBytes (4 :: t) r (VBytes p)
| A_string t ds p r : length_at t ds (p ++ r) -> zlen p = dval ds mod 2 ^ 32 ->
    accepts v2 RString (5 :: t) r (VString p)
| A_error t ds p r : length_at t ds (p ++ r) -> zlen p = dval ds mod 2 ^ 32 ->
    accepts v2 RError (6 :: 5 :: t) r (VError p)
| A_bytes_overlong cs r :               (* v2 only: five continuation bytes as a length *)
    v2 = true -> zlen cs = 5 -> Forall (fun c => 128 <= c) cs ->
    accepts v2 RBytes (4 :: 10 :: cs ++ r) (4 :: 10 :: cs ++ r) (VBytes []).

(** The input is an encoding of the requested kind cut off inside its (length) varint. *)
Definition crashes (q : request) (b : bytes) : Prop :=
  exists t, b = lead q ++ t /\ truncated (digits q) t.

(** A Bytes encoding whose length consists of five continuation bytes. *)
Definition overlong (b : bytes) : Prop :=
  exists cs r, b = 4 :: 10 :: cs ++ r /\ zlen cs = 5 /\ Forall (fun c => 128 <= c) cs.

(** a well-formed length field of more than 2^31 in front of a payload *)
Definition huge_length (q : request) (b : bytes) : Prop :=
  has_payload q /\ exists ds r, vsplit 5 (ds ++ r) ds r /\ b = lead q ++ ds ++ r /\
    2 ^ 31 < dval ds mod 2 ^ 32.

