(** Specification vocabulary for the Rust encoder and decoder (C33-C37, C42, C43).
    From the model only the types of cursors, runtimes and errors are used. *)
From Verif Require Import Base Spec Utf8 GoSpec RustModel.

(** The kinds a Rust caller can pass: the enum's discriminants. *)
Definition rust_kind (k : Z) : Prop := 0 <= k <= 16.
Definition rust_req (q : request) : Prop :=
  match q with RMap k1 k2 => rust_kind k1 /\ rust_kind k2 | RSlice k => rust_kind k | _ => True end.
(** Text is UTF-8. *)
Definition text_ok (v : value) : Prop :=
  match v with VString p | VError p => utf8 p | _ => True end.
(** The values a Rust caller can pass. *)
Definition rust_valid (v : value) : Prop := valid v /\ rust_req (want v) /\ text_ok v.

(** [l] overwritten from position [i] with [p], zero-filled up to [i] first *)
Definition put_at (l : bytes) (i : Z) (p : bytes) : bytes :=
  ztake i (l ++ repeat 0 (Z.to_nat (i - zlen l))) ++ p ++ zdrop (i + zlen p) l.

(** The input a cursor has in front of it, and the cursor of the same buffer with [r] in front. *)
Definition rest (c : cursor) : bytes := zdrop (pos c) (buf c).
Definition at_rest (c : cursor) (r : bytes) : cursor := mkcur (buf c) (zlen (buf c) - zlen r).
(** A cursor inside its buffer, and a buffer that fits the address space. *)
Definition cursor_ok (rt : runtime) (c : cursor) : Prop :=
  0 <= pos c <= zlen (buf c) /\ bytes_ok (buf c) /\ int_ok (W rt) (buf c).

(** The bytes compared before anything else is read. *)
Definition rhead (q : request) : bytes := match q with RError => [6; 5] | _ => header q end.
(** The error for a truncated field, and the one for a kind mismatch or overlong integer. *)
Definition own_err (q : request) : DecodingError :=
  match q with
  | RNil => InvalidNone | RMap _ _ => InvalidMap | RSlice _ => InvalidArray | RBytes => InvalidBytes
  | RString => InvalidString | RError => InvalidError | RBool => InvalidBool | RU8 => InvalidU8
  | RU16 => InvalidU16 | RU32 => InvalidU32 | RU64 => InvalidU64 | RI32 => InvalidI32
  | RI64 => InvalidI64 | RF32 => InvalidF32 | RF64 => InvalidF64
  end.
Definition kind_err (q : request) : DecodingError :=
  match q with RSlice _ | RU16 | RU64 => InvalidU32 | _ => own_err q end.
(** How many header bytes stay consumed after a kind mismatch. *)
Definition skipped (q : request) : Z := match q with RSlice _ => 1 | RMap _ _ => 2 | _ => 0 end.
Definition is_int (q : request) : Prop :=
  match q with RU16 | RU32 | RU64 | RI32 | RI64 => True | _ => False end.
Definition float_size (q : request) : Z := match q with RF32 => 4 | RF64 => 8 | _ => 0 end.

(** [rfails rt q t r e]: the call [q] with [t] in front fails with [e] and leaves [r] in front. *)
Inductive rfails (rt : runtime) : request -> bytes -> bytes -> DecodingError -> Prop :=
| F_short q t :                          (* not even the kind bytes: everything consumed *)
    zlen t < zlen (rhead q) -> rfails rt q t [] (own_err q)
| F_kind q t :                           (* other kind bytes *)
    zlen (rhead q) <= zlen t -> (forall u, t <> rhead q ++ u) ->
    rfails rt q t (zdrop (skipped q) t) (kind_err q)
| F_bare q : q = RBool \/ q = RU8 ->     (* the value byte is missing: the kind is consumed *)
    rfails rt q (rhead q) [] (own_err q)
| F_float q t : zlen t < float_size q -> (* short float: kind consumed, or everything *)
    rfails rt q (rhead q ++ t) (if eof rt then [] else t) (own_err q)
| F_trunc q t : is_int q ->              (* unterminated integer at the end: everything consumed *)
    zlen t < digits q -> Forall (fun c => 128 <= c) t ->
    rfails rt q (rhead q ++ t) [] (own_err q)
| F_long q cs x r : is_int q ->          (* too many digits: all but the last consumed *)
    zlen cs + 1 = digits q -> Forall (fun c => 128 <= c) (cs ++ [x]) ->
    rfails rt q (rhead q ++ cs ++ x :: r) (x :: r) (kind_err q)
| F_length q t r e : ~ scalar_req q ->   (* the length field fails: as a U32 behind the kind *)
    rfails rt RU32 t r e -> rfails rt q (rhead q ++ t) r e
| F_payload q t ds r : has_payload q -> length_at t ds r -> zlen r < dval ds mod 2 ^ 32 ->
    dval ds mod 2 ^ 32 < 2 ^ (W rt - 1) ->
    rfails rt q (rhead q ++ t) (if eof rt then [] else r) (own_err q)
| F_utf8 q t ds p r : q = RString \/ q = RError -> length_at t ds (p ++ r) ->
    zlen p = dval ds mod 2 ^ 32 -> ~ utf8 p ->   (* not text: everything of it consumed *)
    rfails rt q (rhead q ++ t) r (own_err q).
(** The only panic: a length that cannot be allocated on a 32-bit target. *)
Definition rpanics (rt : runtime) (q : request) (t : bytes) : Prop :=
  has_payload q /\ exists u ds r, t = rhead q ++ u /\ length_at u ds r /\
    2 ^ (W rt - 1) <= dval ds mod 2 ^ 32.
