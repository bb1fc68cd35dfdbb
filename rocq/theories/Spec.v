(** The polyglot wire format, independent of any implementation.

    This is the whole specification the encoder/decoder theorems refer to.  It is the format
    shared by all implementations: a kind byte, then a base-128 varint / a byte / big-endian
    IEEE bits / a length-prefixed payload.
    Kind numbers: /repo/encode.go 27-44, /repo/v2/encode.go 24-41, /repo/kind.rs, /repo/kind.ts. *)
From Verif Require Import Base.

(** A value as passed to one encoder call / returned by one decoder call.
    Strings and errors are their bytes; floats are their IEEE-754 bit pattern. *)
Inductive value :=
| VNil
| VMap (size keyKind valueKind : Z)       (* header of a map with [size] entries *)
| VSlice (size kind : Z)                  (* header of a slice with [size] elements *)
| VBytes (p : bytes)
| VString (p : bytes)
| VError (p : bytes)
| VBool (b : bool)
| VU8 (n : Z) | VU16 (n : Z) | VU32 (n : Z) | VU64 (n : Z)
| VI32 (n : Z) | VI64 (n : Z)
| VF32 (bits : Z) | VF64 (bits : Z).

(** The argument ranges of the API's types. *)
Definition payload_ok (p : bytes) : Prop := bytes_ok p /\ zlen p < 2 ^ 32.
Definition valid (v : value) : Prop :=
  match v with
  | VNil => True
  | VMap n k1 k2 => 0 <= n < 2 ^ 32 /\ isbyte k1 /\ isbyte k2
  | VSlice n k => 0 <= n < 2 ^ 32 /\ isbyte k
  | VBytes p | VString p | VError p => payload_ok p
  | VBool _ => True
  | VU8 n => 0 <= n < 2 ^ 8
  | VU16 n => 0 <= n < 2 ^ 16
  | VU32 n => 0 <= n < 2 ^ 32
  | VU64 n => 0 <= n < 2 ^ 64
  | VI32 n => - 2 ^ 31 <= n < 2 ^ 31
  | VI64 n => - 2 ^ 63 <= n < 2 ^ 63
  | VF32 n => 0 <= n < 2 ^ 32
  | VF64 n => 0 <= n < 2 ^ 64
  end.

(** Base-128 little-endian varint, least significant digit first, high bit set on every digit
    but the last.  The relation is the definition; [varint] computes it for numbers below 2^70
    (lemma [varint_is_leb128] in SpecProofs.v). *)
Inductive leb128 : Z -> bytes -> Prop :=
| leb_last n : 0 <= n < 128 -> leb128 n [n]
| leb_more n ds : 128 <= n -> leb128 (n / 128) ds -> leb128 n ((128 + n mod 128) :: ds).

Fixpoint leb (k : nat) (n : Z) : bytes :=
  match k with
  | O => [n]
  | S k => if n <? 128 then [n] else (128 + n mod 128) :: leb k (n / 128)
  end.
Definition varint (n : Z) : bytes := leb 9 n.

(** Zig-zag: 0, -1, 1, -2, ... are numbered 0, 1, 2, 3, ... *)
Definition zigzag (n : Z) : Z := if n <? 0 then -2 * n - 1 else 2 * n.
Definition unzigzag (u : Z) : Z := if u mod 2 =? 0 then u / 2 else - (u / 2) - 1.

(** Big-endian fixed width. *)
Definition be4 (n : Z) : bytes :=
  [n / 2 ^ 24 mod 256; n / 2 ^ 16 mod 256; n / 2 ^ 8 mod 256; n mod 256].
Definition be8 (n : Z) : bytes :=
  [n / 2 ^ 56 mod 256; n / 2 ^ 48 mod 256; n / 2 ^ 40 mod 256; n / 2 ^ 32 mod 256] ++ be4 n.

(** Wire encoding of a value. *)
Definition wire (v : value) : bytes :=
  match v with
  | VNil => [0]
  | VSlice n k => 1 :: k :: 10 :: varint n
  | VMap n k1 k2 => 2 :: k1 :: k2 :: 10 :: varint n
  | VBytes p => 4 :: 10 :: varint (zlen p) ++ p
  | VString p => 5 :: 10 :: varint (zlen p) ++ p
  | VError p => 6 :: 5 :: 10 :: varint (zlen p) ++ p
  | VBool b => [7; if b then 1 else 0]
  | VU8 n => [8; n]
  | VU16 n => 9 :: varint n
  | VU32 n => 10 :: varint n
  | VU64 n => 11 :: varint n
  | VI32 n => 12 :: varint (zigzag n)
  | VI64 n => 13 :: varint (zigzag n)
  | VF32 n => 14 :: be4 n
  | VF64 n => 15 :: be8 n
  end.

(** A stream of values is the concatenation of their encodings. *)
Definition wires (vs : list value) : bytes := concat (map wire vs).

(** The decoder calls. *)
Inductive request :=
| RNil | RMap (keyKind valueKind : Z) | RSlice (kind : Z)
| RBytes | RString | RError | RBool
| RU8 | RU16 | RU32 | RU64 | RI32 | RI64 | RF32 | RF64.

(** The call that reads back a value. *)
Definition want (v : value) : request :=
  match v with
  | VNil => RNil | VMap _ k1 k2 => RMap k1 k2 | VSlice _ k => RSlice k
  | VBytes _ => RBytes | VString _ => RString | VError _ => RError | VBool _ => RBool
  | VU8 _ => RU8 | VU16 _ => RU16 | VU32 _ => RU32 | VU64 _ => RU64
  | VI32 _ => RI32 | VI64 _ => RI64 | VF32 _ => RF32 | VF64 _ => RF64
  end.

(** Bytes an encoding of the requested kind must start with. *)
Definition header (r : request) : bytes :=
  match r with
  | RNil => [0]
  | RSlice k => [1; k]
  | RMap k1 k2 => [2; k1; k2]
  | RBytes => [4] | RString => [5] | RError => [6] | RBool => [7]
  | RU8 => [8] | RU16 => [9] | RU32 => [10] | RU64 => [11]
  | RI32 => [12] | RI64 => [13] | RF32 => [14] | RF64 => [15]
  end.

Definition req_ok (r : request) : Prop :=
  match r with
  | RMap k1 k2 => isbyte k1 /\ isbyte k2
  | RSlice k => isbyte k
  | _ => True
  end.

(** The error a Go decoder call is documented to return (/repo/decode.go 32-47,
    /repo/v2/decode.go 32-47); [ENotNil] stands for the boolean [false] of Nil. *)
Inductive gerr :=
| ENotNil | EMap | ESlice | EBytes | EString | EError | EBool
| EU8 | EU16 | EU32 | EU64 | EI32 | EI64 | EF32 | EF64.
Definition error_of (r : request) : gerr :=
  match r with
  | RNil => ENotNil | RMap _ _ => EMap | RSlice _ => ESlice | RBytes => EBytes
  | RString => EString | RError => EError | RBool => EBool
  | RU8 => EU8 | RU16 => EU16 | RU32 => EU32 | RU64 => EU64
  | RI32 => EI32 | RI64 => EI64 | RF32 => EF32 | RF64 => EF64
  end.

(** Outcome of a decoder call: what it returned and the input that remains. *)
Inductive outcome :=
| Done (rest : bytes) (v : value)     (* success *)
| Fail (rest : bytes) (e : gerr)      (* an error was returned ("not nil" for Nil) *)
| Crash.                              (* run-time panic *)

(** [vsplit n b ds r]: input [b] starts with a terminated varint of at most [n] digits [ds],
    followed by [r]. *)
Definition vsplit (n : Z) (b ds r : bytes) : Prop :=
  b = ds ++ r /\ zlen ds <= n /\
  exists cs l, ds = cs ++ [l] /\ Forall (fun c => 128 <= c) cs /\ l < 128.
(** The number written by varint digits (not necessarily minimal). *)
Fixpoint dval (ds : bytes) : Z :=
  match ds with [] => 0 | d :: ds => d mod 128 + 128 * dval ds end.

(** Go's int has [W] bits; the length of a slice is an int. *)
Definition int_ok (W : Z) (b : bytes) : Prop := (W = 64 \/ W = 32) /\ zlen b < 2 ^ (W - 1).

(** A client that makes the decoder calls [rs] in order and stops at the first that does not
    succeed: the values read and the remaining input. *)
Fixpoint read_all (dec : request -> bytes -> outcome) (rs : list request) (b : bytes)
  : option (list value * bytes) :=
  match rs with
  | [] => Some ([], b)
  | r :: rs =>
      match dec r b with
      | Done b v => match read_all dec rs b with
                    | Some (vs, b) => Some (v :: vs, b)
                    | None => None
                    end
      | _ => None
      end
  end.

(** The largest encoding of a value of each kind, given the payload's length. *)
Definition max_size (v : value) : Z :=
  match v with
  | VNil => 1 | VMap _ _ _ => 9 | VSlice _ _ => 8
  | VBytes p | VString p => 7 + zlen p
  | VError p => 8 + zlen p
  | VBool _ | VU8 _ => 2
  | VU16 _ => 4 | VU32 _ | VI32 _ => 6 | VU64 _ | VI64 _ => 11
  | VF32 _ => 5 | VF64 _ => 9
  end.
(** The number a big-endian byte string stands for. *)
Definition be_value (b : bytes) : Z := fold_left (fun x c => x * 256 + c) b 0.
(** What a decoder call leaves of its input; [None] if it panicked. *)
Definition rest_of (o : outcome) : option bytes :=
  match o with Done r _ | Fail r _ => Some r | Crash => None end.
