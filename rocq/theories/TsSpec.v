(** Specification vocabulary for the TypeScript encoder and decoder (C38-C42, C52-C54).
    From the model only the types of values, engines, encoder and decoder states, and the
    JavaScript runtime's text conversions are used. *)
From Verif Require Import Base Spec Utf8 TsModel.

(** The wire value a JavaScript value stands for; [any] has none. *)
Definition value_of (e : engine) (v : jsval) : option value :=
  match v with
  | JNull => Some VNil | JAny => None | JBool b => Some (VBool b)
  | JU8 n => Some (VU8 n) | JU16 n => Some (VU16 n) | JU32 n => Some (VU32 n)
  | JU64 n => Some (VU64 n) | JI32 n => Some (VI32 n) | JI64 n => Some (VI64 n)
  | JF32 b => Some (VF32 (js32 e b)) | JF64 b => Some (VF64 (js64 e b))
  | JArray n k => Some (VSlice n k) | JMap n k1 k2 => Some (VMap n k1 k2)
  | JBytes p => Some (VBytes p)
  | JString u => Some (VString (text_encode u)) | JError u => Some (VError (text_encode u))
  end.
Definition twire (e : engine) (v : jsval) : bytes :=
  match value_of e v with Some w => wire w | None => [3] end.
Definition twires (e : engine) (vs : list jsval) : bytes := concat (map (twire e) vs).

(** An engine turns NaNs into NaNs. *)
Definition engine_ok (e : engine) : Prop :=
  (forall b, isnan32 b = true -> isnan32 (nan32 e b) = true /\ 0 <= nan32 e b < 2 ^ 32) /\
  (forall b, isnan64 b = true -> isnan64 (nan64 e b) = true /\ 0 <= nan64 e b < 2 ^ 64).
(** A JavaScript string: UTF-16 code units. *)
Definition js_string (u : list Z) : Prop := Forall (fun c => 0 <= c < 2 ^ 16) u.
(** A string without lone surrogates: the UTF-16 form of some scalar values. *)
Definition wellformed (u : list Z) : Prop :=
  exists cs, Forall scalar_value cs /\ u = concat (map units cs).
(** The values the API is meant for. *)
Definition js_ok (v : jsval) : Prop :=
  match v with
  | JNull | JAny | JBool _ => True
  | JU8 n => 0 <= n < 2 ^ 8 | JU16 n => 0 <= n < 2 ^ 16
  | JU32 n | JF32 n => 0 <= n < 2 ^ 32
  | JU64 n | JF64 n => 0 <= n < 2 ^ 64
  | JI32 n => - 2 ^ 31 <= n < 2 ^ 31 | JI64 n => - 2 ^ 63 <= n < 2 ^ 63
  | JArray n k => 0 <= n < 2 ^ 32 /\ isbyte k
  | JMap n k1 k2 => 0 <= n < 2 ^ 32 /\ isbyte k1 /\ isbyte k2
  | JBytes p => payload_ok p
  | JString u | JError u => js_string u /\ zlen (text_encode u) < 2 ^ 32
  end.

(** ** Encoder *)

(** The encoder [s] holds exactly the bytes [b]: its view starts its ArrayBuffer and what has been
    written is [b]. *)
Definition holds (s : enc) (b : bytes) : Prop :=
  boff s = 0 /\ 0 <= pos s <= blen s /\ blen s <= zlen (mem s) /\ ztake (pos s) (mem s) = b.

(** A call writes in one or two steps: it first asks for some room, then writes some bytes.
    (room asked for, bytes written) *)
Definition parts (e : engine) (v : jsval) : list (Z * bytes) :=
  match v with
  | JNull | JAny => [(1, twire e v)]
  | JBool _ | JU8 _ => [(2, twire e v)]
  | JU16 _ => [(3, twire e v)]
  | JU32 _ | JI32 _ | JF32 _ => [(5, twire e v)]
  | JU64 _ | JI64 _ | JF64 _ => [(9, twire e v)]
  | JArray n k => [(2, [1; k]); (5, wire (VU32 n))]
  | JMap n k1 k2 => [(3, [2; k1; k2]); (5, wire (VU32 n))]
  | JBytes p => [(5 + zlen p, [4]); (5, wire (VU32 (zlen p)) ++ p)]
  | JString u => [(5 + zlen (text_encode u), [5]);
                  (5, wire (VU32 (zlen (text_encode u))) ++ text_encode u)]
  | JError u => [(6 + zlen (text_encode u), [6; 5]);
                 (5, wire (VU32 (zlen (text_encode u))) ++ text_encode u)]
  end.
(** Capacities: of the view, and of its ArrayBuffer.  A request for more room than there is
    doubles the ArrayBuffer once, however much was asked for. *)
Definition room := (Z * Z)%type.
Definition regrow (c : room) (at_ m : Z) : room :=
  if fst c - at_ <? m then (2 * snd c, 2 * snd c) else c.
(** [fits c at_ ps]: every part of [ps], written from position [at_] on, fits the capacity there
    is after its request for room. *)
Fixpoint fits (c : room) (at_ : Z) (ps : list (Z * bytes)) : bool :=
  match ps with
  | [] => true
  | (m, p) :: ps =>
      let c := regrow c at_ m in
      (at_ + zlen p <=? fst c) && fits c (at_ + zlen p) ps
  end.
Definition room_of (s : enc) : room := (blen s, zlen (mem s)).

(** The calls that never throw: what does not fit is silently not stored. *)
Definition silent (v : jsval) : Prop :=
  match v with
  | JU8 _ | JF32 _ | JF64 _ | JBytes _ | JString _ | JError _ => False
  | _ => True
  end.
(** Values that never get into trouble in a buffer of [n] bytes. *)
Definition modest (e : engine) (n : Z) (v : jsval) : Prop :=
  match v with
  | JU16 k => k < 2 ^ 14
  | JU32 k | JArray k _ | JMap k _ _ => k < 2 ^ 28
  | JU64 k => k < 2 ^ 56
  | JI32 k => - 2 ^ 27 <= k < 2 ^ 27
  | JI64 k => - 2 ^ 55 <= k < 2 ^ 55
  | JBytes p => zlen p < 2 ^ 21 /\ zlen p <= n - 6
  | JString u | JError u => zlen (text_encode u) < 2 ^ 21 /\ zlen (text_encode u) <= n - 6
  | _ => True
  end.

(** ** Decoder *)

(** The input in front of a decoder, and the bytes its ArrayBuffer has behind the decoder's view. *)
Definition ahead (d : dec) : bytes := ztake (dblen d - dpos d) (zdrop (dboff d + dpos d) (dmem d)).
Definition behind (d : dec) : bytes := zdrop (dboff d + dblen d) (dmem d).
Definition dec_ok (d : dec) : Prop :=
  0 <= dboff d /\ 0 <= dpos d /\ 0 <= dblen d /\ dboff d + dblen d <= zlen (dmem d) /\ bytes_ok (dmem d).
(** The same decoder, [n] bytes further. *)
Definition moved (n : Z) (d : dec) : dec := mkdec (dmem d) (dboff d) (dblen d) (dpos d + n).

(** An integer of at most [n] digits in front of [t]: its value as accumulated, the number of
    positions passed, and whether it was terminated.  Positions beyond the end count as digits 0. *)
Inductive digits_at (n : Z) : bytes -> Z -> Z -> bool -> Prop :=
| D_done t ds r : vsplit n t ds r -> digits_at n t (dval ds) (zlen ds) true
| D_cut t : zlen t < n -> Forall (fun c => 128 <= c) t -> digits_at n t (dval t) n false
| D_long cs r : zlen cs = n -> Forall (fun c => 128 <= c) cs -> digits_at n (cs ++ r) (dval cs) n false.
(** The value uint16 returns for the digits [ds]: the second digit of three counts as 1. *)
Definition val16 (ds : bytes) : Z :=
  match ds with
  | [] => 0
  | [a] => a mod 128
  | [a; b] => a mod 128 + 128 * (if b <? 128 then b else 1)
  | a :: b :: c :: _ => a mod 128 + 128 + (if c <? 128 then 16384 * c else 0)
  end.
(** The first [n] positions of an unterminated run. *)
Inductive digits16 : bytes -> bytes -> Z -> Prop :=
| D16_done t ds r : vsplit 3 t ds r -> digits16 t ds (zlen ds)
| D16_cut t : zlen t < 3 -> Forall (fun c => 128 <= c) t -> digits16 t t 3
| D16_long cs r : zlen cs = 3 -> Forall (fun c => 128 <= c) cs -> digits16 (cs ++ r) cs 3.

(** [treads e q t x v n]: the call [q] with input [t] in front, [x] being the ArrayBuffer's bytes
    behind the view, returns [v] and moves [n] positions ahead (possibly beyond the end). *)
Inductive treads (e : engine) : request -> bytes -> bytes -> jsval -> Z -> Prop :=
| T_null t x : treads e RNil (0 :: t) x JNull 1
| T_bool c t x : treads e RBool (7 :: c :: t) x (JBool (c =? 1)) 2
| T_bool_end x : treads e RBool [7] x (JBool false) 2
| T_u8 c t x r : t ++ x = c :: r -> treads e RU8 (8 :: t) x (JU8 c) 2
| T_f32 p t x r : t ++ x = p ++ r -> zlen p = 4 ->
    treads e RF32 (14 :: t) x (JF32 (js32 e (be_value p))) 5
| T_f64 p t x r : t ++ x = p ++ r -> zlen p = 8 ->
    treads e RF64 (15 :: t) x (JF64 (js64 e (be_value p))) 9
| T_u16 t x ds n : digits16 t ds n -> treads e RU16 (9 :: t) x (JU16 (val16 ds)) (1 + n)
| T_u32 t x m n f : digits_at 5 t m n f -> treads e RU32 (10 :: t) x (JU32 m) (1 + n)
| T_u64 t x m n f : digits_at 10 t m n f -> treads e RU64 (11 :: t) x (JU64 m) (1 + n)
| T_i32 t x m n f : digits_at 5 t m n f ->
    treads e RI32 (12 :: t) x (JI32 (if f then unzigzag m else m)) (1 + n)
| T_i64 t x m n f : digits_at 10 t m n f ->
    treads e RI64 (13 :: t) x (JI64 (if f then unzigzag m else m)) (1 + n)
| T_array k t x m n f : digits_at 5 t m n f ->
    treads e (RSlice k) (1 :: k :: 10 :: t) x (JArray m k) (3 + n)
| T_map k1 k2 t x m n f : digits_at 5 t m n f ->
    treads e (RMap k1 k2) (2 :: k1 :: k2 :: 10 :: t) x (JMap m k1 k2) (4 + n)
| T_bytes t x m n f : digits_at 5 t m n f ->
    treads e RBytes (4 :: 10 :: t) x (JBytes (ztake m (zdrop n t))) (2 + n + m)
| T_string t x m n f : digits_at 5 t m n f ->
    treads e RString (5 :: 10 :: t) x (JString (text_decode (ztake m (zdrop n t)))) (2 + n + m)
| T_error t x m n f : digits_at 5 t m n f ->
    treads e RError (6 :: 5 :: 10 :: t) x (JError (text_decode (ztake m (zdrop n t)))) (3 + n + m).
(** The kind bytes compared, in order, each with the error for its absence. *)
Definition checks (q : request) : list (Z * gerr) :=
  match q with
  | RSlice k => [(1, ESlice); (k, ESlice); (10, EU32)]
  | RMap k1 k2 => [(2, EMap); (k1, EMap); (k2, EMap); (10, EU32)]
  | RBytes => [(4, EBytes); (10, EU32)]
  | RString => [(5, EString); (10, EU32)]
  | RError => [(6, EError); (5, EError); (10, EU32)]
  | _ => map (fun k => (k, error_of q)) (header q)
  end.
(** Bytes a DataView needs. *)
Definition view_size (q : request) : Z := match q with RU8 => 1 | RF32 => 4 | RF64 => 8 | _ => 0 end.
(** [tfails q t x er n]: the call throws [er], [n] positions ahead. *)
Inductive tfails (q : request) : bytes -> bytes -> terr -> Z -> Prop :=
| X_kind pre k er post u x :             (* a kind byte differs or is missing *)
    checks q = pre ++ (k, er) :: post -> (forall r, u <> k :: r) ->
    tfails q (map fst pre ++ u) x (Invalid er)
      (zlen pre + match q, pre with RError, [_] => 1 | _, _ => 0 end)
| X_short t x : zlen (t ++ x) < view_size q ->   (* the ArrayBuffer ends *)
    tfails q (header q ++ t) x RangeError 1.

(** ** Reading back *)

(** A string as TextEncoder and TextDecoder pass it on: lone surrogates replaced by U+FFFD, a
    leading byte order mark dropped. *)
Definition drop_bom (u : list Z) : list Z :=
  match u with c :: r => if c =? 0xFEFF then r else u | [] => u end.
Definition repaired (u : list Z) : list Z := concat (map units (scalars u)).
Definition jwant (v : jsval) : option request :=
  match v with
  | JNull => Some RNil | JAny => None | JBool _ => Some RBool
  | JU8 _ => Some RU8 | JU16 _ => Some RU16 | JU32 _ => Some RU32 | JU64 _ => Some RU64
  | JI32 _ => Some RI32 | JI64 _ => Some RI64 | JF32 _ => Some RF32 | JF64 _ => Some RF64
  | JArray _ k => Some (RSlice k) | JMap _ k1 k2 => Some (RMap k1 k2)
  | JBytes _ => Some RBytes | JString _ => Some RString | JError _ => Some RError
  end.
(** What the decoder makes of each wire value. *)
Definition from_wire (e : engine) (v : value) : jsval :=
  match v with
  | VNil => JNull | VMap n k1 k2 => JMap n k1 k2 | VSlice n k => JArray n k
  | VBytes p => JBytes p | VString p => JString (text_decode p) | VError p => JError (text_decode p)
  | VBool b => JBool b | VU8 n => JU8 n | VU32 n => JU32 n | VU64 n => JU64 n
  | VU16 n => JU16 (if n <? 2 ^ 14 then n else n mod 128 + 128 + 2 ^ 14 * (n / 2 ^ 14))
  | VI32 n => JI32 n | VI64 n => JI64 n
  | VF32 b => JF32 (js32 e b) | VF64 b => JF64 (js64 e b)
  end.
(** A client that makes the decoder calls [qs] in order. *)
Fixpoint ts_read_all (e : engine) (qs : list request) (d : dec) : dres (list jsval) :=
  match qs with
  | [] => DOk [] d
  | q :: qs => do (v, d) <- ts_decode e q d; do (vs, d) <- ts_read_all e qs d; DOk (v :: vs) d
  end.
(** The values read back as they were written: uint16 below 2^14 (or with 1 as their second base-128
    digit), strings without lone surrogates and leading byte order mark, numbers other than NaN. *)
Definition unchanged (v : jsval) : Prop :=
  match v with
  | JU16 n => n < 2 ^ 14 \/ n / 128 mod 128 = 1
  | JF32 b => isnan32 b = false | JF64 b => isnan64 b = false
  | JString u | JError u => wellformed u /\ (forall r, u <> 0xFEFF :: r)
  | _ => True
  end.
(** What is read back for each value. *)
Definition read_back (e : engine) (v : jsval) : jsval :=
  match v with
  | JU16 n => JU16 (if n <? 2 ^ 14 then n else n mod 128 + 128 + 2 ^ 14 * (n / 2 ^ 14))
  | JF32 b => JF32 (js32 e (js32 e b)) | JF64 b => JF64 (js64 e (js64 e b))
  | JString u => JString (drop_bom (repaired u)) | JError u => JError (drop_bom (repaired u))
  | _ => v
  end.
(** The wire values for which TypeScript agrees with the other implementations. *)
Definition ts_faithful (v : value) : Prop :=
  match v with
  | VU16 n => n < 2 ^ 14 \/ n / 128 mod 128 = 1
  | VString p | VError p => utf8 p /\ (forall r, p <> [0xEF; 0xBB; 0xBF] ++ r)
  | VF32 b => isnan32 b = false | VF64 b => isnan64 b = false
  | _ => True
  end.

(** ** Truncated input *)

(** The kind bytes of an encoding, including the one of the length field. *)
Definition kind_bytes (q : request) : bytes := map fst (checks q).
(** What the decoder returns for the encoding of [v] cut off [k] bytes behind its kind bytes: the low
    [7 k] bits of the integer (not un-zigzagged), [false], or what there is of the payload. *)
Definition cut_value (v : value) (k : Z) : jsval :=
  match v with
  | VBool _ => JBool false
  | VU16 n => JU16 (n mod 128 ^ k - (if k =? 2 then 128 * (n / 128 mod 128) - 128 else 0))
  | VU32 n => JU32 (n mod 128 ^ k) | VU64 n => JU64 (n mod 128 ^ k)
  | VI32 n => JI32 (zigzag n mod 128 ^ k) | VI64 n => JI64 (zigzag n mod 128 ^ k)
  | VSlice n kind => JArray (n mod 128 ^ k) kind | VMap n k1 k2 => JMap (n mod 128 ^ k) k1 k2
  | VBytes p => JBytes (ztake (k - zlen (varint (zlen p))) p)
  | VString p => JString (text_decode (ztake (k - zlen (varint (zlen p))) p))
  | VError p => JError (text_decode (ztake (k - zlen (varint (zlen p))) p))
  | _ => JNull
  end.
