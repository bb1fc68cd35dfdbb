(** The TypeScript implementation: /repo/encoder.ts, /repo/decoder.ts, /repo/kind.ts.

    What is modelled: every method of Encoder and Decoder, statement by statement, over
    ArrayBuffers with views (byte offset and length), JavaScript's silent out-of-range stores,
    [undefined] loads, the RangeErrors of [set] and of the DataView and Uint8Array constructors,
    and UTF-16 strings with TextEncoder/TextDecoder (ECMAScript and WHATWG Encoding documentation).
    What is not: Numbers that are not integers (arguments the type system allows but the API does
    not mean), bigints below -2^53, allocation failure, detached or resizable ArrayBuffers, and
    callers writing into a buffer they handed over. *)
From Verif Require Import Base Spec Utf8.

(** ** Runtime *)

(** A JavaScript value passed to an encoder method or returned by a decoder method.  Strings are
    UTF-16 code units; floats their IEEE bits (for float32: of the Number rounded to single);
    errors their message. *)
Inductive jsval :=
| JNull | JAny | JBool (b : bool)
| JU8 (n : Z) | JU16 (n : Z) | JU32 (n : Z) | JU64 (n : Z) | JI32 (n : Z) | JI64 (n : Z)
| JF32 (bits : Z) | JF64 (bits : Z)
| JArray (size kind : Z) | JMap (size keyKind valueKind : Z)
| JBytes (p : bytes) | JString (u : list Z) | JError (u : list Z).

(** A JavaScript engine may change the bits of a NaN whenever it is stored or loaded
    (ECMAScript, SetValueInBuffer / NumericToRawBytes). *)
Record engine := { nan32 : Z -> Z; nan64 : Z -> Z }.
Definition isnan32 (bits : Z) : bool := 0x7f800000 <? bits mod 2 ^ 31.
Definition isnan64 (bits : Z) : bool := 0x7ff0000000000000 <? bits mod 2 ^ 63.
Definition js32 (e : engine) (bits : Z) : Z := if isnan32 bits then nan32 e bits else bits.
Definition js64 (e : engine) (bits : Z) : Z := if isnan64 bits then nan64 e bits else bits.

(** TextEncoder.encode: code units to scalar values, a lone surrogate becoming U+FFFD
    (WebIDL USVString), then UTF-8. *)
Fixpoint scalars (u : list Z) : list Z :=
  match u with
  | [] => []
  | a :: u1 =>
      if (a <? 0xD800) || (0xDFFF <? a) then a :: scalars u1
      else if 0xDBFF <? a then 0xFFFD :: scalars u1
      else match u1 with
           | b :: u2 =>
               if (0xDC00 <=? b) && (b <=? 0xDFFF)
               then (0x10000 + (a - 0xD800) * 1024 + (b - 0xDC00)) :: scalars u2
               else 0xFFFD :: scalars u1
           | [] => [0xFFFD]
           end
  end.
Definition text_encode (u : list Z) : bytes := concat (map utf8_char (scalars u)).

(** The WHATWG "UTF-8 decoder": state of the decoder between bytes. *)
Record udec := mkudec { cp : Z; needed : Z; seen : Z; lower : Z; upper : Z }.
Definition udec0 := mkudec 0 0 0 0x80 0xBF.
(** first byte of a sequence (step 3 of the algorithm) *)
Definition lead (b : Z) : list Z * udec :=
  if b <=? 0x7F then ([b], udec0)
  else if between 0xC2 b 0xDF then ([], mkudec (Z.land b 0x1F) 1 0 0x80 0xBF)
  else if between 0xE0 b 0xEF then
    ([], mkudec (Z.land b 0xF) 2 0 (if b =? 0xE0 then 0xA0 else 0x80) (if b =? 0xED then 0x9F else 0xBF))
  else if between 0xF0 b 0xF4 then
    ([], mkudec (Z.land b 0x7) 3 0 (if b =? 0xF0 then 0x90 else 0x80) (if b =? 0xF4 then 0x8F else 0xBF))
  else ([0xFFFD], udec0).
Fixpoint utf8_decode (d : udec) (p : bytes) : list Z :=
  match p with
  | [] => if needed d =? 0 then [] else [0xFFFD]
  | b :: p =>
      if needed d =? 0 then let '(out, d) := lead b in out ++ utf8_decode d p
      else if negb (between (lower d) b (upper d)) then
        (* emit U+FFFD and process the byte again as a first byte *)
        let '(out, d) := lead b in 0xFFFD :: out ++ utf8_decode d p
      else
        let c := Z.lor (Z.shiftl (cp d) 6) (Z.land b 0x3F) in
        if seen d + 1 =? needed d then c :: utf8_decode udec0 p
        else utf8_decode (mkudec c (needed d) (seen d + 1) 0x80 0xBF) p
  end.
Definition units (c : Z) : list Z :=
  if c <? 0x10000 then [c]
  else [0xD800 + (c - 0x10000) / 1024; 0xDC00 + (c - 0x10000) mod 1024].
(** new TextDecoder().decode(p): a leading byte order mark EF BB BF is dropped, malformed
    sequences become U+FFFD. *)
Definition strip_bom (p : bytes) : bytes :=
  match p with
  | a :: b :: c :: q => if (a =? 0xEF) && (b =? 0xBB) && (c =? 0xBF) then q else p
  | _ => p
  end.
Definition text_decode (p : bytes) : list Z :=
  concat (map units (utf8_decode udec0 (strip_bom p))).

(** ** Encoder: encoder.ts *)

(** The fields #buf and #pos (28, 30): the view #buf has byte offset [boff] and length [blen] in
    the ArrayBuffer [mem]; [old] are the ArrayBuffers replaced by [resize], oldest first (they
    are still referenced by what [bytes] returned earlier). *)
Record enc := mkenc { old : list bytes; mem : bytes; boff : Z; blen : Z; pos : Z }.
(** Outcome of a method: done, or an exception (RangeError) leaving this state.
    [EStuck]: loop bound exceeded; never happens (TsEnc.v). *)
Inductive eres := EOk (s : enc) | EThrow (s : enc) | EStuck.
Definition ebind (r : eres) (f : enc -> eres) : eres :=
  match r with EOk s => f s | r => r end.
Notation "x >>> f" := (ebind x f) (at level 60, right associativity).

(** #buf[i] = v: converted modulo 256, ignored when out of range *)
Definition store (i v : Z) (s : enc) : enc :=
  if (0 <=? i) && (i <? blen s)
  then mkenc (old s) (splice (mem s) (boff s + i) [v mod 256]) (boff s) (blen s) (pos s)
  else s.
(** #buf.set(p, i): RangeError unless it fits *)
Definition set (p : bytes) (i : Z) (s : enc) : eres :=
  if i + zlen p <=? blen s
  then EOk (mkenc (old s) (splice (mem s) (boff s + i) p) (boff s) (blen s) (pos s))
  else EThrow s.
Definition advance (n : Z) (s : enc) : enc :=
  mkenc (old s) (mem s) (boff s) (blen s) (pos s + n).

(** constructor, 32-38: over a given view, or a new buffer of 512 bytes *)
Definition newEncoder (buf : option (bytes * Z * Z)) : enc :=
  match buf with
  | None => mkenc [] (repeat 0 512) 0 512 0
  | Some (m, off, len) => mkenc [] m off len 0
  end.

(** resize, 40-47 *)
Definition resize (minLen : Z) (s : enc) : enc :=
  if blen s - pos s <? minLen then
    let n := zlen (mem s) * 2 in
    mkenc (old s ++ [mem s])
      (splice (repeat 0 (Z.to_nat n)) 0 (ztake (blen s) (zdrop (boff s) (mem s)))) 0 n (pos s)
  else s.

(** get bytes, 49-51: a view of #buf.buffer from 0; RangeError if it does not fit.
    A view is the number of the ArrayBuffer it shows and a length. *)
Definition view := (Z * Z)%type.
Definition bytes_view (s : enc) : res view :=
  if pos s <=? zlen (mem s) then Ok (zlen (old s), pos s) else Panic.
Definition view_content (s : enc) (v : view) : bytes :=
  ztake (snd v) (nth (Z.to_nat (fst v)) (old s ++ [mem s]) []).

(** [val | CONTINUATION] of a Number, 64, and [val >>>= REST_BYTES], 65 *)
Definition or128 (v : Z) : Z := Z.lor (s32 v) 128.
Definition shr7 (v : Z) : Z := Z.shiftr (u32 v) 7.
(** varint, 63-67 *)
Fixpoint varint_loop (fuel : nat) (val : Z) (s : enc) : eres :=
  if 128 <=? val then
    match fuel with
    | O => EStuck
    | S fuel => varint_loop fuel (shr7 val) (advance 1 (store (pos s) (or128 val) s))
    end
  else EOk (advance 1 (store (pos s) val s)).
(** varint, 53-69; five digits are all a Number can produce *)
Definition ts_varint (value kind maxBytes : Z) (signed : bool) (s : enc) : eres :=
  let s := resize maxBytes s in
  let s := store (pos s) kind s in
  let s := advance 1 s in
  let val := if signed then if 0 <=? value then value * 2 else value * -2 - 1 else value in
  varint_loop 8 val s.
(** varintBig, 86-91 *)
Fixpoint varintBig_loop (fuel : nat) (val : Z) (s : enc) : eres :=
  if 128 <=? val then
    match fuel with
    | O => EStuck
    | S fuel =>
        varintBig_loop fuel (Z.shiftr val 7) (advance 1 (store (pos s) (Z.lor (Z.land val 127) 128) s))
    end
  else EOk (advance 1 (store (pos s) val s)).
(** varintBig, 71-93 *)
Definition ts_varintBig (value kind maxBytes : Z) (signed : bool) (s : enc) : eres :=
  let s := resize maxBytes s in
  let s := store (pos s) kind s in
  let s := advance 1 s in
  let val := if signed then if 0 <=? value then value * 2 else value * -2 - 1 else value in
  varintBig_loop (S (Z.to_nat (Z.log2 val))) val s.

(** kind.ts, 17-34 *)
Definition kNull := 0. Definition kArray := 1. Definition kMap := 2. Definition kAny := 3.
Definition kUint8Array := 4. Definition kString := 5. Definition kError := 6.
Definition kBoolean := 7. Definition kUint8 := 8. Definition kUint16 := 9. Definition kUint32 := 10.
Definition kUint64 := 11. Definition kInt32 := 12. Definition kInt64 := 13.
Definition kFloat32 := 14. Definition kFloat64 := 15.

(** null 95-100, any 102-107 *)
Definition ts_null (s : enc) : eres :=
  let s := resize 1 s in EOk (advance 1 (store (pos s) kNull s)).
Definition ts_any (s : enc) : eres :=
  let s := resize 1 s in EOk (advance 1 (store (pos s) kAny s)).
(** boolean 109-115; BOOLEAN_FALSE, BOOLEAN_TRUE 21-22 *)
Definition ts_boolean (b : bool) (s : enc) : eres :=
  let s := resize 2 s in
  let s := store (pos s) kBoolean s in
  let s := store (pos s + 1) (if b then 1 else 0) s in
  EOk (advance 2 s).
(** uint8 117-128, float32 150-161, float64 163-174: kind byte stored, payload [set] *)
Definition fixed (minLen kind : Z) (p : bytes) (s : enc) : eres :=
  let s := resize minLen s in
  let s := store (pos s) kind s in
  set p (pos s + 1) s >>> fun s => EOk (advance (zlen p + 1) s).
Definition ts_uint8 (n : Z) : enc -> eres := fixed 2 kUint8 [n mod 256].
Definition ts_float32 (e : engine) (bits : Z) : enc -> eres := fixed 5 kFloat32 (be4 (js32 e bits)).
Definition ts_float64 (e : engine) (bits : Z) : enc -> eres := fixed 9 kFloat64 (be8 (js64 e bits)).
(** uint16 130-132, uint32 134-136, uint64 138-140, int32 142-144, int64 146-148 *)
Definition ts_uint16 (n : Z) := ts_varint n kUint16 3 false.
Definition ts_uint32 (n : Z) := ts_varint n kUint32 5 false.
Definition ts_uint64 (n : Z) := ts_varintBig n kUint64 9 false.
Definition ts_int32 (n : Z) := ts_varint n kInt32 5 true.
Definition ts_int64 (n : Z) := ts_varintBig n kInt64 9 true.
(** array 176-183 *)
Definition ts_array (size kind : Z) (s : enc) : eres :=
  let s := resize 2 s in
  let s := store (pos s) kArray s in
  let s := store (pos s + 1) kind s in
  ts_uint32 size (advance 2 s).
(** map 185-193 *)
Definition ts_map (size keyKind valueKind : Z) (s : enc) : eres :=
  let s := resize 3 s in
  let s := store (pos s) kMap s in
  let s := store (pos s + 1) keyKind s in
  let s := store (pos s + 2) valueKind s in
  ts_uint32 size (advance 3 s).
(** uint8Array 195-203 *)
Definition ts_uint8Array (p : bytes) (s : enc) : eres :=
  let s := resize (5 + zlen p) s in
  let s := store (pos s) kUint8Array s in
  let s := advance 1 s in
  ts_uint32 (zlen p) s >>> fun s =>
  set p (pos s) s >>> fun s => EOk (advance (zlen p) s).
(** string 205-215 *)
Definition ts_string (u : list Z) (s : enc) : eres :=
  let v := text_encode u in
  let s := resize (5 + zlen v) s in
  let s := store (pos s) kString s in
  let s := advance 1 s in
  ts_uint32 (zlen v) s >>> fun s =>
  set v (pos s) s >>> fun s => EOk (advance (zlen v) s).
(** error 217-228 *)
Definition ts_error (u : list Z) (s : enc) : eres :=
  let v := text_encode u in
  let s := resize (6 + zlen v) s in
  let s := store (pos s) kError s in
  let s := store (pos s + 1) kString s in
  let s := advance 2 s in
  ts_uint32 (zlen v) s >>> fun s =>
  set v (pos s) s >>> fun s => EOk (advance (zlen v) s).

(** One method call, and a chain of calls up to the first exception. *)
Definition ts_encode (e : engine) (v : jsval) : enc -> eres :=
  match v with
  | JNull => ts_null | JAny => ts_any | JBool b => ts_boolean b
  | JU8 n => ts_uint8 n | JU16 n => ts_uint16 n | JU32 n => ts_uint32 n | JU64 n => ts_uint64 n
  | JI32 n => ts_int32 n | JI64 n => ts_int64 n
  | JF32 b => ts_float32 e b | JF64 b => ts_float64 e b
  | JArray n k => ts_array n k | JMap n k1 k2 => ts_map n k1 k2
  | JBytes p => ts_uint8Array p | JString u => ts_string u | JError u => ts_error u
  end.
Fixpoint ts_encode_all (e : engine) (vs : list jsval) (s : enc) : eres :=
  match vs with [] => EOk s | v :: vs => ts_encode e v s >>> ts_encode_all e vs end.

(** ** Decoder: decoder.ts *)

(** buf is a view as above, #pos the position in it (140-144) *)
Record dec := mkdec { dmem : bytes; dboff : Z; dblen : Z; dpos : Z }.
(** An exception: one of the Invalid...Error classes, 27-137 ([gerr] of Spec.v, arrays being
    slices, [ENotNil] standing for the result [false] of [null] and [any]), or a RangeError. *)
Inductive terr := Invalid (e : gerr) | RangeError.
Inductive dres (A : Type) := DOk (a : A) (d : dec) | DThrow (e : terr) (d : dec).
Arguments DOk {A}. Arguments DThrow {A}.
Definition dbind {A B} (r : dres A) (f : A -> dec -> dres B) : dres B :=
  match r with DOk a d => f a d | DThrow e d => DThrow e d end.
Notation "'do' ( x , d ) <- e ; k" := (dbind e (fun x d => k)) (at level 200, x name, d name, k at level 200).

(** buf[i], [None] being undefined *)
Definition load (d : dec) (i : Z) : option Z :=
  if (0 <=? i) && (i <? dblen d) then nth_error (dmem d) (Z.to_nat (dboff d + i)) else None.
(** peek 146-148, pop 150-154 *)
Definition peek (d : dec) : option Z := load d (dpos d).
Definition skip (n : Z) (d : dec) : dec := mkdec (dmem d) (dboff d) (dblen d) (dpos d + n).
Definition pop (d : dec) : option Z * dec := (load d (dpos d), skip 1 d).
Definition is (x : option Z) (k : Z) : bool := match x with Some c => c =? k | None => false end.
(** validateKind 156-161 *)
Definition validateKind (expected : Z) (err : gerr) (d : dec) : dres unit :=
  if negb (is (peek d) expected) then DThrow (Invalid err) d else DOk tt (skip 1 d).
(** get length 163-165 *)
Definition ts_length (d : dec) : Z := dblen d - dpos d.

(** varint 167-184: [undefined < 128n] is false and [undefined & 127] is 0 *)
Fixpoint dvarint_loop (n : nat) (num shift : Z) (signed : bool) (d : dec) : Z * dec :=
  match n with
  | O => (num, d)
  | S n =>
      let '(b, d) := pop d in
      match b with
      | Some c =>
          if c <? 128 then
            let num := num + Z.shiftl c shift in
            (if signed then if Z.rem num 2 =? 0 then Z.quot num 2 else Z.quot (- (num + 1)) 2 else num, d)
          else dvarint_loop n (num + Z.shiftl (Z.land c 127) shift) (shift + 7) signed d
      | None => dvarint_loop n (num + Z.shiftl 0 shift) (shift + 7) signed d
      end
  end.
Definition dvarint (maxLen : Z) (signed : bool) (d : dec) : Z * dec :=
  dvarint_loop (Z.to_nat maxLen) 0 0 signed d.

(** null 186-192, any 194-200 *)
Definition td_null (d : dec) : dres jsval :=
  if is (peek d) kNull then DOk JNull (skip 1 d) else DThrow (Invalid ENotNil) d.
Definition td_any (d : dec) : dres jsval :=
  if is (peek d) kAny then DOk JAny (skip 1 d) else DThrow (Invalid ENotNil) d.
(** boolean 202-205 *)
Definition td_boolean (d : dec) : dres jsval :=
  do (x, d) <- validateKind kBoolean EBool d;
  let '(b, d) := pop d in DOk (JBool (is b 1)) d.
(** new DataView(buf.buffer, buf.byteOffset + #pos, n).get...(0): the ArrayBuffer, not the view,
    is the limit *)
Definition dataview (n : Z) (d : dec) : dres bytes :=
  let off := dboff d + dpos d in
  if off + n <=? zlen (dmem d) then DOk (ztake n (zdrop off (dmem d))) (skip n d)
  else DThrow RangeError d.
(** uint8 207-217 *)
Definition td_uint8 (d : dec) : dres jsval :=
  do (x, d) <- validateKind kUint8 EU8 d;
  do (p, d) <- dataview 1 d;
  DOk (JU8 (be_value p)) d.
(** uint16 219-232; << and | are on 32-bit integers, >>> 0 makes them unsigned *)
Fixpoint d16_loop (n : nat) (num shift : Z) (d : dec) : Z * dec :=
  match n with
  | O => (num, d)
  | S n =>
      let '(b, d) := pop d in
      match b with
      | Some c =>
          if c <? 128 then (u32 (Z.lor num (s32 (Z.shiftl c shift))), d)
          else d16_loop n (Z.lor num (Z.land c (Z.shiftl 127 shift))) (shift + 7) d
      | None => d16_loop n (Z.lor num 0) (shift + 7) d
      end
  end.
Definition td_uint16 (d : dec) : dres jsval :=
  do (x, d) <- validateKind kUint16 EU16 d;
  let '(n, d) := d16_loop 3 0 0 d in DOk (JU16 n) d.
(** uint32 234-237, uint64 239-242, int32 244-247, int64 249-252; MAXLEN32/64 24-25.
    Number(...) is exact: five digits are below 2^35. *)
Definition uint32_raw (d : dec) : dres Z :=
  do (x, d) <- validateKind kUint32 EU32 d;
  let '(n, d) := dvarint 5 false d in DOk n d.
Definition td_uint32 (d : dec) : dres jsval := do (n, d) <- uint32_raw d; DOk (JU32 n) d.
Definition td_uint64 (d : dec) : dres jsval :=
  do (x, d) <- validateKind kUint64 EU64 d;
  let '(n, d) := dvarint 10 false d in DOk (JU64 n) d.
Definition td_int32 (d : dec) : dres jsval :=
  do (x, d) <- validateKind kInt32 EI32 d;
  let '(n, d) := dvarint 5 true d in DOk (JI32 n) d.
Definition td_int64 (d : dec) : dres jsval :=
  do (x, d) <- validateKind kInt64 EI64 d;
  let '(n, d) := dvarint 10 true d in DOk (JI64 n) d.
(** float32 254-264, float64 266-276 *)
Definition td_float32 (e : engine) (d : dec) : dres jsval :=
  do (x, d) <- validateKind kFloat32 EF32 d;
  do (p, d) <- dataview 4 d;
  DOk (JF32 (js32 e (be_value p))) d.
Definition td_float64 (e : engine) (d : dec) : dres jsval :=
  do (x, d) <- validateKind kFloat64 EF64 d;
  do (p, d) <- dataview 8 d;
  DOk (JF64 (js64 e (be_value p))) d.
(** array 278-282, map 284-289 *)
Definition td_array (kind : Z) (d : dec) : dres jsval :=
  do (x, d) <- validateKind kArray ESlice d;
  do (y, d) <- validateKind kind ESlice d;
  do (n, d) <- uint32_raw d;
  DOk (JArray n kind) d.
Definition td_map (keyKind valueKind : Z) (d : dec) : dres jsval :=
  do (x, d) <- validateKind kMap EMap d;
  do (y, d) <- validateKind keyKind EMap d;
  do (z, d) <- validateKind valueKind EMap d;
  do (n, d) <- uint32_raw d;
  DOk (JMap n keyKind valueKind) d.
(** buf.slice(#pos, #pos + size): clamped to the view; a copy *)
Definition slice_at (size : Z) (d : dec) : bytes :=
  ztake (Z.min (dpos d + size) (dblen d) - Z.min (dpos d) (dblen d))
    (zdrop (dboff d + Z.min (dpos d) (dblen d)) (dmem d)).
(** uint8Array 291-297 *)
Definition td_uint8Array (d : dec) : dres jsval :=
  do (x, d) <- validateKind kUint8Array EBytes d;
  do (size, d) <- uint32_raw d;
  let value := slice_at size d in
  DOk (JBytes value) (skip size d).
(** string 299-307 *)
Definition td_string (d : dec) : dres jsval :=
  do (x, d) <- validateKind kString EString d;
  do (size, d) <- uint32_raw d;
  let value := text_decode (slice_at size d) in
  DOk (JString value) (skip size d).
(** error 309-322 *)
Definition td_error (d : dec) : dres jsval :=
  do (x, d) <- validateKind kError EError d;
  let '(nestedType, d) := pop d in
  if negb (is nestedType kString) then DThrow (Invalid EError) d
  else
    do (size, d) <- uint32_raw d;
    let value := text_decode (slice_at size d) in
    DOk (JError value) (skip size d).

(** One method call.  [any] has no counterpart among the requests of Spec.v. *)
Definition ts_decode (e : engine) (q : request) : dec -> dres jsval :=
  match q with
  | RNil => td_null | RBool => td_boolean
  | RU8 => td_uint8 | RU16 => td_uint16 | RU32 => td_uint32 | RU64 => td_uint64
  | RI32 => td_int32 | RI64 => td_int64 | RF32 => td_float32 e | RF64 => td_float64 e
  | RSlice k => td_array k | RMap k1 k2 => td_map k1 k2
  | RBytes => td_uint8Array | RString => td_string | RError => td_error
  end.
Definition newDecoder (m : bytes) (off len : Z) : dec := mkdec m off len 0.
