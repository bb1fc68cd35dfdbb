(** Model of the Rust crate: /repo/kind.rs, encoder.rs, decoder.rs.
    Function by function; line numbers refer to those files. *)
From Verif Require Import Base Spec Utf8.

(** ** kind.rs *)
(** kind.rs 17-36 *)
Inductive Kind :=
| KNone | KArray | KMap | KAny | KBytes | KString | KError | KBool
| KU8 | KU16 | KU32 | KU64 | KI32 | KI64 | KF32 | KF64 | KUnknown.
(** kind.rs 18-35: the discriminants ([kind as u8]); Unknown continues the count *)
Definition as_u8 (k : Kind) : Z :=
  match k with
  | KNone => 0x00 | KArray => 0x01 | KMap => 0x02 | KAny => 0x03 | KBytes => 0x04 | KString => 0x05
  | KError => 0x06 | KBool => 0x07 | KU8 => 0x08 | KU16 => 0x09 | KU32 => 0x0a | KU64 => 0x0b
  | KI32 => 0x0c | KI64 => 0x0d | KF32 => 0x0e | KF64 => 0x0f | KUnknown => 0x10
  end.
(** kind.rs 38-61 *)
Definition kind_from (orig : Z) : Kind :=
  if orig =? 0x00 then KNone else if orig =? 0x01 then KArray else if orig =? 0x02 then KMap
  else if orig =? 0x03 then KAny else if orig =? 0x04 then KBytes else if orig =? 0x05 then KString
  else if orig =? 0x06 then KError else if orig =? 0x07 then KBool else if orig =? 0x08 then KU8
  else if orig =? 0x09 then KU16 else if orig =? 0x0a then KU32 else if orig =? 0x0b then KU64
  else if orig =? 0x0c then KI32 else if orig =? 0x0d then KI64 else if orig =? 0x0e then KF32
  else if orig =? 0x0f then KF64 else KUnknown.

(** ** std::io::Cursor (library code; its documented behaviour) *)
Record cursor := mkcur { buf : bytes; pos : Z }.

(** [Write for Cursor<Vec<u8>>]: the bytes are written at the position, overwriting what is there
    and extending the vector; a position beyond the end is first zero-filled.  Writing to a vector
    cannot fail (allocation failure aborts and is not modelled). *)
Definition write_all (c : cursor) (p : bytes) : cursor :=
  let v := if zlen (buf c) <? pos c then buf c ++ repeat 0 (Z.to_nat (pos c - zlen (buf c))) else buf c in
  mkcur (splice v (pos c) p) (pos c + zlen p).
Definition write_u8 (c : cursor) (x : Z) : cursor := write_all c [x].

(** ** encoder.rs

    Every [?] and [unwrap] on a write is on a call that cannot fail (see [write_all]), so the
    methods return the cursor; [Panic] is only used for a loop running out of fuel. *)
(** encoder.rs 24 *)
Definition CONTINUATION : Z := 0x80.
(** The loop [while val >= CONTINUATION {write_u8(val as u8 | CONTINUATION); val >>= 7};
    write_u8(val as u8)] of encode_u16 (170-174), encode_u32 (181-185), encode_u64 (192-196),
    encode_i32 (209-214), encode_i64 (227-232). *)
Fixpoint varint_loop (fuel : nat) (c : cursor) (val : Z) : res cursor :=
  if val >=? CONTINUATION then
    match fuel with
    | O => Panic
    | S fuel => varint_loop fuel (write_u8 c (Z.lor (u8 val) CONTINUATION)) (Z.shiftr val 7)
    end
  else Ok (write_u8 c (u8 val)).

(** encoder.rs 98-101 *)
Definition encode_none (c : cursor) : res cursor := Ok (write_u8 c (as_u8 KNone)).
(** encoder.rs 167-176 *)
Definition encode_u16 (c : cursor) (val : Z) : res cursor := varint_loop 20 (write_u8 c (as_u8 KU16)) val.
(** encoder.rs 178-187 *)
Definition encode_u32 (c : cursor) (val : Z) : res cursor := varint_loop 20 (write_u8 c (as_u8 KU32)) val.
(** encoder.rs 189-198 *)
Definition encode_u64 (c : cursor) (val : Z) : res cursor := varint_loop 20 (write_u8 c (as_u8 KU64)) val.
(** encoder.rs 103-107; [size] is a usize *)
Definition encode_array (c : cursor) (size : Z) (val_kind : Kind) : res cursor :=
  let c := write_u8 c (as_u8 KArray) in
  let c := write_u8 c (as_u8 val_kind) in
  encode_u32 c (u32 size).
(** encoder.rs 109-119 *)
Definition encode_map (c : cursor) (size : Z) (key_kind val_kind : Kind) : res cursor :=
  let c := write_u8 c (as_u8 KMap) in
  let c := write_u8 c (as_u8 key_kind) in
  let c := write_u8 c (as_u8 val_kind) in
  encode_u32 c (u32 size).
(** encoder.rs 121-126 *)
Definition encode_bytes (c : cursor) (val : bytes) : res cursor :=
  let c := write_u8 c (as_u8 KBytes) in
  let! c := encode_u32 c (u32 (zlen val)) in
  Ok (write_all c val).
(** encoder.rs 128-134 encode_string and 136-142 encode_str: the same statements *)
Definition encode_string (c : cursor) (val : bytes) : res cursor :=
  let c := write_u8 c (as_u8 KString) in
  let! c := encode_u32 c (u32 (zlen val)) in
  Ok (write_all c val).
(** encoder.rs 144-153; [val] is the error's [to_string()] *)
Definition encode_error (c : cursor) (val : bytes) : res cursor :=
  let c := write_u8 c (as_u8 KError) in
  let c := write_u8 c (as_u8 KString) in
  let! c := encode_u32 c (u32 (zlen val)) in
  Ok (write_all c val).
(** encoder.rs 155-159 *)
Definition encode_bool (c : cursor) (val : bool) : res cursor :=
  let c := write_u8 c (as_u8 KBool) in
  Ok (write_u8 c (if val then 1 else 0)).
(** encoder.rs 161-165 *)
Definition encode_u8 (c : cursor) (val : Z) : res cursor :=
  let c := write_u8 c (as_u8 KU8) in Ok (write_u8 c val).
(** encoder.rs 200-216 *)
Definition encode_i32 (c : cursor) (val : Z) : res cursor :=
  let c := write_u8 c (as_u8 KI32) in
  let cast_val := u32 (Z.shiftl (u32 val) 1) in
  let cast_val := if val <? 0 then u32 (Z.lnot cast_val) else cast_val in
  varint_loop 20 c cast_val.
(** encoder.rs 218-234 *)
Definition encode_i64 (c : cursor) (val : Z) : res cursor :=
  let c := write_u8 c (as_u8 KI64) in
  let cast_val := u64 (Z.shiftl (u64 val) 1) in
  let cast_val := if val <? 0 then u64 (Z.lnot cast_val) else cast_val in
  varint_loop 20 c cast_val.
(** byteorder's write_f32/write_f64::<BigEndian>: [to_bits().to_be_bytes()] *)
Definition to_be_bytes32 (x : Z) : bytes :=
  [u8 (Z.shiftr x 24); u8 (Z.shiftr x 16); u8 (Z.shiftr x 8); u8 x].
Definition to_be_bytes64 (x : Z) : bytes :=
  [u8 (Z.shiftr x 56); u8 (Z.shiftr x 48); u8 (Z.shiftr x 40); u8 (Z.shiftr x 32);
   u8 (Z.shiftr x 24); u8 (Z.shiftr x 16); u8 (Z.shiftr x 8); u8 x].
(** encoder.rs 236-240; [bits] = val.to_bits() *)
Definition encode_f32 (c : cursor) (bits : Z) : res cursor :=
  let c := write_u8 c (as_u8 KF32) in Ok (write_all c (to_be_bytes32 bits)).
(** encoder.rs 242-246 *)
Definition encode_f64 (c : cursor) (bits : Z) : res cursor :=
  let c := write_u8 c (as_u8 KF64) in Ok (write_all c (to_be_bytes64 bits)).

(** One Encoder call; the kinds of a map or array header are given by number. *)
Definition encode (c : cursor) (v : value) : res cursor :=
  match v with
  | VNil => encode_none c
  | VMap n k1 k2 => encode_map c n (kind_from k1) (kind_from k2)
  | VSlice n k => encode_array c n (kind_from k)
  | VBytes p => encode_bytes c p
  | VString p => encode_string c p
  | VError p => encode_error c p
  | VBool b => encode_bool c b
  | VU8 n => encode_u8 c n
  | VU16 n => encode_u16 c n
  | VU32 n => encode_u32 c n
  | VU64 n => encode_u64 c n
  | VI32 n => encode_i32 c n
  | VI64 n => encode_i64 c n
  | VF32 n => encode_f32 c n
  | VF64 n => encode_f64 c n
  end.
Fixpoint encode_all (c : cursor) (vs : list value) : res cursor :=
  match vs with
  | [] => Ok c
  | v :: vs => let! c := encode c v in encode_all c vs
  end.

(** ** decoder.rs *)
(** decoder.rs 24-43 *)
Inductive DecodingError :=
| InvalidNone | InvalidArray | InvalidMap | InvalidBytes | InvalidString | InvalidError
| InvalidBool | InvalidU8 | InvalidU16 | InvalidU32 | InvalidU64 | InvalidI32 | InvalidI64
| InvalidF32 | InvalidF64 | InvalidEnum | InvalidStruct.

(** Result of a method: Ok or Err with the cursor it leaves, or a panic. *)
Inductive rres (A : Type) : Type :=
| ROk (a : A) (c : cursor)
| RErr (e : DecodingError) (c : cursor)
| RPanic.
Arguments ROk {A}. Arguments RErr {A}. Arguments RPanic {A}.
(** the [?] operator *)
Definition rbind {A B} (x : rres A) (f : A -> cursor -> rres B) : rres B :=
  match x with ROk a c => f a c | RErr e c => RErr e c | RPanic => RPanic end.
Notation "'let?' ( x , c ) ':=' e 'in' k" := (rbind e (fun x c => k))
  (at level 200, x name, c name, e at level 100, k at level 200).

(** Runtime parameters: [eof] - what a failing [read_exact] does to the position: older standard
    libraries leave it, newer ones (1.80+) move it to the end of the buffer; [W] - pointer width. *)
Record runtime := mkrt { eof : bool; W : Z }.

(** [Cursor::read_exact(n)], with [.ok().ok_or(e)?] folded in: [e] is the error returned *)
Definition read_exact (rt : runtime) (e : DecodingError) (n : Z) (c : cursor) : rres bytes :=
  let rest := zdrop (Z.min (pos c) (zlen (buf c))) (buf c) in
  if n <=? zlen rest then ROk (ztake n rest) (mkcur (buf c) (pos c + n))
  else RErr e (if eof rt then mkcur (buf c) (zlen (buf c)) else c).
(** byteorder's [read_u8]: a [read_exact] into a one-byte array *)
Definition read_u8 (rt : runtime) (e : DecodingError) (c : cursor) : rres Z :=
  match read_exact rt e 1 c with
  | ROk p c => match p with x :: _ => ROk x c | [] => RPanic end
  | RErr e c => RErr e c
  | RPanic => RPanic
  end.
(** [self.set_position(self.position() - n); Err(e)]; the subtraction of unsigned integers
    panics (debug) when it would go below zero *)
Definition back_err {A} (c : cursor) (n : Z) (e : DecodingError) : rres A :=
  if pos c <? n then RPanic else RErr e (mkcur (buf c) (pos c - n)).
(** [vec![0u8; size]]: panics with "capacity overflow" above isize::MAX *)
Definition vec_ok (rt : runtime) (size : Z) : bool := size <=? 2 ^ (W rt - 1) - 1.

(** decoder.rs 53-56 *)
Definition VARINT_LEN16 : Z := 3.
Definition VARINT_LEN32 : Z := 5.
Definition VARINT_LEN64 : Z := 10.

(** decoder.rs 80-88 *)
Definition decode_none (rt : runtime) (c : cursor) : rres bool :=
  match read_u8 rt InvalidNone c with
  | ROk kind c =>
      if kind =? as_u8 KNone then ROk true c
      else if pos c <? 1 then RPanic else ROk false (mkcur (buf c) (pos c - 1))
  | RErr _ c => ROk false c
  | RPanic => RPanic
  end.

(** decoder.rs 197-204, the loop of decode_u16 and the lines after it (206-207) *)
Fixpoint loop16 (rt : runtime) (fuel : nat) (c : cursor) (x s : Z) : rres Z :=
  match fuel with
  | O => back_err c 1 InvalidU32
  | S fuel =>
      let? (byte, c) := read_u8 rt InvalidU16 c in
      if byte <? CONTINUATION then ROk (Z.lor x (u16 (Z.shiftl byte s))) c
      else loop16 rt fuel c (Z.lor x (u16 (Z.shiftl (Z.land byte (CONTINUATION - 1)) s))) (s + 7)
  end.
(** decoder.rs 191-208 *)
Definition decode_u16 (rt : runtime) (c : cursor) : rres Z :=
  let? (kind, c) := read_u8 rt InvalidU16 c in
  if kind =? as_u8 KU16 then loop16 rt (Z.to_nat VARINT_LEN16) c 0 0
  else back_err c 1 InvalidU32.
(** decoder.rs 216-226 *)
Fixpoint loop32 (rt : runtime) (fuel : nat) (c : cursor) (x s : Z) : rres Z :=
  match fuel with
  | O => back_err c 1 InvalidU32
  | S fuel =>
      let? (byte, c) := read_u8 rt InvalidU32 c in
      if byte <? CONTINUATION then ROk (Z.lor x (u32 (Z.shiftl byte s))) c
      else loop32 rt fuel c (Z.lor x (u32 (Z.shiftl (Z.land byte (CONTINUATION - 1)) s))) (s + 7)
  end.
(** decoder.rs 210-227 *)
Definition decode_u32 (rt : runtime) (c : cursor) : rres Z :=
  let? (kind, c) := read_u8 rt InvalidU32 c in
  if kind =? as_u8 KU32 then loop32 rt (Z.to_nat VARINT_LEN32) c 0 0
  else back_err c 1 InvalidU32.
(** decoder.rs 235-245 *)
Fixpoint loop64 (rt : runtime) (fuel : nat) (c : cursor) (x s : Z) : rres Z :=
  match fuel with
  | O => back_err c 1 InvalidU32
  | S fuel =>
      let? (byte, c) := read_u8 rt InvalidU64 c in
      if byte <? CONTINUATION then ROk (Z.lor x (u64 (Z.shiftl byte s))) c
      else loop64 rt fuel c (Z.lor x (u64 (Z.shiftl (Z.land byte (CONTINUATION - 1)) s))) (s + 7)
  end.
(** decoder.rs 229-246 *)
Definition decode_u64 (rt : runtime) (c : cursor) : rres Z :=
  let? (kind, c) := read_u8 rt InvalidU64 c in
  if kind =? as_u8 KU64 then loop64 rt (Z.to_nat VARINT_LEN64) c 0 0
  else back_err c 1 InvalidU32.
(** decoder.rs 254-269 *)
Fixpoint loopi32 (rt : runtime) (fuel : nat) (c : cursor) (ux s : Z) : rres Z :=
  match fuel with
  | O => back_err c 1 InvalidI32
  | S fuel =>
      let? (byte, c) := read_u8 rt InvalidI32 c in
      if byte <? CONTINUATION then
        let ux := Z.lor ux (u32 (Z.shiftl byte s)) in
        let x := s32 (Z.shiftr ux 1) in
        let x := if negb (Z.land ux 1 =? 0) then s32 (- s32 (x + 1)) else x in
        ROk x c
      else loopi32 rt fuel c (Z.lor ux (u32 (Z.shiftl (Z.land byte (CONTINUATION - 1)) s))) (s + 7)
  end.
(** decoder.rs 248-270 *)
Definition decode_i32 (rt : runtime) (c : cursor) : rres Z :=
  let? (kind, c) := read_u8 rt InvalidI32 c in
  if kind =? as_u8 KI32 then loopi32 rt (Z.to_nat VARINT_LEN32) c 0 0
  else back_err c 1 InvalidI32.
(** decoder.rs 278-293 *)
Fixpoint loopi64 (rt : runtime) (fuel : nat) (c : cursor) (ux s : Z) : rres Z :=
  match fuel with
  | O => back_err c 1 InvalidI64
  | S fuel =>
      let? (byte, c) := read_u8 rt InvalidI64 c in
      if byte <? CONTINUATION then
        let ux := Z.lor ux (u64 (Z.shiftl byte s)) in
        let x := s64 (Z.shiftr ux 1) in
        let x := if negb (Z.land ux 1 =? 0) then s64 (- s64 (x + 1)) else x in
        ROk x c
      else loopi64 rt fuel c (Z.lor ux (u64 (Z.shiftl (Z.land byte (CONTINUATION - 1)) s))) (s + 7)
  end.
(** decoder.rs 272-294 *)
Definition decode_i64 (rt : runtime) (c : cursor) : rres Z :=
  let? (kind, c) := read_u8 rt InvalidI64 c in
  if kind =? as_u8 KI64 then loopi64 rt (Z.to_nat VARINT_LEN64) c 0 0
  else back_err c 1 InvalidI64.

(** decoder.rs 90-101 *)
Definition decode_array (rt : runtime) (c : cursor) (val_kind : Kind) : rres Z :=
  let? (kind, c) := read_u8 rt InvalidArray c in
  let? (defined_val_kind, c) := read_u8 rt InvalidArray c in
  if (kind =? as_u8 KArray) && (as_u8 val_kind =? defined_val_kind) then decode_u32 rt c
  else back_err c 1 InvalidU32.
(** decoder.rs 103-118 *)
Definition decode_map (rt : runtime) (c : cursor) (key_kind val_kind : Kind) : rres Z :=
  let? (kind, c) := read_u8 rt InvalidMap c in
  let? (defined_key_kind, c) := read_u8 rt InvalidMap c in
  let? (defined_val_kind, c) := read_u8 rt InvalidMap c in
  if (kind =? as_u8 KMap) && (as_u8 key_kind =? defined_key_kind) && (as_u8 val_kind =? defined_val_kind)
  then decode_u32 rt c
  else back_err c 1 InvalidMap.
(** decoder.rs 120-132 *)
Definition decode_bytes (rt : runtime) (c : cursor) : rres bytes :=
  let? (kind, c) := read_u8 rt InvalidBytes c in
  if kind =? as_u8 KBytes then
    let? (size, c) := decode_u32 rt c in
    if vec_ok rt size then read_exact rt InvalidBytes size c else RPanic
  else back_err c 1 InvalidBytes.
(** decoder.rs 134-151 *)
Definition decode_string (rt : runtime) (c : cursor) : rres bytes :=
  let? (kind, c) := read_u8 rt InvalidString c in
  if kind =? as_u8 KString then
    let? (size, c) := decode_u32 rt c in
    if vec_ok rt size then
      let? (str_buf, c) := read_exact rt InvalidString size c in
      if from_utf8 str_buf then ROk str_buf c else RErr InvalidString c
    else RPanic
  else back_err c 1 InvalidString.
(** decoder.rs 153-170; the value is the message the error is made from *)
Definition decode_error (rt : runtime) (c : cursor) : rres bytes :=
  let? (kind, c) := read_u8 rt InvalidError c in
  let? (nested_kind, c) := read_u8 rt InvalidError c in
  if (kind =? as_u8 KError) && (nested_kind =? as_u8 KString) then
    let? (size, c) := decode_u32 rt c in
    if vec_ok rt size then
      let? (str_buf, c) := read_exact rt InvalidError size c in
      if from_utf8 str_buf then ROk str_buf c else RErr InvalidError c
    else RPanic
  else back_err c 2 InvalidError.
(** decoder.rs 172-180 *)
Definition decode_bool (rt : runtime) (c : cursor) : rres bool :=
  let? (kind, c) := read_u8 rt InvalidBool c in
  if kind =? as_u8 KBool then
    let? (val, c) := read_u8 rt InvalidBool c in
    ROk (val =? 1) c
  else back_err c 1 InvalidBool.
(** decoder.rs 182-189 *)
Definition decode_u8 (rt : runtime) (c : cursor) : rres Z :=
  let? (kind, c) := read_u8 rt InvalidU8 c in
  if kind =? as_u8 KU8 then read_u8 rt InvalidU8 c
  else back_err c 1 InvalidU8.
(** decoder.rs 296-306; read_f32::<BigEndian> is a read_exact of 4 bytes and from_be_bytes;
    the result is the bit pattern *)
Definition decode_f32 (rt : runtime) (c : cursor) : rres Z :=
  let? (kind, c) := read_u8 rt InvalidF32 c in
  if kind =? as_u8 KF32 then
    let? (p, c) := read_exact rt InvalidF32 4 c in ROk (be_value p) c
  else back_err c 1 InvalidF32.
(** decoder.rs 308-318 *)
Definition decode_f64 (rt : runtime) (c : cursor) : rres Z :=
  let? (kind, c) := read_u8 rt InvalidF64 c in
  if kind =? as_u8 KF64 then
    let? (p, c) := read_exact rt InvalidF64 8 c in ROk (be_value p) c
  else back_err c 1 InvalidF64.

(** One Decoder call with the result as a value; for Nil, [false] is reported as [InvalidNone]. *)
Definition rmap {A} (f : A -> value) (x : rres A) : rres value :=
  match x with ROk a c => ROk (f a) c | RErr e c => RErr e c | RPanic => RPanic end.
Definition decode (rt : runtime) (q : request) (c : cursor) : rres value :=
  match q with
  | RNil => match decode_none rt c with
            | ROk true c => ROk VNil c | ROk false c => RErr InvalidNone c
            | RErr e c => RErr e c | RPanic => RPanic
            end
  | RMap k1 k2 => rmap (fun n => VMap n k1 k2) (decode_map rt c (kind_from k1) (kind_from k2))
  | RSlice k => rmap (fun n => VSlice n k) (decode_array rt c (kind_from k))
  | RBytes => rmap VBytes (decode_bytes rt c)
  | RString => rmap VString (decode_string rt c)
  | RError => rmap VError (decode_error rt c)
  | RBool => rmap VBool (decode_bool rt c)
  | RU8 => rmap VU8 (decode_u8 rt c)
  | RU16 => rmap VU16 (decode_u16 rt c)
  | RU32 => rmap VU32 (decode_u32 rt c)
  | RU64 => rmap VU64 (decode_u64 rt c)
  | RI32 => rmap VI32 (decode_i32 rt c)
  | RI64 => rmap VI64 (decode_i64 rt c)
  | RF32 => rmap VF32 (decode_f32 rt c)
  | RF64 => rmap VF64 (decode_f64 rt c)
  end.
(** a chain of Decoder calls, stopping at the first that is not Ok *)
Fixpoint decode_all (rt : runtime) (qs : list request) (c : cursor) : rres (list value) :=
  match qs with
  | [] => ROk [] c
  | q :: qs => let? (v, c) := decode rt q c in let? (vs, c) := decode_all rt qs c in ROk (v :: vs) c
  end.
