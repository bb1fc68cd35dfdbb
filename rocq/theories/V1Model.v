(** Model of the Go v1 package: /repo/buffer.go, encode.go, encoder.go, decode.go, decoder.go.
    Function by function; line numbers refer to those files. *)
From Verif Require Import Base Spec.

(** ** Slices with a backing array

    [arr] is the backing array from the start of the slice to its capacity (so cap = zlen arr),
    [len] the slice's length.  [old] keeps every backing array that was abandoned by a
    reallocation, oldest first, so that slices handed out earlier can still be read (C27). *)
Record buffer := mkbuf { old : list bytes; arr : bytes; len : Z }.

(** What [append] finds in the spare capacity of the array it allocates, given the number of
    reallocations so far and the needed length; its length is the spare capacity.  The Go
    specification leaves the capacity open, so theorems quantify over every policy. *)
Definition policy := nat -> Z -> bytes.

(** Go's [append(s, p...)]: in place when it fits, else a new array. *)
Definition append (g : policy) (b : buffer) (p : bytes) : buffer :=
  if len b + zlen p <=? zlen (arr b)
  then mkbuf (old b) (splice (arr b) (len b) p) (len b + zlen p)
  else mkbuf (old b ++ [arr b])
             (ztake (len b) (arr b) ++ p ++ g (length (old b)) (len b + zlen p))
             (len b + zlen p).

(** buffer.go 29-36 Buffer.Write.  [copy] moves min(len(b), cap-len) bytes.
    The argument is a value; slices that alias the buffer are the subject of AliasModel and C86. *)
Definition Write (g : policy) (b : buffer) (p : bytes) : buffer :=
  if zlen (arr b) - len b <? zlen p
  then append g b p
  else let n := Z.min (zlen (arr b) - len b) (zlen p) in
       mkbuf (old b) (splice (arr b) (len b) (ztake n p)) (len b + n).
(** buffer.go 25-27 Reset *)
Definition Reset (b : buffer) : buffer := mkbuf (old b) (arr b) 0.
(** buffer.go 19-21, 38-41 NewBuffer: make(Buffer, 0, 512) *)
Definition defaultSize : Z := 512.
Definition NewBuffer : buffer := mkbuf [] (repeat 0 (Z.to_nat defaultSize)) 0.
(** buffer.go 43-45 Bytes, 47-49 Len *)
Definition Bytes (b : buffer) : bytes := ztake (len b) (arr b).
Definition Len (b : buffer) : Z := len b.

(** ** Encoder (encode.go) *)

(** encode.go 25-44: a Kind is a byte slice *)
Definition kind := bytes.
Definition NilKind : kind := [0].
Definition SliceKind : kind := [1].
Definition MapKind : kind := [2].
Definition AnyKind : kind := [3].
Definition BytesKind : kind := [4].
Definition StringKind : kind := [5].
Definition ErrorKind : kind := [6].
Definition BoolKind : kind := [7].
Definition Uint8Kind : kind := [8].
Definition Uint16Kind : kind := [9].
Definition Uint32Kind : kind := [10].
Definition Uint64Kind : kind := [11].
Definition Int32Kind : kind := [12].
Definition Int64Kind : kind := [13].
Definition Float32Kind : kind := [14].
Definition Float64Kind : kind := [15].
(** encode.go 56-59 *)
Definition falseBool : Z := 0.
Definition trueBool : Z := 1.
(** decode.go 24-30 *)
Definition VarIntLen16 : Z := 3.
Definition VarIntLen32 : Z := 5.
Definition VarIntLen64 : Z := 10.
Definition continuation : Z := 128.

(** The loop [for value >= continuation {append(byte(value)|continuation); value >>= 7};
    append(byte(value))] of encodeUint16 (121-126), encodeUint32 (131-136), encodeUint64
    (141-146), encodeInt32 (156-161), encodeInt64 (171-176).  The loop is unbounded in the code;
    here [fuel] bounds it and running out of fuel is [Panic], which the theorems exclude. *)
Fixpoint varint_loop (fuel : nat) (g : policy) (b : buffer) (value : Z) : res buffer :=
  if value <? continuation then Ok (append g b [u8 value])
  else match fuel with
       | O => Panic
       | S fuel => varint_loop fuel g (append g b [Z.lor (u8 value) continuation]) (Z.shiftr value 7)
       end.

(** encode.go 61-63 *)
Definition encodeNil (g : policy) (b : buffer) : res buffer := Ok (Write g b NilKind).
(** encode.go 119-127 *)
Definition encodeUint16 (g : policy) (b : buffer) (value : Z) : res buffer :=
  varint_loop 20 g (Write g b Uint16Kind) value.
(** encode.go 129-137 *)
Definition encodeUint32 (g : policy) (b : buffer) (value : Z) : res buffer :=
  varint_loop 20 g (Write g b Uint32Kind) value.
(** encode.go 139-147 *)
Definition encodeUint64 (g : policy) (b : buffer) (value : Z) : res buffer :=
  varint_loop 20 g (Write g b Uint64Kind) value.
(** encode.go 65-70 *)
Definition encodeMap (g : policy) (b : buffer) (size : Z) (keyKind valueKind : kind) : res buffer :=
  let b := Write g b MapKind in
  let b := Write g b keyKind in
  let b := Write g b valueKind in
  encodeUint32 g b size.
(** encode.go 72-76 *)
Definition encodeSlice (g : policy) (b : buffer) (size : Z) (k : kind) : res buffer :=
  let b := Write g b SliceKind in
  let b := Write g b k in
  encodeUint32 g b size.
(** encode.go 78-82 *)
Definition encodeBytes (g : policy) (b : buffer) (value : bytes) : res buffer :=
  let b := Write g b BytesKind in
  let! b := encodeUint32 g b (u32 (zlen value)) in
  Ok (Write g b value).
(** encode.go 84-96; the unsafe header juggling only views the string's bytes as a slice *)
Definition encodeString (g : policy) (b : buffer) (value : bytes) : res buffer :=
  let nb := value in
  let b := Write g b StringKind in
  let! b := encodeUint32 g b (u32 (zlen nb)) in
  Ok (Write g b nb).
(** encode.go 98-101; [err] is the message err.Error() (a nil error is not modelled) *)
Definition encodeError (g : policy) (b : buffer) (err : bytes) : res buffer :=
  encodeString g (Write g b ErrorKind) err.
(** encode.go 103-110 *)
Definition encodeBool (g : policy) (b : buffer) (value : bool) : res buffer :=
  let b := Write g b BoolKind in
  if value then Ok (append g b [trueBool]) else Ok (append g b [falseBool]).
(** encode.go 112-115 *)
Definition encodeUint8 (g : policy) (b : buffer) (value : Z) : res buffer :=
  Ok (append g (Write g b Uint8Kind) [value]).
(** encode.go 149-162 *)
Definition encodeInt32 (g : policy) (b : buffer) (value : Z) : res buffer :=
  let b := Write g b Int32Kind in
  let castValue := u32 (Z.shiftl (u32 value) 1) in
  let castValue := if value <? 0 then u32 (Z.lnot castValue) else castValue in
  varint_loop 20 g b castValue.
(** encode.go 164-177 *)
Definition encodeInt64 (g : policy) (b : buffer) (value : Z) : res buffer :=
  let b := Write g b Int64Kind in
  let castValue := u64 (Z.shiftl (u64 value) 1) in
  let castValue := if value <? 0 then u64 (Z.lnot castValue) else castValue in
  varint_loop 20 g b castValue.
(** encode.go 179-183; the argument is math.Float32bits(value) *)
Definition encodeFloat32 (g : policy) (b : buffer) (castValue : Z) : res buffer :=
  Ok (append g (Write g b Float32Kind)
    [u8 (Z.shiftr castValue 24); u8 (Z.shiftr castValue 16); u8 (Z.shiftr castValue 8); u8 castValue]).
(** encode.go 185-189; the argument is math.Float64bits(value) *)
Definition encodeFloat64 (g : policy) (b : buffer) (castValue : Z) : res buffer :=
  Ok (append g (Write g b Float64Kind)
    [u8 (Z.shiftr castValue 56); u8 (Z.shiftr castValue 48); u8 (Z.shiftr castValue 40);
     u8 (Z.shiftr castValue 32); u8 (Z.shiftr castValue 24); u8 (Z.shiftr castValue 16);
     u8 (Z.shiftr castValue 8); u8 castValue]).

(** encoder.go 25-98: each BufferEncoder method forwards to the function above.
    Kinds are single bytes here, as all exported Kind values are. *)
Definition encode (g : policy) (b : buffer) (v : value) : res buffer :=
  match v with
  | VNil => encodeNil g b
  | VMap n k1 k2 => encodeMap g b n [k1] [k2]
  | VSlice n k => encodeSlice g b n [k]
  | VBytes p => encodeBytes g b p
  | VString p => encodeString g b p
  | VError p => encodeError g b p
  | VBool x => encodeBool g b x
  | VU8 n => encodeUint8 g b n
  | VU16 n => encodeUint16 g b n
  | VU32 n => encodeUint32 g b n
  | VU64 n => encodeUint64 g b n
  | VI32 n => encodeInt32 g b n
  | VI64 n => encodeInt64 g b n
  | VF32 n => encodeFloat32 g b n
  | VF64 n => encodeFloat64 g b n
  end.
(** a chain of encoder calls, e.g. Encoder(b).Nil().Uint8(3)... *)
Fixpoint encode_all (g : policy) (b : buffer) (vs : list value) : res buffer :=
  match vs with
  | [] => Ok b
  | v :: vs => let! b := encode g b v in encode_all g b vs
  end.

(** ** Decoder (decode.go)

    Each function returns (remaining input, value, error); [None] is a nil error. *)
Definition triple (A : Type) : Type := (bytes * A * option gerr)%type.

(** decode.go 49-56 *)
Definition decodeNil (b : bytes) : res (bytes * bool) :=
  if zlen b >? 0 then
    let! b0 := index b 0 in
    let! k := index NilKind 0 in
    if b0 =? k then let! r := slice_from b 1 in Ok (r, true) else Ok (b, false)
  else Ok (b, false).

(** decode.go 175-187, the loop of decodeUint16.  [fuel] counts the iterations left
    ([i] runs from 1 while [i < VarIntLen16+1]); when it is used up the loop has ended. *)
Fixpoint loop16 (fuel : nat) (b : bytes) (i x s : Z) : res (triple Z) :=
  match fuel with
  | O => Ok (b, 0, Some EU16)
  | S fuel =>
      let! cb := index b i in
      if cb <? continuation then
        if (i >? VarIntLen16) && (cb >? 1) then Ok (b, 0, Some EU32)
        else let! r := slice_from b (i + 1) in
             Ok (r, Z.lor x (u16 (Z.shiftl (u16 cb) s)), None)
      else loop16 fuel b (i + 1)
             (Z.lor x (u16 (Z.shiftl (u16 (Z.land cb (continuation - 1))) s))) (s + 7)
  end.
(** decode.go 171-190 *)
Definition decodeUint16 (b : bytes) : res (triple Z) :=
  if zlen b >? 1 then
    let! b0 := index b 0 in
    let! k := index Uint16Kind 0 in
    if b0 =? k then loop16 (Z.to_nat VarIntLen16) b 1 0 0 else Ok (b, 0, Some EU16)
  else Ok (b, 0, Some EU16).

(** decode.go 196-209 *)
Fixpoint loop32 (fuel : nat) (b : bytes) (i x s : Z) : res (triple Z) :=
  match fuel with
  | O => Ok (b, 0, Some EU32)
  | S fuel =>
      let! cb := index b i in
      if cb <? continuation then
        if (i >? VarIntLen32) && (cb >? 1) then Ok (b, 0, Some EU32)
        else let! r := slice_from b (i + 1) in
             Ok (r, Z.lor x (u32 (Z.shiftl (u32 cb) s)), None)
      else loop32 fuel b (i + 1)
             (Z.lor x (u32 (Z.shiftl (u32 (Z.land cb (continuation - 1))) s))) (s + 7)
  end.
(** decode.go 192-212 *)
Definition decodeUint32 (b : bytes) : res (triple Z) :=
  if zlen b >? 1 then
    let! b0 := index b 0 in
    let! k := index Uint32Kind 0 in
    if b0 =? k then loop32 (Z.to_nat VarIntLen32) b 1 0 0 else Ok (b, 0, Some EU32)
  else Ok (b, 0, Some EU32).

(** decode.go 218-232 *)
Fixpoint loop64 (fuel : nat) (b : bytes) (i x s : Z) : res (triple Z) :=
  match fuel with
  | O => Ok (b, 0, Some EU64)
  | S fuel =>
      let! cb := index b i in
      if cb <? continuation then
        if (i >? VarIntLen64) && (cb >? 1) then Ok (b, 0, Some EU64)
        else let! r := slice_from b (i + 1) in
             Ok (r, Z.lor x (u64 (Z.shiftl (u64 cb) s)), None)
      else loop64 fuel b (i + 1)
             (Z.lor x (u64 (Z.shiftl (u64 (Z.land cb (continuation - 1))) s))) (s + 7)
  end.
(** decode.go 214-235 *)
Definition decodeUint64 (b : bytes) : res (triple Z) :=
  if zlen b >? 1 then
    let! b0 := index b 0 in
    let! k := index Uint64Kind 0 in
    if b0 =? k then loop64 (Z.to_nat VarIntLen64) b 1 0 0 else Ok (b, 0, Some EU64)
  else Ok (b, 0, Some EU64).

(** decode.go 241-260 *)
Fixpoint loopi32 (fuel : nat) (b : bytes) (i ux s : Z) : res (triple Z) :=
  match fuel with
  | O => Ok (b, 0, Some EI32)
  | S fuel =>
      let! cb := index b i in
      if cb <? continuation then
        if (i >? VarIntLen32) && (cb >? 1) then Ok (b, 0, Some EI32)
        else
          let ux := Z.lor ux (u32 (Z.shiftl (u32 cb) s)) in
          let x := s32 (Z.shiftr ux 1) in
          let x := if negb (Z.land ux 1 =? 0) then s32 (- s32 (x + 1)) else x in
          let! r := slice_from b (i + 1) in Ok (r, x, None)
      else loopi32 fuel b (i + 1)
             (Z.lor ux (u32 (Z.shiftl (u32 (Z.land cb (continuation - 1))) s))) (s + 7)
  end.
(** decode.go 237-263 *)
Definition decodeInt32 (b : bytes) : res (triple Z) :=
  if zlen b >? 1 then
    let! b0 := index b 0 in
    let! k := index Int32Kind 0 in
    if b0 =? k then loopi32 (Z.to_nat VarIntLen32) b 1 0 0 else Ok (b, 0, Some EI32)
  else Ok (b, 0, Some EI32).

(** decode.go 269-288 *)
Fixpoint loopi64 (fuel : nat) (b : bytes) (i ux s : Z) : res (triple Z) :=
  match fuel with
  | O => Ok (b, 0, Some EI64)
  | S fuel =>
      let! cb := index b i in
      if cb <? continuation then
        if (i >? VarIntLen64) && (cb >? 1) then Ok (b, 0, Some EI64)
        else
          let ux := Z.lor ux (u64 (Z.shiftl (u64 cb) s)) in
          let x := s64 (Z.shiftr ux 1) in
          let x := if negb (Z.land ux 1 =? 0) then s64 (- s64 (x + 1)) else x in
          let! r := slice_from b (i + 1) in Ok (r, x, None)
      else loopi64 fuel b (i + 1)
             (Z.lor ux (u64 (Z.shiftl (u64 (Z.land cb (continuation - 1))) s))) (s + 7)
  end.
(** decode.go 265-291 *)
Definition decodeInt64 (b : bytes) : res (triple Z) :=
  if zlen b >? 1 then
    let! b0 := index b 0 in
    let! k := index Int64Kind 0 in
    if b0 =? k then loopi64 (Z.to_nat VarIntLen64) b 1 0 0 else Ok (b, 0, Some EI64)
  else Ok (b, 0, Some EI64).

(** decode.go 58-71.  [&&] is short-circuit, so keyKind[0] is only read when b[0] matches. *)
Definition decodeMap (b : bytes) (keyKind valueKind : kind) : res (triple Z) :=
  if zlen b >? 2 then
    let! b0 := index b 0 in
    let! k0 := index MapKind 0 in
    if b0 =? k0 then
      let! b1 := index b 1 in
      let! k1 := index keyKind 0 in
      if b1 =? k1 then
        let! b2 := index b 2 in
        let! k2 := index valueKind 0 in
        if b2 =? k2 then
          let! b3 := slice_from b 3 in
          let! (b, size, err) := decodeUint32 b3 in
          match err with
          | Some _ => Ok (b, 0, Some EMap)
          | None => Ok (b, size, None)
          end
        else Ok (b, 0, Some EMap)
      else Ok (b, 0, Some EMap)
    else Ok (b, 0, Some EMap)
  else Ok (b, 0, Some EMap).

(** decode.go 73-86 *)
Definition decodeSlice (b : bytes) (k : kind) : res (triple Z) :=
  if zlen b >? 1 then
    let! b0 := index b 0 in
    let! k0 := index SliceKind 0 in
    if b0 =? k0 then
      let! b1 := index b 1 in
      let! k1 := index k 0 in
      if b1 =? k1 then
        let! b2 := slice_from b 2 in
        let! (b, size, err) := decodeUint32 b2 in
        match err with
        | Some _ => Ok (b, 0, Some ESlice)
        | None => Ok (b, size, None)
        end
      else Ok (b, 0, Some ESlice)
    else Ok (b, 0, Some ESlice)
  else Ok (b, 0, Some ESlice).

(** decode.go 88-113.  [W] is the width of Go's int (64 or 32); [ret] the destination
    ([None] = nil).  [int(size)] is [sw W size]; comparisons and [-1] are in int.
    Line 103's append(ret[:0], ...) yields exactly the payload, so does line 100-101. *)
Definition decodeBytes (W : Z) (b : bytes) (ret : option bytes) : res (triple (option bytes)) :=
  if zlen b >? 0 then
    let! b0 := index b 0 in
    let! k := index BytesKind 0 in
    if b0 =? k then
      let! b1 := slice_from b 1 in
      let! (b, size, err) := decodeUint32 b1 in
      match err with
      | Some _ => Ok (b, None, Some EBytes)
      | None =>
          if zlen b >? sw W (sw W size - 1) then
            if (match ret with None => 0 | Some d => zlen d end) <? sw W size then
              match ret with
              | None => let! p := slice_to b size in
                        let! r := slice_from b size in Ok (r, Some p, None)
              | Some _ => let! p := slice_to b size in
                          let! r := slice_from b size in Ok (r, Some p, None)
              end
            else
              let! p := slice_to b size in
              let! r := slice_from b size in
              match ret with
              | None => Ok (r, None, None)          (* copy into a nil slice: nothing to do *)
              | Some d =>                           (* copy(ret[0:], b[:size]); ret is returned whole *)
                  let n := Z.min (zlen d) (zlen p) in
                  Ok (r, Some (ztake n p ++ zdrop n d), None)
              end
          else Ok (b, None, Some EBytes)
      end
    else Ok (b, None, Some EBytes)
  else Ok (b, None, Some EBytes).

(** decode.go 115-130 *)
Definition decodeString (W : Z) (b : bytes) : res (triple bytes) :=
  if zlen b >? 0 then
    let! b0 := index b 0 in
    let! k := index StringKind 0 in
    if b0 =? k then
      let! b1 := slice_from b 1 in
      let! (b, size, err) := decodeUint32 b1 in
      match err with
      | Some _ => Ok (b, [], Some EString)
      | None =>
          if zlen b >? sw W (sw W size - 1) then
            let! r := slice_from b size in
            let! p := slice_to b size in
            Ok (r, p, None)
          else Ok (b, [], Some EString)
      end
    else Ok (b, [], Some EString)
  else Ok (b, [], Some EString).

(** decode.go 132-145 *)
Definition decodeError (W : Z) (b : bytes) : res (triple bytes) :=
  if zlen b >? 0 then
    let! b0 := index b 0 in
    let! k := index ErrorKind 0 in
    if b0 =? k then
      let! b1 := slice_from b 1 in
      let! (b, val, err) := decodeString W b1 in
      match err with
      | Some _ => Ok (b, [], Some EError)
      | None => Ok (b, val, None)
      end
    else Ok (b, [], Some EError)
  else Ok (b, [], Some EError).

(** decode.go 147-158 *)
Definition decodeBool (b : bytes) : res (triple bool) :=
  if zlen b >? 1 then
    let! b0 := index b 0 in
    let! k := index BoolKind 0 in
    if b0 =? k then
      let! b1 := index b 1 in
      if b1 =? trueBool then let! r := slice_from b 2 in Ok (r, true, None)
      else let! r := slice_from b 2 in Ok (r, false, None)
    else Ok (b, false, Some EBool)
  else Ok (b, false, Some EBool).

(** decode.go 160-167 *)
Definition decodeUint8 (b : bytes) : res (triple Z) :=
  if zlen b >? 1 then
    let! b0 := index b 0 in
    let! k := index Uint8Kind 0 in
    if b0 =? k then
      let! r := slice_from b 2 in
      let! b1 := index b 1 in
      Ok (r, b1, None)
    else Ok (b, 0, Some EU8)
  else Ok (b, 0, Some EU8).

(** decode.go 293-300; the result is the argument of math.Float32frombits *)
Definition decodeFloat32 (b : bytes) : res (triple Z) :=
  if zlen b >? 4 then
    let! b0 := index b 0 in
    let! k := index Float32Kind 0 in
    if b0 =? k then
      let! r := slice_from b 5 in
      let! b4 := index b 4 in let! b3 := index b 3 in
      let! b2 := index b 2 in let! b1 := index b 1 in
      Ok (r, Z.lor (Z.lor (Z.lor (u32 b4) (u32 (Z.shiftl (u32 b3) 8)))
                     (u32 (Z.shiftl (u32 b2) 16))) (u32 (Z.shiftl (u32 b1) 24)), None)
    else Ok (b, 0, Some EF32)
  else Ok (b, 0, Some EF32).

(** decode.go 302-310; the result is the argument of math.Float64frombits *)
Definition decodeFloat64 (b : bytes) : res (triple Z) :=
  if zlen b >? 8 then
    let! b0 := index b 0 in
    let! k := index Float64Kind 0 in
    if b0 =? k then
      let! r := slice_from b 9 in
      let! b8 := index b 8 in let! b7 := index b 7 in
      let! b6 := index b 6 in let! b5 := index b 5 in
      let! b4 := index b 4 in let! b3 := index b 3 in
      let! b2 := index b 2 in let! b1 := index b 1 in
      Ok (r, Z.lor (Z.lor (Z.lor (Z.lor (Z.lor (Z.lor (Z.lor
                (u64 b8) (u64 (Z.shiftl (u64 b7) 8))) (u64 (Z.shiftl (u64 b6) 16)))
                (u64 (Z.shiftl (u64 b5) 24))) (u64 (Z.shiftl (u64 b4) 32)))
                (u64 (Z.shiftl (u64 b3) 40))) (u64 (Z.shiftl (u64 b2) 48)))
                (u64 (Z.shiftl (u64 b1) 56)), None)
    else Ok (b, 0, Some EF64)
  else Ok (b, 0, Some EF64).

(** One Decoder method call (decoder.go 53-126: [d.b, value, err = decodeX(d.b)]) seen from
    outside: the value or error returned and the input the decoder is left with. *)
Definition out {A} (f : A -> value) (x : res (triple A)) : outcome :=
  match x with
  | Panic => Crash
  | Ok (r, a, None) => Done r (f a)
  | Ok (r, _, Some e) => Fail r e
  end.
Definition oget (x : option bytes) : bytes := match x with Some p => p | None => [] end.

Definition decode (W : Z) (dst : option bytes) (r : request) (b : bytes) : outcome :=
  match r with
  | RNil => match decodeNil b with
            | Panic => Crash
            | Ok (r, true) => Done r VNil
            | Ok (r, false) => Fail r ENotNil
            end
  | RMap k1 k2 => out (fun n => VMap n k1 k2) (decodeMap b [k1] [k2])
  | RSlice k => out (fun n => VSlice n k) (decodeSlice b [k])
  | RBytes => out (fun p => VBytes (oget p)) (decodeBytes W b dst)
  | RString => out VString (decodeString W b)
  | RError => out VError (decodeError W b)
  | RBool => out VBool (decodeBool b)
  | RU8 => out VU8 (decodeUint8 b)
  | RU16 => out VU16 (decodeUint16 b)
  | RU32 => out VU32 (decodeUint32 b)
  | RU64 => out VU64 (decodeUint64 b)
  | RI32 => out VI32 (decodeInt32 b)
  | RI64 => out VI64 (decodeInt64 b)
  | RF32 => out VF32 (decodeFloat32 b)
  | RF64 => out VF64 (decodeFloat64 b)
  end.

(** ** Clients

    Not code: the calls a client can make on a buffer, in any order. *)
(** A Go slice always has 0 <= len <= cap. *)
Definition wf (b : buffer) : Prop := 0 <= len b <= zlen (arr b).
Inductive op := OEncode (v : value) | OWrite (p : bytes) | OReset.
Definition apply (g : policy) (b : buffer) (o : op) : res buffer :=
  match o with
  | OEncode v => encode g b v
  | OWrite p => Ok (Write g b p)
  | OReset => Ok (Reset b)
  end.
Fixpoint run (g : policy) (b : buffer) (ops : list op) : res buffer :=
  match ops with
  | [] => Ok b
  | o :: ops => let! b := apply g b o in run g b ops
  end.
(** A slice obtained from Bytes(): which backing array it points into, and its length; and what
    it reads in a later state of the buffer. *)
Definition view (b : buffer) : nat * Z := (length (old b), len b).
Definition read_view (b : buffer) (w : nat * Z) : bytes :=
  ztake (snd w) (nth (fst w) (old b ++ [arr b]) []).
