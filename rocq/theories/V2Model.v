(** Model of the Go v2 package: /repo/v2/buffer.go, encode.go, encoder.go, decode.go, decoder.go,
    error.go.  Function by function; line numbers refer to those files.  The encoder ladders and
    integer decoder ladders keep the nesting of the source, statement by statement. *)
From Verif Require Import Base Spec.

(** ** Buffer (v2/buffer.go)

    v2/buffer.go 23-26: a slice [b] and an [offset].  [arr] is the backing array from the start of
    the slice to its capacity (cap = zlen arr), [blen] = len(b), [off] = offset; [old] keeps the
    backing arrays abandoned by reallocation, oldest first, so that slices handed out earlier
    can still be read (C26). *)
Record buffer := mkbuf { old : list bytes; arr : bytes; blen : Z; off : Z }.

Definition set_off (b : buffer) (o : Z) : buffer := mkbuf (old b) (arr b) (blen b) o.

(** Contents of the spare capacity of a newly allocated array, given the number of reallocations
    so far and the needed length.  Theorems quantify over every policy. *)
Definition policy := nat -> Z -> bytes.

(** Go [b.b[i] = c]: panics unless [0 <= i < len(b.b)]. *)
Definition store (b : buffer) (i c : Z) : res buffer :=
  if (i <? 0) || (blen b <=? i) then Panic
  else Ok (mkbuf (old b) (splice (arr b) i [c]) (blen b) (off b)).

(** Go [copy(b.b[i:], p)]: panics unless [0 <= i <= len(b.b)]; copies min(len(b.b)-i, len(p)). *)
Definition copy_at (b : buffer) (i : Z) (p : bytes) : res (buffer * Z) :=
  if (i <? 0) || (blen b <? i) then Panic
  else let n := Z.min (blen b - i) (zlen p) in
       Ok (mkbuf (old b) (splice (arr b) i (ztake n p)) (blen b) (off b), n).

(** Go [b.b = append(b.b[:o], make([]byte, k)...)]: the slice expression panics unless
    [0 <= o <= cap], make panics for negative [k]; in place when it fits, else a new array. *)
Definition append_zeros (g : policy) (b : buffer) (o k : Z) : res buffer :=
  if (o <? 0) || (zlen (arr b) <? o) || (k <? 0) then Panic
  else if o + k <=? zlen (arr b)
  then Ok (mkbuf (old b) (splice (arr b) o (repeat 0 (Z.to_nat k))) (o + k) (off b))
  else Ok (mkbuf (old b ++ [arr b])
                 (ztake o (arr b) ++ repeat 0 (Z.to_nat k) ++ g (length (old b)) (o + k))
                 (o + k) (off b)).

(** v2/buffer.go 28-33, 35-40: make([]byte, size), length = capacity = size.
    (A negative size panics in make; sizes here are non-negative.) *)
Definition defaultSize : Z := 512.
Definition NewBufferSize (size : Z) : buffer := mkbuf [] (repeat 0 (Z.to_nat size)) size 0.
Definition NewBuffer : buffer := NewBufferSize defaultSize.
(** v2/buffer.go 42-47: the slice has contents [p] (length zlen p) and spare capacity [spare]. *)
Definition NewBufferFromBytes (p spare : bytes) : buffer := mkbuf [] (p ++ spare) (zlen p) 0.
(** v2/buffer.go 49-51 *)
Definition Reset (b : buffer) : buffer := set_off b 0.
(** v2/buffer.go 53-55 *)
Definition MoveOffset (b : buffer) (o : Z) : buffer := set_off b (off b + o).
(** v2/buffer.go 83-85 *)
Definition Cap (b : buffer) : Z := zlen (arr b).
(** v2/buffer.go 57-67 *)
Definition Grow (g : policy) (b : buffer) (n : Z) : res buffer :=
  if Cap b - off b <? n then
    let! b := (if Cap b <? n
               then append_zeros g b (off b) (n + Cap b - off b)
               else append_zeros g b (off b) (Cap b * 2 - off b)) in
    Ok (mkbuf (old b) (arr b) (Cap b) (off b))
  else Ok b.
(** v2/buffer.go 69-73: [buf.b[off:cap]] panics unless 0 <= off <= cap *)
Definition Write (g : policy) (b : buffer) (p : bytes) : res buffer :=
  let! b := Grow g b (zlen p) in
  if (off b <? 0) || (Cap b <? off b) then Panic
  else let n := Z.min (Cap b - off b) (zlen p) in
       Ok (mkbuf (old b) (splice (arr b) (off b) (ztake n p)) (blen b) (off b + n)).
(** v2/buffer.go 75-77: [b[:offset]] panics unless 0 <= offset <= cap *)
Definition Bytes (b : buffer) : res bytes :=
  if (off b <? 0) || (Cap b <? off b) then Panic else Ok (ztake (off b) (arr b)).
(** v2/buffer.go 79-81 *)
Definition Len (b : buffer) : Z := off b.

(** ** Encoder (v2/encode.go) *)

(** v2/encode.go 24-41; Kind (43-62) is the same byte *)
Definition NilRawKind : Z := 0.
Definition SliceRawKind : Z := 1.
Definition MapRawKind : Z := 2.
Definition AnyRawKind : Z := 3.
Definition BytesRawKind : Z := 4.
Definition StringRawKind : Z := 5.
Definition ErrorRawKind : Z := 6.
Definition BoolRawKind : Z := 7.
Definition Uint8RawKind : Z := 8.
Definition Uint16RawKind : Z := 9.
Definition Uint32RawKind : Z := 10.
Definition Uint64RawKind : Z := 11.
Definition Int32RawKind : Z := 12.
Definition Int64RawKind : Z := 13.
Definition Float32RawKind : Z := 14.
Definition Float64RawKind : Z := 15.
(** v2/encode.go 64-67 *)
Definition falseBool : Z := 0.
Definition trueBool : Z := 1.
(** v2/decode.go 24-30 *)
Definition VarIntLen16 : Z := 3.
Definition VarIntLen32 : Z := 5.
Definition VarIntLen64 : Z := 10.
Definition continuation : Z := 128.
(** v2/encode.go 69-83 *)
Definition nilSize : Z := 1.
Definition uint16Size : Z := 1 + VarIntLen16.
Definition uint32Size : Z := 1 + VarIntLen32.
Definition uint64Size : Z := 1 + VarIntLen64.
Definition mapSize : Z := 3 + uint32Size.
Definition sliceSize : Z := 2 + uint32Size.
Definition bytesSize : Z := 1 + uint32Size.
Definition stringSize : Z := 1 + uint32Size.
Definition errorSize : Z := 1 + stringSize.
Definition boolSize : Z := 2.
Definition uint8Size : Z := 2.
Definition float32Size : Z := 5.
Definition float64Size : Z := 9.

(** In every encoder below a panic discards the partial stores made before it (they lie beyond
    the offset, which is only updated at the end). *)

(** v2/encode.go 85-89. *)
Definition encodeNil (g : policy) (b : buffer)  : res buffer :=
  let! b := Grow g b (nilSize) in
  let! b := store b (off b) (NilRawKind) in
  let b := set_off b (off b + 1) in
  Ok b.

(** v2/encode.go 91-143. *)
Definition encodeMap (g : policy) (b : buffer) (size keyKind valueKind : Z) : res buffer :=
  let! b := Grow g b (mapSize) in
  let offset := off b in
  let! b := store b offset (MapRawKind) in
  let offset := offset + 1 in
  let! b := store b offset (keyKind) in
  let offset := offset + 1 in
  let! b := store b offset (valueKind) in
  let offset := offset + 1 in
  let! b := store b offset (Uint32RawKind) in
  let offset := offset + 1 in
  if size <? continuation then
    let! b := store b offset (u8 size) in
    let b := set_off b (offset + 1) in
    Ok b
  else
    let! b := store b offset (Z.lor (u8 (Z.land size (continuation - 1))) continuation) in
    let offset := offset + 1 in
    let size := Z.shiftr size 7 in
    if size <? continuation then
      let! b := store b offset (u8 size) in
      let b := set_off b (offset + 1) in
      Ok b
    else
      let! b := store b offset (Z.lor (u8 (Z.land size (continuation - 1))) continuation) in
      let offset := offset + 1 in
      let size := Z.shiftr size 7 in
      if size <? continuation then
        let! b := store b offset (u8 size) in
        let b := set_off b (offset + 1) in
        Ok b
      else
        let! b := store b offset (Z.lor (u8 (Z.land size (continuation - 1))) continuation) in
        let offset := offset + 1 in
        let size := Z.shiftr size 7 in
        if size <? continuation then
          let! b := store b offset (u8 size) in
          let b := set_off b (offset + 1) in
          Ok b
        else
          let! b := store b offset (Z.lor (u8 (Z.land size (continuation - 1))) continuation) in
          let offset := offset + 1 in
          let size := Z.shiftr size 7 in
          if size <? continuation then
            let! b := store b offset (u8 size) in
            let b := set_off b (offset + 1) in
            Ok b
          else
            let! b := store b offset (Z.lor (u8 (Z.land size (continuation - 1))) continuation) in
            let offset := offset + 1 in
            let! b := store b offset (u8 (Z.shiftr size 7)) in
            let b := set_off b (offset + 1) in
            Ok b.

(** v2/encode.go 145-195. *)
Definition encodeSlice (g : policy) (b : buffer) (size kind : Z) : res buffer :=
  let! b := Grow g b (sliceSize) in
  let offset := off b in
  let! b := store b offset (SliceRawKind) in
  let offset := offset + 1 in
  let! b := store b offset (kind) in
  let offset := offset + 1 in
  let! b := store b offset (Uint32RawKind) in
  let offset := offset + 1 in
  if size <? continuation then
    let! b := store b offset (u8 size) in
    let b := set_off b (offset + 1) in
    Ok b
  else
    let! b := store b offset (Z.lor (u8 (Z.land size (continuation - 1))) continuation) in
    let offset := offset + 1 in
    let size := Z.shiftr size 7 in
    if size <? continuation then
      let! b := store b offset (u8 size) in
      let b := set_off b (offset + 1) in
      Ok b
    else
      let! b := store b offset (Z.lor (u8 (Z.land size (continuation - 1))) continuation) in
      let offset := offset + 1 in
      let size := Z.shiftr size 7 in
      if size <? continuation then
        let! b := store b offset (u8 size) in
        let b := set_off b (offset + 1) in
        Ok b
      else
        let! b := store b offset (Z.lor (u8 (Z.land size (continuation - 1))) continuation) in
        let offset := offset + 1 in
        let size := Z.shiftr size 7 in
        if size <? continuation then
          let! b := store b offset (u8 size) in
          let b := set_off b (offset + 1) in
          Ok b
        else
          let! b := store b offset (Z.lor (u8 (Z.land size (continuation - 1))) continuation) in
          let offset := offset + 1 in
          let size := Z.shiftr size 7 in
          if size <? continuation then
            let! b := store b offset (u8 size) in
            let b := set_off b (offset + 1) in
            Ok b
          else
            let! b := store b offset (Z.lor (u8 (Z.land size (continuation - 1))) continuation) in
            let offset := offset + 1 in
            let! b := store b offset (u8 (Z.shiftr size 7)) in
            let b := set_off b (offset + 1) in
            Ok b.

(** v2/encode.go 197-246. Note the missing [offset++] in the innermost [castValue < continuation] branch (234). *)
Definition encodeBytes (g : policy) (b : buffer) (value : bytes) : res buffer :=
  let! b := Grow g b (bytesSize + zlen value) in
  let castValue := u32 (zlen value) in
  let offset := off b in
  let! b := store b offset (BytesRawKind) in
  let offset := offset + 1 in
  let! b := store b offset (Uint32RawKind) in
  let offset := offset + 1 in
  let! (b, offset) :=
    if castValue <? continuation then
      let! b := store b offset (u8 castValue) in
      let offset := offset + 1 in
      Ok (b, offset)
    else
      let! b := store b offset (Z.lor (u8 (Z.land castValue (continuation - 1))) continuation) in
      let offset := offset + 1 in
      let castValue := Z.shiftr castValue 7 in
      if castValue <? continuation then
        let! b := store b offset (u8 castValue) in
        let offset := offset + 1 in
        Ok (b, offset)
      else
        let! b := store b offset (Z.lor (u8 (Z.land castValue (continuation - 1))) continuation) in
        let offset := offset + 1 in
        let castValue := Z.shiftr castValue 7 in
        if castValue <? continuation then
          let! b := store b offset (u8 castValue) in
          let offset := offset + 1 in
          Ok (b, offset)
        else
          let! b := store b offset (Z.lor (u8 (Z.land castValue (continuation - 1))) continuation) in
          let offset := offset + 1 in
          let castValue := Z.shiftr castValue 7 in
          if castValue <? continuation then
            let! b := store b offset (u8 castValue) in
            let offset := offset + 1 in
            Ok (b, offset)
          else
            let! b := store b offset (Z.lor (u8 (Z.land castValue (continuation - 1))) continuation) in
            let offset := offset + 1 in
            let castValue := Z.shiftr castValue 7 in
            if castValue <? continuation then
              let! b := store b offset (u8 castValue) in
              Ok (b, offset)
            else
              let! b := store b offset (Z.lor (u8 (Z.land castValue (continuation - 1))) continuation) in
              let offset := offset + 1 in
              let! b := store b offset (u8 (Z.shiftr castValue 7)) in
              let offset := offset + 1 in
              Ok (b, offset)
  in
  let! (b, n) := copy_at b offset value in
  let b := set_off b (offset + n) in
  Ok b.

(** v2/encode.go 247-298. *)
Definition encodeString (g : policy) (b : buffer) (value : bytes) : res buffer :=
  let! b := Grow g b (stringSize + zlen value) in
  let nb := value in
  let offset := off b in
  let castValue := u32 (zlen nb) in
  let! b := store b offset (StringRawKind) in
  let offset := offset + 1 in
  let! b := store b offset (Uint32RawKind) in
  let offset := offset + 1 in
  let! (b, offset) :=
    if castValue <? continuation then
      let! b := store b offset (u8 castValue) in
      let offset := offset + 1 in
      Ok (b, offset)
    else
      let! b := store b offset (Z.lor (u8 (Z.land castValue (continuation - 1))) continuation) in
      let offset := offset + 1 in
      let castValue := Z.shiftr castValue 7 in
      if castValue <? continuation then
        let! b := store b offset (u8 castValue) in
        let offset := offset + 1 in
        Ok (b, offset)
      else
        let! b := store b offset (Z.lor (u8 (Z.land castValue (continuation - 1))) continuation) in
        let offset := offset + 1 in
        let castValue := Z.shiftr castValue 7 in
        if castValue <? continuation then
          let! b := store b offset (u8 castValue) in
          let offset := offset + 1 in
          Ok (b, offset)
        else
          let! b := store b offset (Z.lor (u8 (Z.land castValue (continuation - 1))) continuation) in
          let offset := offset + 1 in
          let castValue := Z.shiftr castValue 7 in
          if castValue <? continuation then
            let! b := store b offset (u8 castValue) in
            let offset := offset + 1 in
            Ok (b, offset)
          else
            let! b := store b offset (Z.lor (u8 (Z.land castValue (continuation - 1))) continuation) in
            let offset := offset + 1 in
            let castValue := Z.shiftr castValue 7 in
            if castValue <? continuation then
              let! b := store b offset (u8 castValue) in
              let offset := offset + 1 in
              Ok (b, offset)
            else
              let! b := store b offset (Z.lor (u8 (Z.land castValue (continuation - 1))) continuation) in
              let offset := offset + 1 in
              let! b := store b offset (u8 (Z.shiftr castValue 7)) in
              let offset := offset + 1 in
              Ok (b, offset)
  in
  let! (b, n) := copy_at b offset nb in
  let b := set_off b (offset + n) in
  Ok b.

(** v2/encode.go 300-354. [err] is the message. *)
Definition encodeError (g : policy) (b : buffer) (err : bytes) : res buffer :=
  let errString := err in
  let! b := Grow g b (errorSize + zlen errString) in
  let offset := off b in
  let! b := store b offset (ErrorRawKind) in
  let offset := offset + 1 in
  let nb := errString in
  let castValue := u32 (zlen nb) in
  let! b := store b offset (StringRawKind) in
  let offset := offset + 1 in
  let! b := store b offset (Uint32RawKind) in
  let offset := offset + 1 in
  let! (b, offset) :=
    if castValue <? continuation then
      let! b := store b offset (u8 castValue) in
      let offset := offset + 1 in
      Ok (b, offset)
    else
      let! b := store b offset (Z.lor (u8 (Z.land castValue (continuation - 1))) continuation) in
      let offset := offset + 1 in
      let castValue := Z.shiftr castValue 7 in
      if castValue <? continuation then
        let! b := store b offset (u8 castValue) in
        let offset := offset + 1 in
        Ok (b, offset)
      else
        let! b := store b offset (Z.lor (u8 (Z.land castValue (continuation - 1))) continuation) in
        let offset := offset + 1 in
        let castValue := Z.shiftr castValue 7 in
        if castValue <? continuation then
          let! b := store b offset (u8 castValue) in
          let offset := offset + 1 in
          Ok (b, offset)
        else
          let! b := store b offset (Z.lor (u8 (Z.land castValue (continuation - 1))) continuation) in
          let offset := offset + 1 in
          let castValue := Z.shiftr castValue 7 in
          if castValue <? continuation then
            let! b := store b offset (u8 castValue) in
            let offset := offset + 1 in
            Ok (b, offset)
          else
            let! b := store b offset (Z.lor (u8 (Z.land castValue (continuation - 1))) continuation) in
            let offset := offset + 1 in
            let castValue := Z.shiftr castValue 7 in
            if castValue <? continuation then
              let! b := store b offset (u8 castValue) in
              let offset := offset + 1 in
              Ok (b, offset)
            else
              let! b := store b offset (Z.lor (u8 (Z.land castValue (continuation - 1))) continuation) in
              let offset := offset + 1 in
              let! b := store b offset (u8 (Z.shiftr castValue 7)) in
              let offset := offset + 1 in
              Ok (b, offset)
  in
  let! (b, n) := copy_at b offset nb in
  let b := set_off b (offset + n) in
  Ok b.

(** v2/encode.go 356-367. *)
Definition encodeBool (g : policy) (b : buffer) (value : bool) : res buffer :=
  let! b := Grow g b (boolSize) in
  let offset := off b in
  let! b := store b offset (BoolRawKind) in
  let offset := offset + 1 in
  let! b :=
    if value then
      let! b := store b offset (trueBool) in
      Ok b
    else
      let! b := store b offset (falseBool) in
      Ok b
  in
  let b := set_off b (offset + 1) in
  Ok b.

(** v2/encode.go 369-376. *)
Definition encodeUint8 (g : policy) (b : buffer) (value : Z) : res buffer :=
  let! b := Grow g b (uint8Size) in
  let offset := off b in
  let! b := store b offset (Uint8RawKind) in
  let offset := offset + 1 in
  let! b := store b offset (value) in
  let b := set_off b (offset + 1) in
  Ok b.

(** v2/encode.go 378-408. *)
Definition encodeUint16 (g : policy) (b : buffer) (value : Z) : res buffer :=
  let! b := Grow g b (uint16Size) in
  let offset := off b in
  let! b := store b offset (Uint16RawKind) in
  let offset := offset + 1 in
  if value <? continuation then
    let! b := store b offset (u8 value) in
    let b := set_off b (offset + 1) in
    Ok b
  else
    let! b := store b offset (Z.lor (u8 (Z.land value (continuation - 1))) continuation) in
    let offset := offset + 1 in
    let value := Z.shiftr value 7 in
    if value <? continuation then
      let! b := store b offset (u8 value) in
      let b := set_off b (offset + 1) in
      Ok b
    else
      let! b := store b offset (Z.lor (u8 (Z.land value (continuation - 1))) continuation) in
      let offset := offset + 1 in
      let value := Z.shiftr value 7 in
      if value <? continuation then
        let! b := store b offset (u8 value) in
        let b := set_off b (offset + 1) in
        Ok b
      else
        let! b := store b offset (Z.lor (u8 (Z.land value (continuation - 1))) continuation) in
        let offset := offset + 1 in
        let! b := store b offset (u8 (Z.shiftr value 7)) in
        let b := set_off b (offset + 1) in
        Ok b.

(** v2/encode.go 410-456. *)
Definition encodeUint32 (g : policy) (b : buffer) (value : Z) : res buffer :=
  let! b := Grow g b (uint32Size) in
  let offset := off b in
  let! b := store b offset (Uint32RawKind) in
  let offset := offset + 1 in
  if value <? continuation then
    let! b := store b offset (u8 value) in
    let b := set_off b (offset + 1) in
    Ok b
  else
    let! b := store b offset (Z.lor (u8 (Z.land value (continuation - 1))) continuation) in
    let offset := offset + 1 in
    let value := Z.shiftr value 7 in
    if value <? continuation then
      let! b := store b offset (u8 value) in
      let b := set_off b (offset + 1) in
      Ok b
    else
      let! b := store b offset (Z.lor (u8 (Z.land value (continuation - 1))) continuation) in
      let offset := offset + 1 in
      let value := Z.shiftr value 7 in
      if value <? continuation then
        let! b := store b offset (u8 value) in
        let b := set_off b (offset + 1) in
        Ok b
      else
        let! b := store b offset (Z.lor (u8 (Z.land value (continuation - 1))) continuation) in
        let offset := offset + 1 in
        let value := Z.shiftr value 7 in
        if value <? continuation then
          let! b := store b offset (u8 value) in
          let b := set_off b (offset + 1) in
          Ok b
        else
          let! b := store b offset (Z.lor (u8 (Z.land value (continuation - 1))) continuation) in
          let offset := offset + 1 in
          let value := Z.shiftr value 7 in
          if value <? continuation then
            let! b := store b offset (u8 value) in
            let b := set_off b (offset + 1) in
            Ok b
          else
            let! b := store b offset (Z.lor (u8 (Z.land value (continuation - 1))) continuation) in
            let offset := offset + 1 in
            let! b := store b offset (u8 (Z.shiftr value 7)) in
            let b := set_off b (offset + 1) in
            Ok b.

(** v2/encode.go 458-536. *)
Definition encodeUint64 (g : policy) (b : buffer) (value : Z) : res buffer :=
  let! b := Grow g b (uint64Size) in
  let offset := off b in
  let! b := store b offset (Uint64RawKind) in
  let offset := offset + 1 in
  if value <? continuation then
    let! b := store b offset (u8 value) in
    let b := set_off b (offset + 1) in
    Ok b
  else
    let! b := store b offset (Z.lor (u8 (Z.land value (continuation - 1))) continuation) in
    let offset := offset + 1 in
    let value := Z.shiftr value 7 in
    if value <? continuation then
      let! b := store b offset (u8 value) in
      let b := set_off b (offset + 1) in
      Ok b
    else
      let! b := store b offset (Z.lor (u8 (Z.land value (continuation - 1))) continuation) in
      let offset := offset + 1 in
      let value := Z.shiftr value 7 in
      if value <? continuation then
        let! b := store b offset (u8 value) in
        let b := set_off b (offset + 1) in
        Ok b
      else
        let! b := store b offset (Z.lor (u8 (Z.land value (continuation - 1))) continuation) in
        let offset := offset + 1 in
        let value := Z.shiftr value 7 in
        if value <? continuation then
          let! b := store b offset (u8 value) in
          let b := set_off b (offset + 1) in
          Ok b
        else
          let! b := store b offset (Z.lor (u8 (Z.land value (continuation - 1))) continuation) in
          let offset := offset + 1 in
          let value := Z.shiftr value 7 in
          if value <? continuation then
            let! b := store b offset (u8 value) in
            let b := set_off b (offset + 1) in
            Ok b
          else
            let! b := store b offset (Z.lor (u8 (Z.land value (continuation - 1))) continuation) in
            let offset := offset + 1 in
            let value := Z.shiftr value 7 in
            if value <? continuation then
              let! b := store b offset (u8 value) in
              let b := set_off b (offset + 1) in
              Ok b
            else
              let! b := store b offset (Z.lor (u8 (Z.land value (continuation - 1))) continuation) in
              let offset := offset + 1 in
              let value := Z.shiftr value 7 in
              if value <? continuation then
                let! b := store b offset (u8 value) in
                let b := set_off b (offset + 1) in
                Ok b
              else
                let! b := store b offset (Z.lor (u8 (Z.land value (continuation - 1))) continuation) in
                let offset := offset + 1 in
                let value := Z.shiftr value 7 in
                if value <? continuation then
                  let! b := store b offset (u8 value) in
                  let b := set_off b (offset + 1) in
                  Ok b
                else
                  let! b := store b offset (Z.lor (u8 (Z.land value (continuation - 1))) continuation) in
                  let offset := offset + 1 in
                  let value := Z.shiftr value 7 in
                  if value <? continuation then
                    let! b := store b offset (u8 value) in
                    let b := set_off b (offset + 1) in
                    Ok b
                  else
                    let! b := store b offset (Z.lor (u8 (Z.land value (continuation - 1))) continuation) in
                    let offset := offset + 1 in
                    let! b := store b offset (u8 (Z.shiftr value 7)) in
                    let b := set_off b (offset + 1) in
                    Ok b.

(** v2/encode.go 538-588. *)
Definition encodeInt32 (g : policy) (b : buffer) (value : Z) : res buffer :=
  let! b := Grow g b (uint32Size) in
  let castValue := u32 (Z.shiftl (u32 value) 1) in
  let castValue := if value <? 0 then u32 (Z.lnot castValue) else castValue in
  let offset := off b in
  let! b := store b offset (Int32RawKind) in
  let offset := offset + 1 in
  if castValue <? continuation then
    let! b := store b offset (u8 castValue) in
    let b := set_off b (offset + 1) in
    Ok b
  else
    let! b := store b offset (Z.lor (u8 (Z.land castValue (continuation - 1))) continuation) in
    let offset := offset + 1 in
    let castValue := Z.shiftr castValue 7 in
    if castValue <? continuation then
      let! b := store b offset (u8 castValue) in
      let b := set_off b (offset + 1) in
      Ok b
    else
      let! b := store b offset (Z.lor (u8 (Z.land castValue (continuation - 1))) continuation) in
      let offset := offset + 1 in
      let castValue := Z.shiftr castValue 7 in
      if castValue <? continuation then
        let! b := store b offset (u8 castValue) in
        let b := set_off b (offset + 1) in
        Ok b
      else
        let! b := store b offset (Z.lor (u8 (Z.land castValue (continuation - 1))) continuation) in
        let offset := offset + 1 in
        let castValue := Z.shiftr castValue 7 in
        if castValue <? continuation then
          let! b := store b offset (u8 castValue) in
          let b := set_off b (offset + 1) in
          Ok b
        else
          let! b := store b offset (Z.lor (u8 (Z.land castValue (continuation - 1))) continuation) in
          let offset := offset + 1 in
          let castValue := Z.shiftr castValue 7 in
          if castValue <? continuation then
            let! b := store b offset (u8 castValue) in
            let b := set_off b (offset + 1) in
            Ok b
          else
            let! b := store b offset (Z.lor (u8 (Z.land castValue (continuation - 1))) continuation) in
            let offset := offset + 1 in
            let! b := store b offset (u8 (Z.shiftr castValue 7)) in
            let b := set_off b (offset + 1) in
            Ok b.

(** v2/encode.go 590-672. *)
Definition encodeInt64 (g : policy) (b : buffer) (value : Z) : res buffer :=
  let! b := Grow g b (uint64Size) in
  let castValue := u64 (Z.shiftl (u64 value) 1) in
  let castValue := if value <? 0 then u64 (Z.lnot castValue) else castValue in
  let offset := off b in
  let! b := store b offset (Int64RawKind) in
  let offset := offset + 1 in
  if castValue <? continuation then
    let! b := store b offset (u8 castValue) in
    let b := set_off b (offset + 1) in
    Ok b
  else
    let! b := store b offset (Z.lor (u8 (Z.land castValue (continuation - 1))) continuation) in
    let offset := offset + 1 in
    let castValue := Z.shiftr castValue 7 in
    if castValue <? continuation then
      let! b := store b offset (u8 castValue) in
      let b := set_off b (offset + 1) in
      Ok b
    else
      let! b := store b offset (Z.lor (u8 (Z.land castValue (continuation - 1))) continuation) in
      let offset := offset + 1 in
      let castValue := Z.shiftr castValue 7 in
      if castValue <? continuation then
        let! b := store b offset (u8 castValue) in
        let b := set_off b (offset + 1) in
        Ok b
      else
        let! b := store b offset (Z.lor (u8 (Z.land castValue (continuation - 1))) continuation) in
        let offset := offset + 1 in
        let castValue := Z.shiftr castValue 7 in
        if castValue <? continuation then
          let! b := store b offset (u8 castValue) in
          let b := set_off b (offset + 1) in
          Ok b
        else
          let! b := store b offset (Z.lor (u8 (Z.land castValue (continuation - 1))) continuation) in
          let offset := offset + 1 in
          let castValue := Z.shiftr castValue 7 in
          if castValue <? continuation then
            let! b := store b offset (u8 castValue) in
            let b := set_off b (offset + 1) in
            Ok b
          else
            let! b := store b offset (Z.lor (u8 (Z.land castValue (continuation - 1))) continuation) in
            let offset := offset + 1 in
            let castValue := Z.shiftr castValue 7 in
            if castValue <? continuation then
              let! b := store b offset (u8 castValue) in
              let b := set_off b (offset + 1) in
              Ok b
            else
              let! b := store b offset (Z.lor (u8 (Z.land castValue (continuation - 1))) continuation) in
              let offset := offset + 1 in
              let castValue := Z.shiftr castValue 7 in
              if castValue <? continuation then
                let! b := store b offset (u8 castValue) in
                let b := set_off b (offset + 1) in
                Ok b
              else
                let! b := store b offset (Z.lor (u8 (Z.land castValue (continuation - 1))) continuation) in
                let offset := offset + 1 in
                let castValue := Z.shiftr castValue 7 in
                if castValue <? continuation then
                  let! b := store b offset (u8 castValue) in
                  let b := set_off b (offset + 1) in
                  Ok b
                else
                  let! b := store b offset (Z.lor (u8 (Z.land castValue (continuation - 1))) continuation) in
                  let offset := offset + 1 in
                  let castValue := Z.shiftr castValue 7 in
                  if castValue <? continuation then
                    let! b := store b offset (u8 castValue) in
                    let b := set_off b (offset + 1) in
                    Ok b
                  else
                    let! b := store b offset (Z.lor (u8 (Z.land castValue (continuation - 1))) continuation) in
                    let offset := offset + 1 in
                    let! b := store b offset (u8 (Z.shiftr castValue 7)) in
                    let b := set_off b (offset + 1) in
                    Ok b.

(** v2/encode.go 674-688. [value] is the bit pattern. *)
Definition encodeFloat32 (g : policy) (b : buffer) (value : Z) : res buffer :=
  let! b := Grow g b (float32Size) in
  let offset := off b in
  let! b := store b offset (Float32RawKind) in
  let offset := offset + 1 in
  let castValue := value in
  let! b := store b offset (u8 (Z.shiftr castValue 24)) in
  let offset := offset + 1 in
  let! b := store b offset (u8 (Z.shiftr castValue 16)) in
  let offset := offset + 1 in
  let! b := store b offset (u8 (Z.shiftr castValue 8)) in
  let offset := offset + 1 in
  let! b := store b offset (u8 castValue) in
  let b := set_off b (offset + 1) in
  Ok b.

(** v2/encode.go 690-712. [value] is the bit pattern. *)
Definition encodeFloat64 (g : policy) (b : buffer) (value : Z) : res buffer :=
  let! b := Grow g b (float64Size) in
  let offset := off b in
  let! b := store b offset (Float64RawKind) in
  let offset := offset + 1 in
  let castValue := value in
  let! b := store b offset (u8 (Z.shiftr castValue 56)) in
  let offset := offset + 1 in
  let! b := store b offset (u8 (Z.shiftr castValue 48)) in
  let offset := offset + 1 in
  let! b := store b offset (u8 (Z.shiftr castValue 40)) in
  let offset := offset + 1 in
  let! b := store b offset (u8 (Z.shiftr castValue 32)) in
  let offset := offset + 1 in
  let! b := store b offset (u8 (Z.shiftr castValue 24)) in
  let offset := offset + 1 in
  let! b := store b offset (u8 (Z.shiftr castValue 16)) in
  let offset := offset + 1 in
  let! b := store b offset (u8 (Z.shiftr castValue 8)) in
  let offset := offset + 1 in
  let! b := store b offset (u8 castValue) in
  let b := set_off b (offset + 1) in
  Ok b.

(** v2/encoder.go 25-98: each BufferEncoder method forwards to the function above. *)
Definition encode (g : policy) (b : buffer) (v : value) : res buffer :=
  match v with
  | VNil => encodeNil g b
  | VMap n k1 k2 => encodeMap g b n k1 k2
  | VSlice n k => encodeSlice g b n k
  | VBytes p => encodeBytes g b p
  | VString p => encodeString g b p
  | VError p => encodeError g b p
  | VBool x => encodeBool g b x
  | VU8 n => encodeUint8 g b n
  | VU16 n => encodeUint16 g b n
  | VU32 n => encodeUint32 g b n
  | VU64 n => encodeUint64 g b n
  | VI32 n => encodeInt32 g b n
  | VI64 n => encodeInt64 g b n
  | VF32 n => encodeFloat32 g b n
  | VF64 n => encodeFloat64 g b n
  end.
(** a chain of encoder calls *)
Fixpoint encode_all (g : policy) (b : buffer) (vs : list value) : res buffer :=
  match vs with
  | [] => Ok b
  | v :: vs => let! b := encode g b v in encode_all g b vs
  end.

(** ** Decoder (v2/decode.go)

    Each function returns (remaining input, value, error); [None] is a nil error. *)
Definition triple (A : Type) : Type := (bytes * A * option gerr)%type.

(** v2/decode.go 49-54 *)
Definition decodeNil (b : bytes) : res (bytes * bool) :=
  if zlen b >? 0 then
    let! b0 := index b 0 in
    if b0 =? NilRawKind then let! r := slice_from b 1 in Ok (r, true) else Ok (b, false)
  else Ok (b, false).

(** v2/decode.go 173-193 *)
Definition decodeUint16 (b : bytes) : res (triple Z) :=
  if zlen b >? 1 then
    let! b0 := index b 0 in
    if b0 =? Uint16RawKind then
      let! cb := index b 1 in
      let cb := u16 cb in
      if cb <? continuation then
        let! r := slice_from b 2 in Ok (r, cb, None)
      else
      let x := Z.land cb (continuation - 1) in
      let! cb := index b 2 in
      let cb := u16 cb in
      if cb <? continuation then
        let! r := slice_from b 3 in Ok (r, Z.lor x (u16 (Z.shiftl cb 7)), None)
      else
      let x := Z.lor x (u16 (Z.shiftl (Z.land cb (continuation - 1)) 7)) in
      let! cb := index b 3 in
      let cb := u16 cb in
      if cb <? continuation then
        let! r := slice_from b 4 in Ok (r, Z.lor x (u16 (Z.shiftl cb 14)), None)
      else
      Ok (b, 0, Some EU16)
    else Ok (b, 0, Some EU16)
  else Ok (b, 0, Some EU16).

(** v2/decode.go 195-227 *)
Definition decodeUint32 (b : bytes) : res (triple Z) :=
  if zlen b >? 1 then
    let! b0 := index b 0 in
    if b0 =? Uint32RawKind then
      let! cb := index b 1 in
      let cb := u32 cb in
      if cb <? continuation then
        let! r := slice_from b 2 in Ok (r, cb, None)
      else
      let x := Z.land cb (continuation - 1) in
      let! cb := index b 2 in
      let cb := u32 cb in
      if cb <? continuation then
        let! r := slice_from b 3 in Ok (r, Z.lor x (u32 (Z.shiftl cb 7)), None)
      else
      let x := Z.lor x (u32 (Z.shiftl (Z.land cb (continuation - 1)) 7)) in
      let! cb := index b 3 in
      let cb := u32 cb in
      if cb <? continuation then
        let! r := slice_from b 4 in Ok (r, Z.lor x (u32 (Z.shiftl cb 14)), None)
      else
      let x := Z.lor x (u32 (Z.shiftl (Z.land cb (continuation - 1)) 14)) in
      let! cb := index b 4 in
      let cb := u32 cb in
      if cb <? continuation then
        let! r := slice_from b 5 in Ok (r, Z.lor x (u32 (Z.shiftl cb 21)), None)
      else
      let x := Z.lor x (u32 (Z.shiftl (Z.land cb (continuation - 1)) 21)) in
      let! cb := index b 5 in
      let cb := u32 cb in
      if cb <? continuation then
        let! r := slice_from b 6 in Ok (r, Z.lor x (u32 (Z.shiftl cb 28)), None)
      else
      Ok (b, 0, Some EU32)
    else Ok (b, 0, Some EU32)
  else Ok (b, 0, Some EU32).

(** v2/decode.go 229-291 *)
Definition decodeUint64 (b : bytes) : res (triple Z) :=
  if zlen b >? 1 then
    let! b0 := index b 0 in
    if b0 =? Uint64RawKind then
      let! cb := index b 1 in
      let cb := u64 cb in
      if cb <? continuation then
        let! r := slice_from b 2 in Ok (r, cb, None)
      else
      let x := Z.land cb (continuation - 1) in
      let! cb := index b 2 in
      let cb := u64 cb in
      if cb <? continuation then
        let! r := slice_from b 3 in Ok (r, Z.lor x (u64 (Z.shiftl cb 7)), None)
      else
      let x := Z.lor x (u64 (Z.shiftl (Z.land cb (continuation - 1)) 7)) in
      let! cb := index b 3 in
      let cb := u64 cb in
      if cb <? continuation then
        let! r := slice_from b 4 in Ok (r, Z.lor x (u64 (Z.shiftl cb 14)), None)
      else
      let x := Z.lor x (u64 (Z.shiftl (Z.land cb (continuation - 1)) 14)) in
      let! cb := index b 4 in
      let cb := u64 cb in
      if cb <? continuation then
        let! r := slice_from b 5 in Ok (r, Z.lor x (u64 (Z.shiftl cb 21)), None)
      else
      let x := Z.lor x (u64 (Z.shiftl (Z.land cb (continuation - 1)) 21)) in
      let! cb := index b 5 in
      let cb := u64 cb in
      if cb <? continuation then
        let! r := slice_from b 6 in Ok (r, Z.lor x (u64 (Z.shiftl cb 28)), None)
      else
      let x := Z.lor x (u64 (Z.shiftl (Z.land cb (continuation - 1)) 28)) in
      let! cb := index b 6 in
      let cb := u64 cb in
      if cb <? continuation then
        let! r := slice_from b 7 in Ok (r, Z.lor x (u64 (Z.shiftl cb 35)), None)
      else
      let x := Z.lor x (u64 (Z.shiftl (Z.land cb (continuation - 1)) 35)) in
      let! cb := index b 7 in
      let cb := u64 cb in
      if cb <? continuation then
        let! r := slice_from b 8 in Ok (r, Z.lor x (u64 (Z.shiftl cb 42)), None)
      else
      let x := Z.lor x (u64 (Z.shiftl (Z.land cb (continuation - 1)) 42)) in
      let! cb := index b 8 in
      let cb := u64 cb in
      if cb <? continuation then
        let! r := slice_from b 9 in Ok (r, Z.lor x (u64 (Z.shiftl cb 49)), None)
      else
      let x := Z.lor x (u64 (Z.shiftl (Z.land cb (continuation - 1)) 49)) in
      let! cb := index b 9 in
      let cb := u64 cb in
      if cb <? continuation then
        let! r := slice_from b 10 in Ok (r, Z.lor x (u64 (Z.shiftl cb 56)), None)
      else
      let x := Z.lor x (u64 (Z.shiftl (Z.land cb (continuation - 1)) 56)) in
      let! cb := index b 10 in
      let cb := u64 cb in
      if cb <? continuation then
        let! r := slice_from b 11 in Ok (r, Z.lor x (u64 (Z.shiftl cb 63)), None)
      else
      Ok (b, 0, Some EU64)
    else Ok (b, 0, Some EU64)
  else Ok (b, 0, Some EU64).

(** v2/decode.go 293-345 *)
Definition decodeInt32 (b : bytes) : res (triple Z) :=
  if zlen b >? 1 then
    let! b0 := index b 0 in
    if b0 =? Int32RawKind then
      let! cb := index b 1 in
      let cb := u32 cb in
      if cb <? continuation then
        let x := s32 (Z.shiftr cb 1) in
        let x := if negb (Z.land cb 1 =? 0) then s32 (- s32 (x + 1)) else x in
        let! r := slice_from b 2 in Ok (r, x, None)
      else
      let x := Z.land cb (continuation - 1) in
      let! cb := index b 2 in
      let cb := u32 cb in
      if cb <? continuation then
        let x := Z.lor x (u32 (Z.shiftl cb 7)) in
        if negb (Z.land x 1 =? 0) then
          let! r := slice_from b 3 in Ok (r, s32 (- s32 (s32 (Z.shiftr x 1) + 1)), None)
        else
        let! r := slice_from b 3 in Ok (r, s32 (Z.shiftr x 1), None)
      else
      let x := Z.lor x (u32 (Z.shiftl (Z.land cb (continuation - 1)) 7)) in
      let! cb := index b 3 in
      let cb := u32 cb in
      if cb <? continuation then
        let x := Z.lor x (u32 (Z.shiftl cb 14)) in
        if negb (Z.land x 1 =? 0) then
          let! r := slice_from b 4 in Ok (r, s32 (- s32 (s32 (Z.shiftr x 1) + 1)), None)
        else
        let! r := slice_from b 4 in Ok (r, s32 (Z.shiftr x 1), None)
      else
      let x := Z.lor x (u32 (Z.shiftl (Z.land cb (continuation - 1)) 14)) in
      let! cb := index b 4 in
      let cb := u32 cb in
      if cb <? continuation then
        let x := Z.lor x (u32 (Z.shiftl cb 21)) in
        if negb (Z.land x 1 =? 0) then
          let! r := slice_from b 5 in Ok (r, s32 (- s32 (s32 (Z.shiftr x 1) + 1)), None)
        else
        let! r := slice_from b 5 in Ok (r, s32 (Z.shiftr x 1), None)
      else
      let x := Z.lor x (u32 (Z.shiftl (Z.land cb (continuation - 1)) 21)) in
      let! cb := index b 5 in
      let cb := u32 cb in
      if cb <? continuation then
        let x := Z.lor x (u32 (Z.shiftl cb 28)) in
        if negb (Z.land x 1 =? 0) then
          let! r := slice_from b 6 in Ok (r, s32 (- s32 (s32 (Z.shiftr x 1) + 1)), None)
        else
        let! r := slice_from b 6 in Ok (r, s32 (Z.shiftr x 1), None)
      else
      Ok (b, 0, Some EI32)
    else Ok (b, 0, Some EI32)
  else Ok (b, 0, Some EI32).

(** v2/decode.go 347-449 *)
Definition decodeInt64 (b : bytes) : res (triple Z) :=
  if zlen b >? 1 then
    let! b0 := index b 0 in
    if b0 =? Int64RawKind then
      let! cb := index b 1 in
      let cb := u64 cb in
      if cb <? continuation then
        let x := s64 (Z.shiftr cb 1) in
        let x := if negb (Z.land cb 1 =? 0) then s64 (- s64 (x + 1)) else x in
        let! r := slice_from b 2 in Ok (r, x, None)
      else
      let x := Z.land cb (continuation - 1) in
      let! cb := index b 2 in
      let cb := u64 cb in
      if cb <? continuation then
        let x := Z.lor x (u64 (Z.shiftl cb 7)) in
        if negb (Z.land x 1 =? 0) then
          let! r := slice_from b 3 in Ok (r, s64 (- s64 (s64 (Z.shiftr x 1) + 1)), None)
        else
        let! r := slice_from b 3 in Ok (r, s64 (Z.shiftr x 1), None)
      else
      let x := Z.lor x (u64 (Z.shiftl (Z.land cb (continuation - 1)) 7)) in
      let! cb := index b 3 in
      let cb := u64 cb in
      if cb <? continuation then
        let x := Z.lor x (u64 (Z.shiftl cb 14)) in
        if negb (Z.land x 1 =? 0) then
          let! r := slice_from b 4 in Ok (r, s64 (- s64 (s64 (Z.shiftr x 1) + 1)), None)
        else
        let! r := slice_from b 4 in Ok (r, s64 (Z.shiftr x 1), None)
      else
      let x := Z.lor x (u64 (Z.shiftl (Z.land cb (continuation - 1)) 14)) in
      let! cb := index b 4 in
      let cb := u64 cb in
      if cb <? continuation then
        let x := Z.lor x (u64 (Z.shiftl cb 21)) in
        if negb (Z.land x 1 =? 0) then
          let! r := slice_from b 5 in Ok (r, s64 (- s64 (s64 (Z.shiftr x 1) + 1)), None)
        else
        let! r := slice_from b 5 in Ok (r, s64 (Z.shiftr x 1), None)
      else
      let x := Z.lor x (u64 (Z.shiftl (Z.land cb (continuation - 1)) 21)) in
      let! cb := index b 5 in
      let cb := u64 cb in
      if cb <? continuation then
        let x := Z.lor x (u64 (Z.shiftl cb 28)) in
        if negb (Z.land x 1 =? 0) then
          let! r := slice_from b 6 in Ok (r, s64 (- s64 (s64 (Z.shiftr x 1) + 1)), None)
        else
        let! r := slice_from b 6 in Ok (r, s64 (Z.shiftr x 1), None)
      else
      let x := Z.lor x (u64 (Z.shiftl (Z.land cb (continuation - 1)) 28)) in
      let! cb := index b 6 in
      let cb := u64 cb in
      if cb <? continuation then
        let x := Z.lor x (u64 (Z.shiftl cb 35)) in
        if negb (Z.land x 1 =? 0) then
          let! r := slice_from b 7 in Ok (r, s64 (- s64 (s64 (Z.shiftr x 1) + 1)), None)
        else
        let! r := slice_from b 7 in Ok (r, s64 (Z.shiftr x 1), None)
      else
      let x := Z.lor x (u64 (Z.shiftl (Z.land cb (continuation - 1)) 35)) in
      let! cb := index b 7 in
      let cb := u64 cb in
      if cb <? continuation then
        let x := Z.lor x (u64 (Z.shiftl cb 42)) in
        if negb (Z.land x 1 =? 0) then
          let! r := slice_from b 8 in Ok (r, s64 (- s64 (s64 (Z.shiftr x 1) + 1)), None)
        else
        let! r := slice_from b 8 in Ok (r, s64 (Z.shiftr x 1), None)
      else
      let x := Z.lor x (u64 (Z.shiftl (Z.land cb (continuation - 1)) 42)) in
      let! cb := index b 8 in
      let cb := u64 cb in
      if cb <? continuation then
        let x := Z.lor x (u64 (Z.shiftl cb 49)) in
        if negb (Z.land x 1 =? 0) then
          let! r := slice_from b 9 in Ok (r, s64 (- s64 (s64 (Z.shiftr x 1) + 1)), None)
        else
        let! r := slice_from b 9 in Ok (r, s64 (Z.shiftr x 1), None)
      else
      let x := Z.lor x (u64 (Z.shiftl (Z.land cb (continuation - 1)) 49)) in
      let! cb := index b 9 in
      let cb := u64 cb in
      if cb <? continuation then
        let x := Z.lor x (u64 (Z.shiftl cb 56)) in
        if negb (Z.land x 1 =? 0) then
          let! r := slice_from b 10 in Ok (r, s64 (- s64 (s64 (Z.shiftr x 1) + 1)), None)
        else
        let! r := slice_from b 10 in Ok (r, s64 (Z.shiftr x 1), None)
      else
      let x := Z.lor x (u64 (Z.shiftl (Z.land cb (continuation - 1)) 56)) in
      let! cb := index b 10 in
      let cb := u64 cb in
      if cb <? continuation then
        let x := Z.lor x (u64 (Z.shiftl cb 63)) in
        if negb (Z.land x 1 =? 0) then
          let! r := slice_from b 11 in Ok (r, s64 (- s64 (s64 (Z.shiftr x 1) + 1)), None)
        else
        let! r := slice_from b 11 in Ok (r, s64 (Z.shiftr x 1), None)
      else
      Ok (b, 0, Some EI64)
    else Ok (b, 0, Some EI64)
  else Ok (b, 0, Some EI64).

(** v2/decode.go 56-67 *)
Definition decodeMap (b : bytes) (keyKind valueKind : Z) : res (triple Z) :=
  if zlen b >? 3 then
    let! b0 := index b 0 in
    if b0 =? MapRawKind then
      let! b1 := index b 1 in
      if b1 =? keyKind then
        let! b2 := index b 2 in
        if b2 =? valueKind then
          let! b3 := slice_from b 3 in
          let! (b, size, err) := decodeUint32 b3 in
          match err with
          | Some _ => Ok (b, 0, Some EMap)
          | None => Ok (b, size, None)
          end
        else Ok (b, 0, Some EMap)
      else Ok (b, 0, Some EMap)
    else Ok (b, 0, Some EMap)
  else Ok (b, 0, Some EMap).

(** v2/decode.go 69-80 *)
Definition decodeSlice (b : bytes) (kind : Z) : res (triple Z) :=
  if zlen b >? 2 then
    let! b0 := index b 0 in
    if b0 =? SliceRawKind then
      let! b1 := index b 1 in
      if b1 =? kind then
        let! b2 := slice_from b 2 in
        let! (b, size, err) := decodeUint32 b2 in
        match err with
        | Some _ => Ok (b, 0, Some ESlice)
        | None => Ok (b, size, None)
        end
      else Ok (b, 0, Some ESlice)
    else Ok (b, 0, Some ESlice)
  else Ok (b, 0, Some ESlice).

(** Go [append(ret[:0], p...)]: the contents of the result and the memory of [ret] afterwards.
    When [p] fits, the result is the front of [ret]'s own memory, overwritten; else a new array. *)
Definition append_to (ret p : bytes) : bytes * bytes :=
  if zlen p <=? zlen ret
  then (ztake (zlen p) (splice ret 0 p), splice ret 0 p)
  else (p, ret).

(** v2/decode.go 82-124.  [W] is the width of Go's int; [size] and [offset] are ints.
    When all five length bytes are continuation bytes both keep their zero value (110-114).
    [ret] is the destination's memory (its backing array up to its capacity, [] for nil).  The
    result is paired with what the destination's memory holds afterwards. *)
Definition decodeBytes (W : Z) (ret b : bytes) : res (triple (bytes * bytes)) :=
  if zlen b >? 2 then
    let! b0 := index b 0 in
    if b0 =? BytesRawKind then
      let! b1 := index b 1 in
      if b1 =? Uint32RawKind then
        let! (size, offset) :=
          let! cb := index b 2 in
          let cb := u32 cb in
          if cb <? continuation then Ok (sw W cb, 3)
          else
          let x := Z.land cb (continuation - 1) in
          let! cb := index b 3 in
          let cb := u32 cb in
          if cb <? continuation then Ok (sw W (Z.lor x (u32 (Z.shiftl cb 7))), 4)
          else
          let x := Z.lor x (u32 (Z.shiftl (Z.land cb (continuation - 1)) 7)) in
          let! cb := index b 4 in
          let cb := u32 cb in
          if cb <? continuation then Ok (sw W (Z.lor x (u32 (Z.shiftl cb 14))), 5)
          else
          let x := Z.lor x (u32 (Z.shiftl (Z.land cb (continuation - 1)) 14)) in
          let! cb := index b 5 in
          let cb := u32 cb in
          if cb <? continuation then Ok (sw W (Z.lor x (u32 (Z.shiftl cb 21))), 6)
          else
          let x := Z.lor x (u32 (Z.shiftl (Z.land cb (continuation - 1)) 21)) in
          let! cb := index b 6 in
          let cb := u32 cb in
          if cb <? continuation then Ok (sw W (Z.lor x (u32 (Z.shiftl cb 28))), 7)
          else Ok (0, 0)
        in
        if zlen b - offset >? sw W (size - 1) then
          let! r := slice_from b (size + offset) in
          let! p := slice b offset (size + offset) in
          Ok (r, append_to ret p, None)
        else Ok (b, ([], ret), Some EBytes)
      else Ok (b, ([], ret), Some EBytes)
    else Ok (b, ([], ret), Some EBytes)
  else Ok (b, ([], ret), Some EBytes).

(** v2/decode.go 126-139 *)
Definition decodeString (W : Z) (b : bytes) : res (triple bytes) :=
  if zlen b >? 1 then
    let! b0 := index b 0 in
    if b0 =? StringRawKind then
      let! b1 := slice_from b 1 in
      let! (b, size, err) := decodeUint32 b1 in
      match err with
      | Some _ => Ok (b, [], Some EString)
      | None =>
          if zlen b >? sw W (sw W size - 1) then
            let! r := slice_from b size in
            let! p := slice_to b size in
            Ok (r, p, None)
          else Ok (b, [], Some EString)
      end
    else Ok (b, [], Some EString)
  else Ok (b, [], Some EString).

(** v2/decode.go 141-152 *)
Definition decodeError (W : Z) (b : bytes) : res (triple bytes) :=
  if zlen b >? 1 then
    let! b0 := index b 0 in
    if b0 =? ErrorRawKind then
      let! b1 := slice_from b 1 in
      let! (b, val, err) := decodeString W b1 in
      match err with
      | Some _ => Ok (b, [], Some EError)
      | None => Ok (b, val, None)
      end
    else Ok (b, [], Some EError)
  else Ok (b, [], Some EError).

(** v2/decode.go 154-164 *)
Definition decodeBool (b : bytes) : res (triple bool) :=
  if zlen b >? 1 then
    let! b0 := index b 0 in
    if b0 =? BoolRawKind then
      let! b1 := index b 1 in
      if b1 =? trueBool then let! r := slice_from b 2 in Ok (r, true, None)
      else if b1 =? falseBool then let! r := slice_from b 2 in Ok (r, false, None)
      else Ok (b, false, Some EBool)
    else Ok (b, false, Some EBool)
  else Ok (b, false, Some EBool).

(** v2/decode.go 166-171 *)
Definition decodeUint8 (b : bytes) : res (triple Z) :=
  if zlen b >? 1 then
    let! b0 := index b 0 in
    if b0 =? Uint8RawKind then
      let! r := slice_from b 2 in
      let! b1 := index b 1 in
      Ok (r, b1, None)
    else Ok (b, 0, Some EU8)
  else Ok (b, 0, Some EU8).

(** v2/decode.go 451-456; the result is the argument of math.Float32frombits *)
Definition decodeFloat32 (b : bytes) : res (triple Z) :=
  if zlen b >? 4 then
    let! b0 := index b 0 in
    if b0 =? Float32RawKind then
      let! r := slice_from b 5 in
      let! b4 := index b 4 in let! b3 := index b 3 in
      let! b2 := index b 2 in let! b1 := index b 1 in
      Ok (r, Z.lor (Z.lor (Z.lor (u32 b4) (u32 (Z.shiftl (u32 b3) 8)))
                     (u32 (Z.shiftl (u32 b2) 16))) (u32 (Z.shiftl (u32 b1) 24)), None)
    else Ok (b, 0, Some EF32)
  else Ok (b, 0, Some EF32).

(** v2/decode.go 458-464; the result is the argument of math.Float64frombits *)
Definition decodeFloat64 (b : bytes) : res (triple Z) :=
  if zlen b >? 8 then
    let! b0 := index b 0 in
    if b0 =? Float64RawKind then
      let! r := slice_from b 9 in
      let! b8 := index b 8 in let! b7 := index b 7 in
      let! b6 := index b 6 in let! b5 := index b 5 in
      let! b4 := index b 4 in let! b3 := index b 3 in
      let! b2 := index b 2 in let! b1 := index b 1 in
      Ok (r, Z.lor (Z.lor (Z.lor (Z.lor (Z.lor (Z.lor (Z.lor
                (u64 b8) (u64 (Z.shiftl (u64 b7) 8))) (u64 (Z.shiftl (u64 b6) 16)))
                (u64 (Z.shiftl (u64 b5) 24))) (u64 (Z.shiftl (u64 b4) 32)))
                (u64 (Z.shiftl (u64 b3) 40))) (u64 (Z.shiftl (u64 b2) 48)))
                (u64 (Z.shiftl (u64 b1) 56)), None)
    else Ok (b, 0, Some EF64)
  else Ok (b, 0, Some EF64).

(** One BufferDecoder method call (v2/decoder.go) seen from outside; [ret] is Bytes' argument. *)
Definition out {A} (f : A -> value) (x : res (triple A)) : outcome :=
  match x with
  | Panic => Crash
  | Ok (r, a, None) => Done r (f a)
  | Ok (r, _, Some e) => Fail r e
  end.
Definition decode (W : Z) (ret : bytes) (r : request) (b : bytes) : outcome :=
  match r with
  | RNil => match decodeNil b with
            | Panic => Crash
            | Ok (r, true) => Done r VNil
            | Ok (r, false) => Fail r ENotNil
            end
  | RMap k1 k2 => out (fun n => VMap n k1 k2) (decodeMap b k1 k2)
  | RSlice k => out (fun n => VSlice n k) (decodeSlice b k)
  | RBytes => out (fun x => VBytes (fst x)) (decodeBytes W ret b)
  | RString => out VString (decodeString W b)
  | RError => out VError (decodeError W b)
  | RBool => out VBool (decodeBool b)
  | RU8 => out VU8 (decodeUint8 b)
  | RU16 => out VU16 (decodeUint16 b)
  | RU32 => out VU32 (decodeUint32 b)
  | RU64 => out VU64 (decodeUint64 b)
  | RI32 => out VI32 (decodeInt32 b)
  | RI64 => out VI64 (decodeInt64 b)
  | RF32 => out VF32 (decodeFloat32 b)
  | RF64 => out VF64 (decodeFloat64 b)
  end.

(** v2/error.go 19-27 (same in v1: encode.go 46-54): an Error is its message; Is compares
    messages.  [err] is the other error, known by its message; [None] is the nil error, on which
    the method call err.Error() panics. *)
Definition Error_Error (e : bytes) : bytes := e.
Definition Error_Is (e : bytes) (err : option bytes) : res bool :=
  match err with
  | None => Panic
  | Some err => Ok (if list_eq_dec Z.eq_dec (Error_Error e) err then true else false)
  end.

(** ** Clients

    Not code: the calls a client can make on a buffer, in any order. *)
(** The shape of every buffer that NewBuffer, NewBufferSize and the methods produce:
    len = cap, offset within it. *)
Definition wf (b : buffer) : Prop := blen b = zlen (arr b) /\ 0 <= off b <= zlen (arr b).
Inductive op := OEncode (v : value) | OWrite (p : bytes) | OReset | OGrow (n : Z) | OMove (k : Z).
Definition apply (g : policy) (b : buffer) (o : op) : res buffer :=
  match o with
  | OEncode v => encode g b v
  | OWrite p => Write g b p
  | OReset => Ok (Reset b)
  | OGrow n => Grow g b n
  | OMove k => Ok (MoveOffset b k)
  end.
Fixpoint run (g : policy) (b : buffer) (ops : list op) : res buffer :=
  match ops with
  | [] => Ok b
  | o :: ops => let! b := apply g b o in run g b ops
  end.
(** A slice obtained from Bytes(): which backing array it points into, and its length; and what
    it reads in a later state of the buffer. *)
Definition view (b : buffer) : nat * Z := (length (old b), off b).
Definition read_view (b : buffer) (w : nat * Z) : bytes :=
  ztake (snd w) (nth (fst w) (old b ++ [arr b]) []).
