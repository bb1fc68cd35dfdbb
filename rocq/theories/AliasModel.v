(** Memory shared between the arguments, the buffers and the results of the Go packages.

    The models of V1Model and V2Model pass byte strings by value.  In Go they are slices, which
    may point into the buffer itself (an encoder fed with the result of its own Bytes()) or into the
    input (the destination of a decoder).  This file models the functions that read or write through
    such slices, with explicit memory. *)
From Verif Require Import Base Spec.
From Verif Require V1Model V2Model.

(** ** Encoders fed with the buffer's own memory

    A slice pointing into one of the arrays the buffer uses or has used: [ra] numbers the arrays,
    oldest first; the slice covers [rlen] bytes from [rlo]. *)
Record region := mkreg { ra : nat; rlo : Z; rlen : Z }.
(** what the slice reads *)
Definition cells (arrays : list bytes) (r : region) : bytes :=
  ztake (rlen r) (zdrop (rlo r) (nth (ra r) arrays [])).
Definition arrays1 (b : V1Model.buffer) : list bytes := V1Model.old b ++ [V1Model.arr b].
Definition arrays2 (b : V2Model.buffer) : list bytes := V2Model.old b ++ [V2Model.arr b].

(** buffer.go 43-45, [buf.Bytes()[i:j]]; panics unless 0 <= i <= j <= len.  (Go would allow j up to
    the capacity; such slices of unwritten memory are not considered.) *)
Definition Take1 (b : V1Model.buffer) (i j : Z) : res region :=
  if (i <? 0) || (j <? i) || (V1Model.len b <? j) then Panic
  else Ok (mkreg (length (V1Model.old b)) i (j - i)).
(** v2/buffer.go 75-77, [buf.Bytes()[i:j]] *)
Definition Take2 (b : V2Model.buffer) (i j : Z) : res region :=
  let! p := V2Model.Bytes b in
  if (i <? 0) || (j <? i) || (zlen p <? j) then Panic
  else Ok (mkreg (length (V2Model.old b)) i (j - i)).

(** buffer.go 29-36 Write with such an argument.  Both [append] and [copy] read the source before
    they write (memmove), so what is written is what the slice reads at the call. *)
Definition Write1 (g : V1Model.policy) (b : V1Model.buffer) (p : region) : V1Model.buffer :=
  V1Model.Write g b (cells (arrays1 b) p).
(** encode.go 78-82 *)
Definition encodeBytes1 (g : V1Model.policy) (b : V1Model.buffer) (value : region) : res V1Model.buffer :=
  let b := V1Model.Write g b V1Model.BytesKind in
  let! b := V1Model.encodeUint32 g b (u32 (rlen value)) in
  Ok (Write1 g b value).

(** v2/buffer.go 69-73 *)
Definition Write2 (g : V2Model.policy) (b : V2Model.buffer) (p : region) : res V2Model.buffer :=
  let! b := V2Model.Grow g b (rlen p) in
  if (V2Model.off b <? 0) || (V2Model.Cap b <? V2Model.off b) then Panic
  else let n := Z.min (V2Model.Cap b - V2Model.off b) (rlen p) in
       Ok (V2Model.mkbuf (V2Model.old b)
             (splice (V2Model.arr b) (V2Model.off b) (ztake n (cells (arrays2 b) p)))
             (V2Model.blen b) (V2Model.off b + n)).
Section Encode2.
Import V2Model.
(** v2/encode.go 197-246, statement by statement; the payload is read by the copy in the last
    line (245), after the header has been stored *)
Definition encodeBytes2 (g : V2Model.policy) (b : V2Model.buffer) (value : region) : res V2Model.buffer :=
  let! b := Grow g b (bytesSize + rlen value) in
  let castValue := u32 (rlen value) in
  let offset := off b in
  let! b := store b offset (BytesRawKind) in
  let offset := offset + 1 in
  let! b := store b offset (Uint32RawKind) in
  let offset := offset + 1 in
  let! (b, offset) :=
    if castValue <? continuation then
      let! b := store b offset (u8 castValue) in
      let offset := offset + 1 in
      Ok (b, offset)
    else
      let! b := store b offset (Z.lor (u8 (Z.land castValue (continuation - 1))) continuation) in
      let offset := offset + 1 in
      let castValue := Z.shiftr castValue 7 in
      if castValue <? continuation then
        let! b := store b offset (u8 castValue) in
        let offset := offset + 1 in
        Ok (b, offset)
      else
        let! b := store b offset (Z.lor (u8 (Z.land castValue (continuation - 1))) continuation) in
        let offset := offset + 1 in
        let castValue := Z.shiftr castValue 7 in
        if castValue <? continuation then
          let! b := store b offset (u8 castValue) in
          let offset := offset + 1 in
          Ok (b, offset)
        else
          let! b := store b offset (Z.lor (u8 (Z.land castValue (continuation - 1))) continuation) in
          let offset := offset + 1 in
          let castValue := Z.shiftr castValue 7 in
          if castValue <? continuation then
            let! b := store b offset (u8 castValue) in
            let offset := offset + 1 in
            Ok (b, offset)
          else
            let! b := store b offset (Z.lor (u8 (Z.land castValue (continuation - 1))) continuation) in
            let offset := offset + 1 in
            let castValue := Z.shiftr castValue 7 in
            if castValue <? continuation then
              let! b := store b offset (u8 castValue) in
              Ok (b, offset)
            else
              let! b := store b offset (Z.lor (u8 (Z.land castValue (continuation - 1))) continuation) in
              let offset := offset + 1 in
              let! b := store b offset (u8 (Z.shiftr castValue 7)) in
              let offset := offset + 1 in
              Ok (b, offset)
  in
  let! (b, n) := copy_at b offset (cells (arrays2 b) value) in
  let b := set_off b (offset + n) in
  Ok b.
End Encode2.

(** ** Clients

    Not code: a client that appends to a buffer, keeps slices of what the buffer holds and feeds
    them back, in any order.  [RTake i j] keeps [buf.Bytes()[i:j]], [RBytes k] encodes the kept slice
    number [k] as Bytes, [RWrite k] writes it raw.  On Reset the client forgets its slices. *)
Inductive ract (op : Type) := ROp (o : op) | RTake (i j : Z) | RBytes (k : nat) | RWrite (k : nat).
Arguments ROp {op} o. Arguments RTake {op} i j. Arguments RBytes {op} k. Arguments RWrite {op} k.
Definition kept (hs : list region) (k : nat) : res region :=
  match nth_error hs k with Some r => Ok r | None => Panic end.
Definition act1 (g : V1Model.policy) (s : V1Model.buffer * list region) (a : ract V1Model.op)
  : res (V1Model.buffer * list region) :=
  let (b, hs) := s in
  match a with
  | ROp o => let! b := V1Model.apply g b o in
             Ok (b, match o with V1Model.OReset => [] | _ => hs end)
  | RTake i j => let! r := Take1 b i j in Ok (b, hs ++ [r])
  | RBytes k => let! r := kept hs k in let! b := encodeBytes1 g b r in Ok (b, hs)
  | RWrite k => let! r := kept hs k in Ok (Write1 g b r, hs)
  end.
Fixpoint acts1 (g : V1Model.policy) (s : V1Model.buffer * list region) (l : list (ract V1Model.op)) :=
  match l with [] => Ok s | a :: l => let! s := act1 g s a in acts1 g s l end.
Definition act2 (g : V2Model.policy) (s : V2Model.buffer * list region) (a : ract V2Model.op)
  : res (V2Model.buffer * list region) :=
  let (b, hs) := s in
  match a with
  | ROp o => let! b := V2Model.apply g b o in
             Ok (b, match o with V2Model.OReset | V2Model.OMove _ => [] | _ => hs end)
  | RTake i j => let! r := Take2 b i j in Ok (b, hs ++ [r])
  | RBytes k => let! r := kept hs k in let! b := encodeBytes2 g b r in Ok (b, hs)
  | RWrite k => let! r := kept hs k in let! b := Write2 g b r in Ok (b, hs)
  end.
Fixpoint acts2 (g : V2Model.policy) (s : V2Model.buffer * list region) (l : list (ract V2Model.op)) :=
  match l with [] => Ok s | a :: l => let! s := act2 g s a in acts2 g s l end.

(** ** Decoders with destinations

    The heap is the list of all arrays; a slice is a pointer into one of them with a length and a
    capacity; [None] is the nil slice. *)
Definition heap := list bytes.
Record slice := mkslice { sarr : nat; lo : Z; slen : Z; scap : Z }.
Definition array (h : heap) (a : nat) : bytes := nth a h [].
Definition content (h : heap) (s : slice) : bytes := ztake (slen s) (zdrop (lo s) (array h (sarr s))).
Definition ocontent (h : heap) (s : option slice) : bytes :=
  match s with Some s => content h s | None => [] end.
(** storing [p] at position [i] of array [a] *)
Fixpoint put (h : heap) (a : nat) (i : Z) (p : bytes) : heap :=
  match h, a with
  | [], _ => []
  | m :: h, O => splice m i p :: h
  | m :: h, S a => m :: put h a i p
  end.
(** Go [s[k:]] for 0 <= k <= len *)
Definition from (s : slice) (k : Z) : slice := mkslice (sarr s) (lo s + k) (slen s - k) (scap s - k).
(** what the allocator puts behind a new array of a given size: spare capacity *)
Definition spare := Z -> bytes.
(** Go [append(ret[:0], p...)]: in place if the capacity suffices, else a new array;
    appending nothing to nil gives nil *)
Definition append0 (sp : spare) (h : heap) (ret : option slice) (p : bytes) : heap * option slice :=
  let fresh := (h ++ [p ++ sp (zlen p)], Some (mkslice (length h) 0 (zlen p) (zlen p + zlen (sp (zlen p))))) in
  match ret with
  | None => if zlen p =? 0 then (h, None) else fresh
  | Some s => if zlen p <=? scap s
              then (put h (sarr s) (lo s) p, Some (mkslice (sarr s) (lo s) (zlen p) (scap s)))
              else fresh
  end.
(** The three results of decodeBytes - rest, value, error - and the heap.  The rest is always a
    suffix of the input slice, so it is given by the number of bytes left. *)
Record hbytes := mkhb { hb_heap : heap; hb_left : Z; hb_val : option slice; hb_err : option gerr }.

(** decode.go 88-113.  As V1Model.decodeBytes, on memory: line 99-101 makes a new array, line 103
    appends to ret[:0], line 106 copies into ret and returns it with its length. *)
Definition decodeBytes1 (W : Z) (sp : spare) (h : heap) (d : slice) (ret : option slice) : res hbytes :=
  let b := content h d in
  if zlen b >? 0 then
    let! b0 := index b 0 in
    let! k := index V1Model.BytesKind 0 in
    if b0 =? k then
      let! b1 := slice_from b 1 in
      let! (b, size, err) := V1Model.decodeUint32 b1 in
      match err with
      | Some _ => Ok (mkhb h (zlen b) None (Some EBytes))
      | None =>
          if zlen b >? sw W (sw W size - 1) then
            if (match ret with None => 0 | Some d => slen d end) <? sw W size then
              let! p := slice_to b size in
              let! r := slice_from b size in
              match ret with
              | None => Ok (mkhb (h ++ [p]) (zlen r) (Some (mkslice (length h) 0 (zlen p) (zlen p))) None)
              | Some _ => let (h, v) := append0 sp h ret p in Ok (mkhb h (zlen r) v None)
              end
            else
              let! p := slice_to b size in
              let! r := slice_from b size in
              match ret with
              | None => Ok (mkhb h (zlen r) None None)
              | Some s => Ok (mkhb (put h (sarr s) (lo s) (ztake (Z.min (slen s) (zlen p)) p)) (zlen r) (Some s) None)
              end
          else Ok (mkhb h (zlen b) None (Some EBytes))
      end
    else Ok (mkhb h (zlen b) None (Some EBytes))
  else Ok (mkhb h (zlen b) None (Some EBytes)).
Section Decode2.
Import V2Model.
(** v2/decode.go 82-124, statement by statement, on memory *)
Definition decodeBytes2 (W : Z) (sp : spare) (h : heap) (d : slice) (ret : option slice) : res hbytes :=
  let b := content h d in
  if zlen b >? 2 then
    let! b0 := index b 0 in
    if b0 =? BytesRawKind then
      let! b1 := index b 1 in
      if b1 =? Uint32RawKind then
        let! (size, offset) :=
          let! cb := index b 2 in
          let cb := u32 cb in
          if cb <? continuation then Ok (sw W cb, 3)
          else
          let x := Z.land cb (continuation - 1) in
          let! cb := index b 3 in
          let cb := u32 cb in
          if cb <? continuation then Ok (sw W (Z.lor x (u32 (Z.shiftl cb 7))), 4)
          else
          let x := Z.lor x (u32 (Z.shiftl (Z.land cb (continuation - 1)) 7)) in
          let! cb := index b 4 in
          let cb := u32 cb in
          if cb <? continuation then Ok (sw W (Z.lor x (u32 (Z.shiftl cb 14))), 5)
          else
          let x := Z.lor x (u32 (Z.shiftl (Z.land cb (continuation - 1)) 14)) in
          let! cb := index b 5 in
          let cb := u32 cb in
          if cb <? continuation then Ok (sw W (Z.lor x (u32 (Z.shiftl cb 21))), 6)
          else
          let x := Z.lor x (u32 (Z.shiftl (Z.land cb (continuation - 1)) 21)) in
          let! cb := index b 6 in
          let cb := u32 cb in
          if cb <? continuation then Ok (sw W (Z.lor x (u32 (Z.shiftl cb 28))), 7)
          else Ok (0, 0)
        in
        if zlen b - offset >? sw W (size - 1) then
          let! r := slice_from b (size + offset) in
          let! p := Base.slice b offset (size + offset) in
          let (h, v) := append0 sp h ret p in
          Ok (mkhb h (zlen r) v None)
        else Ok (mkhb h (zlen b) None (Some EBytes))
      else Ok (mkhb h (zlen b) None (Some EBytes))
    else Ok (mkhb h (zlen b) None (Some EBytes))
  else Ok (mkhb h (zlen b) None (Some EBytes)).
End Decode2.

(** One call of a decoder method: [CBytes dst], or any other method, which only reads (strings
    and errors are copied, decode.go 125, v2/decode.go 135).  The value of Bytes is a slice. *)
Inductive hcall := CBytes (dst : option slice) | CRead (q : request).
Inductive hval := HSlice (s : option slice) | HValue (v : value).
Inductive hres := HDone (h : heap) (d : slice) (v : hval) | HFail (h : heap) (d : slice) (e : gerr) | HCrash.
Definition of_bytes (d : slice) (x : res hbytes) : hres :=
  match x with
  | Panic => HCrash
  | Ok r => let d := from d (slen d - hb_left r) in
            match hb_err r with
            | None => HDone (hb_heap r) d (HSlice (hb_val r))
            | Some e => HFail (hb_heap r) d e
            end
  end.
Definition of_pure (h : heap) (d : slice) (x : outcome) : hres :=
  match x with
  | Crash => HCrash
  | Done r v => HDone h (from d (slen d - zlen r)) (HValue v)
  | Fail r e => HFail h (from d (slen d - zlen r)) e
  end.
(** decoder.go 59-117 *)
Definition step1 (W : Z) (sp : spare) (h : heap) (d : slice) (c : hcall) : hres :=
  match c with
  | CBytes dst => of_bytes d (decodeBytes1 W sp h d dst)
  | CRead q => of_pure h d (V1Model.decode W None q (content h d))
  end.
(** v2/decoder.go 26-94 *)
Definition step2 (W : Z) (sp : spare) (h : heap) (d : slice) (c : hcall) : hres :=
  match c with
  | CBytes dst => of_bytes d (decodeBytes2 W sp h d dst)
  | CRead q => of_pure h d (V2Model.decode W [] q (content h d))
  end.
(** Not code: a client that makes calls until one fails and keeps all results. *)
Fixpoint steps (step : heap -> slice -> hcall -> hres) (h : heap) (d : slice) (cs : list hcall)
  : option (heap * slice * list hval) :=
  match cs with
  | [] => Some (h, d, [])
  | c :: cs => match step h d c with
               | HDone h d v => match steps step h d cs with
                                | Some (h, d, vs) => Some (h, d, v :: vs)
                                | None => None
                                end
               | _ => None
               end
  end.
