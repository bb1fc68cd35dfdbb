(** Model of the C bindings: /repo/c_bindings/types.rs, encoder.rs, decoder.rs (declared in
    /repo/polyglot.h).  Function by function; line numbers refer to those files.

    What C code can observe: the status cell, the return value, its own memory, and the objects behind
    the handles.  Dereferencing NULL or a dangling pointer, reading beyond the caller's memory, and
    deallocating with the wrong size are undefined behaviour, an outcome of its own ([CUndef]); a Rust
    panic inside an [extern "C"] function ends the process ([CAbort]).
    Simplified: a memory argument is given by its contents (from the pointer to the end of the object),
    so arguments do not alias each other or the handles' objects; C code does not modify memory it
    got from the library; integer arguments are in the range of their C type. *)
From Verif Require Import Base Spec Utf8 RustModel.

(** types.rs 19-25 *)
Inductive Status := SPass | SFail | SNullPointer.
(** types.rs 35-55; the discriminants are those of kind.rs *)
Inductive CKind :=
| CNone | CArray | CMap | CAny | CBytes | CString | CError | CBool
| CU8 | CU16 | CU32 | CU64 | CI32 | CI64 | CF32 | CF64 | CUnknown.
(** types.rs 57-79 *)
Definition into (k : CKind) : Kind :=
  match k with
  | CNone => KNone | CArray => KArray | CMap => KMap | CAny => KAny | CBytes => KBytes
  | CString => KString | CError => KError | CBool => KBool | CU8 => KU8 | CU16 => KU16
  | CU32 => KU32 | CU64 => KU64 | CI32 => KI32 | CI64 => KI64 | CF32 => KF32 | CF64 => KF64
  | CUnknown => KUnknown
  end.
(** types.rs 37-54: the number C sees *)
Definition ckind_number (k : CKind) : Z :=
  match k with
  | CNone => 0x00 | CArray => 0x01 | CMap => 0x02 | CAny => 0x03 | CBytes => 0x04 | CString => 0x05
  | CError => 0x06 | CBool => 0x07 | CU8 => 0x08 | CU16 => 0x09 | CU32 => 0x0a | CU64 => 0x0b
  | CI32 => 0x0c | CI64 => 0x0d | CF32 => 0x0e | CF64 => 0x0f | CUnknown => 0x10
  end.

(** ** Memory *)
(** A pointer to an object of the library; [None] is NULL. *)
Definition ptr := option nat.
(** The objects behind the handles: encoders and decoders (encoder.rs 27-30, decoder.rs 27-30: a
    cursor), byte buffers (types.rs 81-95: data and length) and C strings handed out by decoders. *)
Record world := mkworld {
  encs : nat -> option cursor; decs : nat -> option cursor;
  blobs : nat -> option bytes; strs : nat -> option bytes }.
Definition nothing_yet : world := mkworld (fun _ => None) (fun _ => None) (fun _ => None) (fun _ => None).
Definition upd {A} (m : nat -> option A) (a : nat) (v : option A) : nat -> option A :=
  fun x => if Nat.eq_dec x a then v else m x.
Definition set_enc (w : world) (a : nat) (v : option cursor) : world :=
  mkworld (upd (encs w) a v) (decs w) (blobs w) (strs w).
Definition set_dec (w : world) (a : nat) (v : option cursor) : world :=
  mkworld (encs w) (upd (decs w) a v) (blobs w) (strs w).
Definition set_blob (w : world) (a : nat) (v : option bytes) : world :=
  mkworld (encs w) (decs w) (upd (blobs w) a v) (strs w).
Definition set_str (w : world) (a : nat) (v : option bytes) : world :=
  mkworld (encs w) (decs w) (blobs w) (upd (strs w) a v).

(** Return values; [CMem] is the caller's memory after the call (polyglot_encoder_buffer). *)
Inductive cret := CVoid | CNum (n : Z) | CTruth (b : bool) | CPtr (p : ptr) | CMem (m : bytes).
(** Outcome of a call: the status cell afterwards, the return value, the world. *)
Inductive cres := CDone (s : Status) (r : cret) (w : world) | CAbort | CUndef.

(** types.rs 27-33 check_not_null: panics on a NULL status pointer.  [status] is the contents of
    the status cell, [None] a NULL pointer. *)
Definition with_status (status : option Status) (k : Status -> cres) : cres :=
  match status with None => CAbort | Some s => k s end.
(** [std::slice::from_raw_parts(p, n)] *)
Definition raw_parts (m : bytes) (n : Z) : option bytes := if zlen m <? n then None else Some (ztake n m).
(** [CStr::from_ptr(p)]: the bytes up to the first NUL; undefined for NULL or without a NUL *)
Fixpoint until_nul (m : bytes) : option bytes :=
  match m with
  | [] => None
  | c :: m => if c =? 0 then Some [] else match until_nul m with Some p => Some (c :: p) | None => None end
  end.
Definition from_ptr (p : option bytes) : option bytes := match p with None => None | Some m => until_nul m end.

(** ** encoder.rs *)
(** 33-43; [a] is the address the allocator chooses *)
Definition polyglot_new_encoder (a : nat) (status : option Status) (w : world) : cres :=
  with_status status (fun _ => CDone SPass (CPtr (Some a)) (set_enc w a (Some (mkcur [] 0)))).
(** 46-59: the status is not set on success *)
Definition polyglot_encoder_size (status : option Status) (encoder : ptr) (w : world) : cres :=
  with_status status (fun s =>
    match encoder with
    | None => CDone SNullPointer (CNum 0) w
    | Some e => match encs w e with
                | None => CUndef
                | Some c => CDone s (CNum (u32 (zlen (buf c)))) w
                end
    end).
(** 62-88: [dst] is the caller's memory.  [&mut [u8]]'s [write] copies min(size, len) bytes. *)
Definition polyglot_encoder_buffer (status : option Status) (encoder : ptr) (dst : option bytes)
    (buffer_size : Z) (w : world) : cres :=
  with_status status (fun _ =>
    match encoder, dst with
    | Some e, Some m =>
        match encs w e with
        | None => CUndef
        | Some c =>
            if buffer_size <? u32 (zlen (buf c)) then CDone SFail (CMem m) w
            else match raw_parts m buffer_size with
                 | None => CUndef
                 | Some _ => let n := Z.min buffer_size (zlen (buf c)) in
                     CDone SPass (CMem (ztake n (buf c) ++ zdrop n m)) w
                 end
        end
    | _, _ => CDone SNullPointer (CMem (match dst with Some m => m | None => [] end)) w
    end).
(** 91-97 *)
Definition polyglot_free_encoder (encoder : ptr) (status : Status) (w : world) : cres :=
  match encoder with
  | None => CDone status CVoid w
  | Some e => match encs w e with None => CUndef | Some _ => CDone status CVoid (set_enc w e None) end
  end.

(** The shape of every encode function: NULL check, run, Pass or Fail. *)
Definition with_encoder (status : option Status) (encoder : ptr) (w : world)
    (body : cursor -> (cursor -> cres) -> cres) : cres :=
  with_status status (fun _ =>
    match encoder with
    | None => CDone SNullPointer CVoid w
    | Some e => match encs w e with
                | None => CUndef
                | Some c => body c (fun c => CDone SPass CVoid (set_enc w e (Some c)))
                end
    end).
(** [match cursor.encode_x() {Ok => Pass, Err => Fail}]: writing to a vector does not fail (RustModel) *)
Definition ran (r : res cursor) (k : cursor -> cres) : cres := match r with Ok c => k c | Panic => CAbort end.
(** 100-120 *)
Definition polyglot_encode_none status encoder w :=
  with_encoder status encoder w (fun c => ran (encode_none c)).
(** 123-143 *)
Definition polyglot_encode_array status encoder (array_size : Z) (array_kind : CKind) w :=
  with_encoder status encoder w (fun c => ran (encode_array c array_size (into array_kind))).
(** 146-166 *)
Definition polyglot_encode_map status encoder (map_size : Z) (key_kind value_kind : CKind) w :=
  with_encoder status encoder w (fun c => ran (encode_map c map_size (into key_kind) (into value_kind))).
(** 169-190: also checks the data pointer *)
Definition polyglot_encode_bytes status encoder (data : option bytes) (buffer_size : Z) w :=
  match data with
  | None => with_status status (fun _ => CDone SNullPointer CVoid w)
  | Some m => with_encoder status encoder w (fun c k =>
      match raw_parts m buffer_size with None => CUndef | Some p => ran (encode_bytes c p) k end)
  end.
(** 193-220: the string pointer is not checked *)
Definition polyglot_encode_string status encoder (string_pointer : option bytes) w :=
  with_encoder status encoder w (fun c k =>
    match from_ptr string_pointer with
    | None => CUndef
    | Some p => if from_utf8 p then ran (encode_string c p) k else CDone SFail CVoid w
    end).
(** 223-250 *)
Definition polyglot_encode_error status encoder (string_pointer : option bytes) w :=
  with_encoder status encoder w (fun c k =>
    match from_ptr string_pointer with
    | None => CUndef
    | Some p => if from_utf8 p then ran (encode_error c p) k else CDone SFail CVoid w
    end).
(** 253-273 *)
Definition polyglot_encode_bool status encoder (b : bool) w :=
  with_encoder status encoder w (fun c => ran (encode_bool c b)).
(** 276-296 *)
Definition polyglot_encode_u8 status encoder (n : Z) w :=
  with_encoder status encoder w (fun c => ran (encode_u8 c n)).
(** 299-319 *)
Definition polyglot_encode_u16 status encoder (n : Z) w :=
  with_encoder status encoder w (fun c => ran (encode_u16 c n)).
(** 322-342 *)
Definition polyglot_encode_u32 status encoder (n : Z) w :=
  with_encoder status encoder w (fun c => ran (encode_u32 c n)).
(** 345-365 *)
Definition polyglot_encode_u64 status encoder (n : Z) w :=
  with_encoder status encoder w (fun c => ran (encode_u64 c n)).
(** 368-388 *)
Definition polyglot_encode_i32 status encoder (n : Z) w :=
  with_encoder status encoder w (fun c => ran (encode_i32 c n)).
(** 391-411 *)
Definition polyglot_encode_i64 status encoder (n : Z) w :=
  with_encoder status encoder w (fun c => ran (encode_i64 c n)).
(** 414-434; the float's bits *)
Definition polyglot_encode_f32 status encoder (bits : Z) w :=
  with_encoder status encoder w (fun c => ran (encode_f32 c bits)).
(** 437-457 *)
Definition polyglot_encode_f64 status encoder (bits : Z) w :=
  with_encoder status encoder w (fun c => ran (encode_f64 c bits)).

(** ** decoder.rs *)
(** 33-54: the buffer is copied *)
Definition polyglot_new_decoder (a : nat) (status : option Status) (buffer_pointer : option bytes)
    (buffer_size : Z) (w : world) : cres :=
  with_status status (fun _ =>
    match buffer_pointer with
    | None => CDone SNullPointer (CPtr None) w
    | Some m => match raw_parts m buffer_size with
                | None => CUndef
                | Some p => CDone SPass (CPtr (Some a)) (set_dec w a (Some (mkcur p 0)))
                end
    end).
(** 57-63 *)
Definition polyglot_free_decoder (decoder : ptr) (status : Status) (w : world) : cres :=
  match decoder with
  | None => CDone status CVoid w
  | Some d => match decs w d with None => CUndef | Some _ => CDone status CVoid (set_dec w d None) end
  end.
(** 66-76: no return after the NULL check; the status is never set to Pass *)
Definition polyglot_decode_none (rt : runtime) (status : option Status) (decoder : ptr) (w : world) : cres :=
  with_status status (fun s =>
    match decoder with
    | None => CUndef
    | Some d => match decs w d with
                | None => CUndef
                | Some c => match decode_none rt c with
                            | ROk b c => CDone s (CTruth b) (set_dec w d (Some c))
                            | RErr _ _ | RPanic => CAbort
                            end
                end
    end).
(** The shape of the other decode functions; [dflt] is what is returned on NULL and on failure. *)
Definition with_decoder {A} (status : option Status) (decoder : ptr) (w : world) (dflt : cret)
    (dec : cursor -> rres A) (ok : A -> world -> cres) : cres :=
  with_status status (fun _ =>
    match decoder with
    | None => CDone SNullPointer dflt w
    | Some d => match decs w d with
                | None => CUndef
                | Some c => match dec c with
                            | ROk v c => ok v (set_dec w d (Some c))
                            | RErr _ c => CDone SFail dflt (set_dec w d (Some c))
                            | RPanic => CAbort
                            end
                end
    end).
Definition pass_num (f : Z -> Z) (n : Z) (w : world) : cres := CDone SPass (CNum (f n)) w.
(** 79-105 *)
Definition polyglot_decode_array rt status decoder (array_kind : CKind) w :=
  with_decoder status decoder w (CNum 0) (fun c => decode_array rt c (into array_kind)) (pass_num u32).
(** 108-138 *)
Definition polyglot_decode_map rt status decoder (key_kind value_kind : CKind) w :=
  with_decoder status decoder w (CNum 0)
    (fun c => decode_map rt c (into key_kind) (into value_kind)) (pass_num u32).
(** 141-166; [a]: the address of the Buffer *)
Definition polyglot_decode_bytes rt (a : nat) status decoder w :=
  with_decoder status decoder w (CPtr None) (decode_bytes rt)
    (fun p w => CDone SPass (CPtr (Some a)) (set_blob w a (Some p))).
(** 169-179: [data] is deallocated as a [Box<u8>], i.e. with size 1, whatever its length *)
Definition polyglot_free_decode_bytes (buffer : ptr) (status : Status) (w : world) : cres :=
  match buffer with
  | None => CDone status CVoid w
  | Some a => match blobs w a with
              | None => CUndef
              | Some p => if zlen p =? 1 then CDone status CVoid (set_blob w a None) else CUndef
              end
  end.
(** [CString::new(value)]: fails on an interior NUL *)
Definition has_nul (p : bytes) : bool := existsb (fun c => c =? 0) p.
Definition give_string (a : nat) (p : bytes) (w : world) : cres :=
  if has_nul p then CDone SFail (CPtr None) w else CDone SPass (CPtr (Some a)) (set_str w a (Some p)).
(** 182-215 *)
Definition polyglot_decode_string rt (a : nat) status decoder w :=
  with_decoder status decoder w (CPtr None) (decode_string rt) (give_string a).
(** 218-224 and 260-266: [CString::from_raw] *)
Definition polyglot_free_decode_string (c_string : ptr) (status : Status) (w : world) : cres :=
  match c_string with
  | None => CDone status CVoid w
  | Some a => match strs w a with None => CUndef | Some _ => CDone status CVoid (set_str w a None) end
  end.
(** 227-257 *)
Definition polyglot_decode_error rt (a : nat) status decoder w :=
  with_decoder status decoder w (CPtr None) (decode_error rt) (give_string a).
(** 269-291 *)
Definition polyglot_decode_bool rt status decoder w :=
  with_decoder status decoder w (CTruth false) (decode_bool rt) (fun b w => CDone SPass (CTruth b) w).
(** 294-316 *)
Definition polyglot_decode_u8 rt status decoder w :=
  with_decoder status decoder w (CNum 0) (decode_u8 rt) (pass_num (fun n => n)).
(** 319-341 *)
Definition polyglot_decode_u16 rt status decoder w :=
  with_decoder status decoder w (CNum 0) (decode_u16 rt) (pass_num (fun n => n)).
(** 344-366 *)
Definition polyglot_decode_u32 rt status decoder w :=
  with_decoder status decoder w (CNum 0) (decode_u32 rt) (pass_num (fun n => n)).
(** 369-391 *)
Definition polyglot_decode_u64 rt status decoder w :=
  with_decoder status decoder w (CNum 0) (decode_u64 rt) (pass_num (fun n => n)).
(** 394-416 *)
Definition polyglot_decode_i32 rt status decoder w :=
  with_decoder status decoder w (CNum 0) (decode_i32 rt) (pass_num (fun n => n)).
(** 419-441 *)
Definition polyglot_decode_i64 rt status decoder w :=
  with_decoder status decoder w (CNum 0) (decode_i64 rt) (pass_num (fun n => n)).
(** 444-466; the float's bits *)
Definition polyglot_decode_f32 rt status decoder w :=
  with_decoder status decoder w (CNum 0) (decode_f32 rt) (pass_num (fun n => n)).
(** 469-491 *)
Definition polyglot_decode_f64 rt status decoder w :=
  with_decoder status decoder w (CNum 0) (decode_f64 rt) (pass_num (fun n => n)).

(** ** Clients

    Not code: a C program as the sequence of its calls, on any handles. *)
(** What an encode call passes besides status and encoder: memory for texts and byte slices. *)
Inductive carg :=
| ANone | AArray (n : Z) (k : CKind) | AMap (n : Z) (k1 k2 : CKind)
| ABytes (data : option bytes) (n : Z) | AString (s : option bytes) | AError (s : option bytes)
| ABool (b : bool) | AU8 (n : Z) | AU16 (n : Z) | AU32 (n : Z) | AU64 (n : Z) | AI32 (n : Z) | AI64 (n : Z)
| AF32 (bits : Z) | AF64 (bits : Z).
(** Which decode function is called. *)
Inductive cask :=
| QNone | QArray (k : CKind) | QMap (k1 k2 : CKind) | QBytes | QString | QError | QBool
| QU8 | QU16 | QU32 | QU64 | QI32 | QI64 | QF32 | QF64.
Inductive call :=
| NewEncoder | EncoderSize (e : ptr) | EncoderBuffer (e : ptr) (dst : option bytes) (n : Z)
| FreeEncoder (e : ptr) | Encode (e : ptr) (a : carg)
| NewDecoder (data : option bytes) (n : Z) | FreeDecoder (d : ptr) | Decode (d : ptr) (q : cask)
| FreeBytes (b : ptr) | FreeString (s : ptr).

Definition c_encode (status : option Status) (e : ptr) (a : carg) (w : world) : cres :=
  match a with
  | ANone => polyglot_encode_none status e w
  | AArray n k => polyglot_encode_array status e n k w
  | AMap n k1 k2 => polyglot_encode_map status e n k1 k2 w
  | ABytes m n => polyglot_encode_bytes status e m n w
  | AString s => polyglot_encode_string status e s w
  | AError s => polyglot_encode_error status e s w
  | ABool b => polyglot_encode_bool status e b w
  | AU8 n => polyglot_encode_u8 status e n w
  | AU16 n => polyglot_encode_u16 status e n w
  | AU32 n => polyglot_encode_u32 status e n w
  | AU64 n => polyglot_encode_u64 status e n w
  | AI32 n => polyglot_encode_i32 status e n w
  | AI64 n => polyglot_encode_i64 status e n w
  | AF32 n => polyglot_encode_f32 status e n w
  | AF64 n => polyglot_encode_f64 status e n w
  end.
Definition c_decode (rt : runtime) (a : nat) (status : option Status) (d : ptr) (q : cask) (w : world) : cres :=
  match q with
  | QNone => polyglot_decode_none rt status d w
  | QArray k => polyglot_decode_array rt status d k w
  | QMap k1 k2 => polyglot_decode_map rt status d k1 k2 w
  | QBytes => polyglot_decode_bytes rt a status d w
  | QString => polyglot_decode_string rt a status d w
  | QError => polyglot_decode_error rt a status d w
  | QBool => polyglot_decode_bool rt status d w
  | QU8 => polyglot_decode_u8 rt status d w
  | QU16 => polyglot_decode_u16 rt status d w
  | QU32 => polyglot_decode_u32 rt status d w
  | QU64 => polyglot_decode_u64 rt status d w
  | QI32 => polyglot_decode_i32 rt status d w
  | QI64 => polyglot_decode_i64 rt status d w
  | QF32 => polyglot_decode_f32 rt status d w
  | QF64 => polyglot_decode_f64 rt status d w
  end.
(** One call; [a] is the address given to whatever it allocates, [s] the contents of the status cell
    the caller passes (NULL status pointers are not part of a run: they abort).  The free functions have
    no status argument: the cell keeps its contents. *)
Definition exec (rt : runtime) (a : nat) (s : Status) (k : call) (w : world) : cres :=
  match k with
  | NewEncoder => polyglot_new_encoder a (Some s) w
  | EncoderSize e => polyglot_encoder_size (Some s) e w
  | EncoderBuffer e m n => polyglot_encoder_buffer (Some s) e m n w
  | FreeEncoder e => polyglot_free_encoder e s w
  | Encode e x => c_encode (Some s) e x w
  | NewDecoder m n => polyglot_new_decoder a (Some s) m n w
  | FreeDecoder d => polyglot_free_decoder d s w
  | Decode d q => c_decode rt a (Some s) d q w
  | FreeBytes b => polyglot_free_decode_bytes b s w
  | FreeString p => polyglot_free_decode_string p s w
  end.
(** The allocator never returns an address in use. *)
Definition fresh (w : world) (a : nat) : Prop :=
  encs w a = None /\ decs w a = None /\ blobs w a = None /\ strs w a = None.
(** A run of a C program in which no call is undefined or aborts: the calls with the status and
    the value they returned. *)
Definition trace := list (call * Status * cret).
Inductive runs (rt : runtime) : world -> trace -> world -> Prop :=
| Runs_nil w : runs rt w [] w
| Runs_cons w a k s s' r w1 tr w2 : fresh w a -> exec rt a s k w = CDone s' r w1 ->
    runs rt w1 tr w2 -> runs rt w ((k, s', r) :: tr) w2.
