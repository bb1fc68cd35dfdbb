(** Specification vocabulary for the C bindings (C44, C45, C56): what a C program's calls mean, in terms
    of values, and what each handle must hold after a given sequence of calls. *)
From Verif Require Import Base Spec Utf8 GoSpec RustModel RustSpec CModel.

(** The C string in memory [m]: the bytes before the first NUL. *)
Fixpoint text (m : bytes) : bytes := match m with [] => [] | c :: m => if c =? 0 then [] else c :: text m end.
(** The value an encode call passes. *)
Definition meaning (a : carg) : value :=
  match a with
  | ANone => VNil
  | AArray n k => VSlice n (ckind_number k)
  | AMap n k1 k2 => VMap n (ckind_number k1) (ckind_number k2)
  | ABytes m n => VBytes (match m with Some m => ztake n m | None => [] end)
  | AString m => VString (match m with Some m => text m | None => [] end)
  | AError m => VError (match m with Some m => text m | None => [] end)
  | ABool b => VBool b | AU8 n => VU8 n | AU16 n => VU16 n | AU32 n => VU32 n | AU64 n => VU64 n
  | AI32 n => VI32 n | AI64 n => VI64 n | AF32 n => VF32 n | AF64 n => VF64 n
  end.
(** The arguments are in the range of their C types, memory consists of bytes. *)
Definition carg_ok (a : carg) : Prop :=
  match a with
  | ABytes m n => 0 <= n < 2 ^ 32 /\ (forall p, m = Some p -> bytes_ok p)
  | AString m | AError m => forall p, m = Some p -> bytes_ok p /\ zlen p < 2 ^ 32
  | _ => valid (meaning a)
  end.
(** NULL data is reported; ... *)
Definition null_data (a : carg) : Prop := match a with ABytes None _ => True | _ => False end.
(** ... a NULL or unterminated string, or a size beyond the memory, is the caller's fault: undefined. *)
Definition defined (a : carg) : Prop :=
  match a with
  | ABytes (Some m) n => n <= zlen m
  | AString m | AError m => exists p, m = Some p /\ In 0 p
  | _ => True
  end.
(** Text must be UTF-8. *)
Definition good_text (a : carg) : Prop :=
  match a with
  | AString (Some m) | AError (Some m) => utf8 (text m)
  | _ => True
  end.

(** The request a decode call makes. *)
Definition asked (q : cask) : request :=
  match q with
  | QNone => RNil | QArray k => RSlice (ckind_number k)
  | QMap k1 k2 => RMap (ckind_number k1) (ckind_number k2)
  | QBytes => RBytes | QString => RString | QError => RError | QBool => RBool
  | QU8 => RU8 | QU16 => RU16 | QU32 => RU32 | QU64 => RU64 | QI32 => RI32 | QI64 => RI64
  | QF32 => RF32 | QF64 => RF64
  end.
(** What a decode call returns for a value, with [a] the address of a newly allocated result, and
    what it returns otherwise. *)
Definition returned (a : nat) (v : value) : cret :=
  match v with
  | VNil => CTruth true
  | VBool b => CTruth b
  | VBytes _ | VString _ | VError _ => CPtr (Some a)
  | VMap n _ _ | VSlice n _ => CNum n
  | VU8 n | VU16 n | VU32 n | VU64 n | VI32 n | VI64 n | VF32 n | VF64 n => CNum n
  end.
Definition nothing_returned (q : cask) : cret :=
  match q with
  | QNone | QBool => CTruth false
  | QBytes | QString | QError => CPtr None
  | _ => CNum 0
  end.
(** The contents behind a returned pointer. *)
Definition delivered (a : nat) (v : value) (w : world) : Prop :=
  match v with
  | VBytes p => blobs w a = Some p
  | VString p | VError p => strs w a = Some p
  | _ => True
  end.
(** A text that fits into a C string. *)
Definition c_text (v : value) : Prop := match v with VString p | VError p => ~ In 0 p | _ => True end.

(** ** What each handle holds, from the trace alone *)
Definition enc_event (h : nat) (l : option bytes) (e : call * Status * cret) : option bytes :=
  match e with
  | (NewEncoder, _, CPtr (Some a)) => if Nat.eq_dec a h then Some [] else l
  | (Encode (Some e) x, SPass, _) =>
      if Nat.eq_dec e h then match l with Some l => Some (l ++ wire (meaning x)) | None => None end else l
  | (FreeEncoder (Some e), _, _) => if Nat.eq_dec e h then None else l
  | _ => l
  end.
Definition enc_log (tr : trace) (h : nat) : option bytes := fold_left (enc_event h) tr None.
(** A decoder holds the bytes it was made from and a position: where the Rust decoder would be after
    the same requests. *)
Definition dec_event (rt : runtime) (h : nat) (l : option cursor) (e : call * Status * cret) : option cursor :=
  match e with
  | (NewDecoder (Some m) n, _, CPtr (Some a)) => if Nat.eq_dec a h then Some (mkcur (ztake n m) 0) else l
  | (Decode (Some d) q, _, _) =>
      if Nat.eq_dec d h then
        match l with
        | Some c => match decode rt (asked q) c with ROk _ c' | RErr _ c' => Some c' | RPanic => None end
        | None => None
        end
      else l
  | (FreeDecoder (Some d), _, _) => if Nat.eq_dec d h then None else l
  | _ => l
  end.
Definition dec_log (rt : runtime) (tr : trace) (h : nat) : option cursor := fold_left (dec_event rt h) tr None.
(** The arguments of a trace are in range; decoder inputs fit the address space. *)
Definition call_ok (rt : runtime) (e : call * Status * cret) : Prop :=
  match fst (fst e) with
  | Encode _ a => carg_ok a
  | NewDecoder (Some m) n => bytes_ok m /\ int_ok (W rt) m /\ 0 <= n
  | _ => True
  end.

(** ** What a call leaves alone *)
Definition same_but {A} (h : nat) (m m' : nat -> option A) : Prop := forall x, x <> h -> m' x = m x.
(** only encoder [h] changed *)
Definition only_enc (h : nat) (w w' : world) : Prop :=
  same_but h (encs w) (encs w') /\ decs w' = decs w /\ blobs w' = blobs w /\ strs w' = strs w.
(** only decoder [d] changed *)
Definition only_dec (d : nat) (w w' : world) : Prop :=
  same_but d (decs w) (decs w') /\ encs w' = encs w /\ blobs w' = blobs w /\ strs w' = strs w.
(** only decoder [d] changed and a result appeared at [a] *)
Definition only_dec_at (d a : nat) (w w' : world) : Prop :=
  same_but d (decs w) (decs w') /\ encs w' = encs w /\
  same_but a (blobs w) (blobs w') /\ same_but a (strs w) (strs w').
(** The request that reads back what an encode call wrote. *)
Definition ask (a : carg) : cask :=
  match a with
  | ANone => QNone | AArray _ k => QArray k | AMap _ k1 k2 => QMap k1 k2 | ABytes _ _ => QBytes
  | AString _ => QString | AError _ => QError | ABool _ => QBool | AU8 _ => QU8 | AU16 _ => QU16
  | AU32 _ => QU32 | AU64 _ => QU64 | AI32 _ => QI32 | AI64 _ => QI64 | AF32 _ => QF32 | AF64 _ => QF64
  end.
(** The encode call is to be accepted: memory as promised, text is UTF-8. *)
Definition fine (a : carg) : Prop := carg_ok a /\ ~ null_data a /\ defined a /\ good_text a.
