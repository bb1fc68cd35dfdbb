(** Compact semantics of the two Go decoders, used as the interface between the literal models
    and the property proofs.  It is a proof device, not a specification: V1Dec.v and V2Dec.v
    prove that the literal transcriptions equal it on all byte inputs, and the property theorems
    are stated about the literal transcriptions. *)
From Verif Require Import Base Spec SpecProofs GoLoop.

(** a decoder's uint32 length field *)
Inductive sub := Sok (r : bytes) (n : Z) | Sfail (r : bytes) | Scrash.
Definition sub32 (b : bytes) : sub :=
  match b with
  | c :: d :: t =>
      if c =? 10 then
        match scan 5 (d :: t) with
        | SDone ds r => Sok r (dval ds mod 2 ^ 32)
        | SLong => Sfail b
        | STrunc => Scrash
        end
      else Sfail b
  | _ => Sfail b
  end.

(** a tagged varint scalar *)
Definition scalar (k : Z) (n : nat) (fin : Z -> value) (e : gerr) (b : bytes) : outcome :=
  match b with
  | c :: d :: t =>
      if c =? k then
        match scan n (d :: t) with
        | SDone ds r => Done r (fin (dval ds))
        | SLong => Fail b e
        | STrunc => Crash
        end
      else Fail b e
  | _ => Fail b e
  end.

(** the payload after its length was read *)
Inductive pay := Pok (r p : bytes) | Pfail (r : bytes) | Pcrash.
Definition payload (W : Z) (r : bytes) (n : Z) : pay :=
  if zlen r >? sw W (sw W n - 1) then
    if n <=? zlen r then Pok (zdrop n r) (ztake n r) else Pcrash
  else Pfail r.

Lemma payload_64 r n : 0 <= n < 2 ^ 32 ->
  payload 64 r n = if n <=? zlen r then Pok (zdrop n r) (ztake n r) else Pfail r.
Proof.
  intros Hn. unfold payload. rewrite (sw_small 64 n) by lia. rewrite (sw_small 64 (n - 1)) by lia.
  destruct (Z.gtb_spec (zlen r) (n - 1)), (Z.leb_spec n (zlen r)); try reflexivity; lia.
Qed.

Definition stringy (W : Z) (b : bytes) : pay :=
  match b with
  | c :: t => if c =? 5 then
                match sub32 t with
                | Sok r n => payload W r n
                | Sfail r => Pfail r
                | Scrash => Pcrash
                end
              else Pfail b
  | [] => Pfail b
  end.

Definition bytes_result (dst : option bytes) (p : bytes) : bytes :=
  match dst with
  | None => p
  | Some d => if zlen d <=? zlen p then p else p ++ zdrop (zlen p) d
  end.

Definition ideal1 (W : Z) (dst : option bytes) (q : request) (b : bytes) : outcome :=
  match q with
  | RNil => match b with c :: t => if c =? 0 then Done t VNil else Fail b ENotNil | [] => Fail b ENotNil end
  | RMap k1 k2 =>
      match b with
      | a :: x :: y :: t =>
          if (a =? 2) && (x =? k1) && (y =? k2) then
            match sub32 t with
            | Sok r n => Done r (VMap n k1 k2) | Sfail r => Fail r EMap | Scrash => Crash
            end
          else Fail b EMap
      | _ => Fail b EMap
      end
  | RSlice k =>
      match b with
      | a :: x :: t =>
          if (a =? 1) && (x =? k) then
            match sub32 t with
            | Sok r n => Done r (VSlice n k) | Sfail r => Fail r ESlice | Scrash => Crash
            end
          else Fail b ESlice
      | _ => Fail b ESlice
      end
  | RBytes =>
      match b with
      | c :: t => if c =? 4 then
                    match sub32 t with
                    | Sok r n => match payload W r n with
                                 | Pok r p => Done r (VBytes (bytes_result dst p))
                                 | Pfail r => Fail r EBytes
                                 | Pcrash => Crash
                                 end
                    | Sfail r => Fail r EBytes
                    | Scrash => Crash
                    end
                  else Fail b EBytes
      | [] => Fail b EBytes
      end
  | RString => match stringy W b with
               | Pok r p => Done r (VString p) | Pfail r => Fail r EString | Pcrash => Crash end
  | RError =>
      match b with
      | c :: t => if c =? 6 then
                    match stringy W t with
                    | Pok r p => Done r (VError p) | Pfail r => Fail r EError | Pcrash => Crash end
                  else Fail b EError
      | [] => Fail b EError
      end
  | RBool => match b with
             | c :: x :: t => if c =? 7 then Done t (VBool (x =? 1)) else Fail b EBool
             | _ => Fail b EBool
             end
  | RU8 => match b with
           | c :: x :: t => if c =? 8 then Done t (VU8 x) else Fail b EU8
           | _ => Fail b EU8
           end
  | RU16 => scalar 9 3 (fun n => VU16 (n mod 2 ^ 16)) EU16 b
  | RU32 => scalar 10 5 (fun n => VU32 (n mod 2 ^ 32)) EU32 b
  | RU64 => scalar 11 10 (fun n => VU64 (n mod 2 ^ 64)) EU64 b
  | RI32 => scalar 12 5 (fun n => VI32 (unzigzag (n mod 2 ^ 32))) EI32 b
  | RI64 => scalar 13 10 (fun n => VI64 (unzigzag (n mod 2 ^ 64))) EI64 b
  | RF32 => match b with
            | c :: b1 :: b2 :: b3 :: b4 :: t =>
                if c =? 14 then Done t (VF32 (be4_val b1 b2 b3 b4)) else Fail b EF32
            | _ => Fail b EF32
            end
  | RF64 => match b with
            | c :: b1 :: b2 :: b3 :: b4 :: b5 :: b6 :: b7 :: b8 :: t =>
                if c =? 15 then Done t (VF64 (be8_val b1 b2 b3 b4 b5 b6 b7 b8)) else Fail b EF64
            | _ => Fail b EF64
            end
  end.

(** the v2 differences: stricter length guards (a header alone is rejected without consuming),
    strict booleans, byte slices decoded without consuming on failure and with the
    five-continuation-bytes length read as an empty payload at offset 0. *)
Definition ideal2 (W : Z) (dst : option bytes) (q : request) (b : bytes) : outcome :=
  match q with
  | RMap k1 k2 => match b with [_; _; _] => Fail b EMap | _ => ideal1 W None q b end
  | RSlice k => match b with [_; _] => Fail b ESlice | _ => ideal1 W None q b end
  | RString => match b with [_] => Fail b EString | _ => ideal1 W None q b end
  | RError =>
      match b with
      | c :: t => if c =? 6 then
                    match t with
                    | [] => Fail b EError
                    | [_] => Fail t EError
                    | _ => match stringy W t with
                           | Pok r p => Done r (VError p) | Pfail r => Fail r EError | Pcrash => Crash end
                    end
                  else Fail b EError
      | [] => Fail b EError
      end
  | RBytes =>
      match b with
      | a :: x :: d :: t =>
          if (a =? 4) && (x =? 10) then
            match scan 5 (d :: t) with
            | SDone ds r =>
                match payload W r (dval ds mod 2 ^ 32) with
                | Pok r p => Done r (VBytes p)
                | Pfail _ => Fail b EBytes
                | Pcrash => Crash
                end
            | SLong => Done b (VBytes [])
            | STrunc => Crash
            end
          else Fail b EBytes
      | _ => Fail b EBytes
      end
  | RBool => match b with
             | c :: x :: t =>
                 if c =? 7 then
                   if x =? 1 then Done t (VBool true)
                   else if x =? 0 then Done t (VBool false) else Fail b EBool
                 else Fail b EBool
             | _ => Fail b EBool
             end
  | _ => ideal1 W None q b
  end.
