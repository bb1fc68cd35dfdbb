(** The generated Go decoders once more, with the effects GenModel.decode leaves out: what the struct
    looks like after an error, and which slices and maps are made (generator/golang/templates/
    decode.templ, decodeMap.templ and v2/generator/...).  [GenTraceThms.erase_decode]: forgetting
    these effects gives back GenModel.decode.

    A failing decoder method returns its error together with Go's zero value (decode.go: "return 0, ...",
    "return nil, ...", "return emptyString, ..." in every failing branch of every method; the same in
    v2/decode.go and v2/decoder.go), and "x.F, err = d.M()" assigns both.

    [room n]: whether make([]T, n) succeeds.  Go panics if n does not fit into an int or n elements
    exceed the address space.  make(map[K]V, n) never panics: n is only a hint (a too large one is
    ignored by the runtime). *)
From Verif Require Import Base Spec GenTables GenModel.
From Verif Require V1Model V2Model.

Inductive make := MakeSlice (n : Z) | MakeMap (n : Z).
(** Result of a generated decode function; [TErr]: the error and the struct left behind. *)
Inductive tres (A : Type) :=
| TDone (rest : bytes) (x : A) | TErr (e : gerr) (x : A) | TPanic | TDeep | TBroken.
Arguments TDone {A}. Arguments TErr {A}. Arguments TPanic {A}. Arguments TDeep {A}. Arguments TBroken {A}.
(** The makes, in order, and the result. *)
Definition run (A : Type) : Type := list make * tres A.
Definition ret {A} (x : tres A) : run A := ([], x).
(** Run [x], then [k]; [undo] tells what an error inside [x] leaves behind. *)
Definition tbind {A B} (x : run A) (undo : A -> B) (k : bytes -> A -> run B) : run B :=
  match x with
  | (l, TDone r a) => let (l', y) := k r a in (l ++ l', y)
  | (l, TErr e a) => (l, TErr e (undo a))
  | (l, TPanic) => (l, TPanic)
  | (l, TDeep) => (l, TDeep)
  | (l, TBroken) => (l, TBroken)
  end.
(** A part of GenModel without such effects; [old]: what an error leaves behind. *)
Definition plain {A B} (x : gres A) (old : B) (k : bytes -> A -> run B) : run B :=
  match x with
  | GDone r a => k r a
  | GErr e => ret (TErr e old)
  | GPanic => ret TPanic
  | GDeep => ret TDeep
  | GBroken => ret TBroken
  end.

Section Decode.
Variable room : Z -> bool.
Variable v2 : bool.
Variable prim : option bytes -> request -> bytes -> outcome.
Variable S : schema.

(** if !d.Nil() *)
Definition t_nil {A} (b : bytes) (yes no : bytes -> run A) : run A :=
  match prim None RNil b with
  | Done r _ => yes r
  | Fail r _ => no r
  | Crash => ret TPanic
  end.

(** decode.templ 22-36 (v1: 24-38): x.F, err = d.M(); on an error x.F is the zero value of its type. *)
Definition t_other (f : field) (old : gval) (b : bytes) : run gval :=
  plain (dec_other v2 prim f old b) (zero f) (fun r x => ret (TDone r x)).

Section Rec.
Variable fuel : nat.
Variable rec : nat -> list gval -> bytes -> run (list gval).

(** err = p.decode(d) for a non-nil pointer p *)
Definition t_msg (m : nat) (s : list gval) (b : bytes) : run gval :=
  tbind (rec m s b) (fun s => GMsg (Some s)) (fun r s => ret (TDone r (GMsg (Some s)))).

(** decode.templ 50-63: x.F[i] is assigned even if the decoder fails. *)
Fixpoint t_elems (t : ftype) (xs : list gval) (b : bytes) : run (list gval) :=
  match xs with
  | [] => ret (TDone b [])
  | x :: xs =>
      tbind (match t with
             | Msg m => plain (or_new v2 S fuel m x) x (fun _ s => t_msg m s b)
             | Scalar k => plain (dec_call prim None k b) (zero (One t)) (fun r v => ret (TDone r (GPrim v)))
             end)
            (fun x => x :: xs)
            (fun r x => tbind (t_elems t xs r) (fun xs => x :: xs) (fun r xs => ret (TDone r (x :: xs))))
  end.
(** decode.templ 41-64: the header's error leaves x.F alone; a new slice is made if the length differs. *)
Definition t_slice (f : field) (old : gval) (b : bytes) : run gval :=
  match f, old with
  | Many t, GList xs =>
      match kind_number (go_GetKind (tkind t)) with
      | None => ret TBroken
      | Some k =>
          match prim None (RSlice k) b with
          | Fail _ e => ret (TErr e old)
          | Crash => ret TPanic
          | Done r (VSlice size _) =>
              let elems xs := tbind (t_elems t xs r) GList (fun r xs => ret (TDone r (GList xs))) in
              if u32 (zlen xs) =? size then elems xs
              else if room size then tbind ([MakeSlice size], TDone r tt) (fun _ => old)
                                           (fun _ _ => elems (repeat (zero (One t)) (Z.to_nat size)))
              else ([MakeSlice size], TPanic)
          | Done _ _ => ret TBroken
          end
      end
  | _, _ => ret TBroken
  end.
(** decodeMap.templ 14-49: an entry is stored once its key and its value were decoded. *)
Fixpoint t_entries (kk : pkind) (t : ftype) (n : nat) (l : list (value * gval)) (b : bytes)
  : run (list (value * gval)) :=
  match n with
  | O => ret (TDone b l)
  | Datatypes.S n =>
      plain (dec_call prim None kk b) l (fun r k =>
      tbind (match t with
             | Msg m => plain (New v2 S fuel m) (GMsg None) (fun _ s => t_msg m s r)
             | Scalar kt => plain (dec_call prim None kt r) (zero (One t)) (fun r v => ret (TDone r (GPrim v)))
             end) (fun _ => l) (fun r v =>
      t_entries kk t n (insert k v l) r))
  end.
(** decode.templ 65-90 (v1: 67-92): x.F is the new map before its entries are decoded, and the (v1: if
    it was nil) new message before it is decoded. *)
Definition t_message (f : field) (old : gval) (b : bytes) : run gval :=
  match f with
  | MapOf kk t =>
      t_nil b (fun r => ret (TDone r old)) (fun b =>
        match kind_number (go_GetKind kk), kind_number (go_GetKind (tkind t)) with
        | Some k1, Some k2 =>
            match prim None (RMap k1 k2) b with
            | Fail _ e => ret (TErr e old)
            | Crash => ret TPanic
            | Done r (VMap size _ _) =>
                tbind ([MakeMap size], TDone r tt) (fun _ => old) (fun r _ =>
                tbind (t_entries kk t (Z.to_nat size) [] r) (fun l => GMap (Some l))
                      (fun r l => ret (TDone r (GMap (Some l)))))
            | Done _ _ => ret TBroken
            end
        | _, _ => ret TBroken
        end)
  | One (Msg m) =>
      if v2 then
        t_nil b (fun r => ret (TDone r old)) (fun b =>
          plain (New v2 S fuel m) old (fun _ s => t_msg m s b))
      else plain (or_new v2 S fuel m old) old (fun _ s => t_msg m s b)
  | _ => ret TBroken
  end.
End Rec.

Fixpoint t_pass (step : field -> gval -> bytes -> run gval) (fs : list field) (is : list nat)
    (x : list gval) (b : bytes) : run (list gval) :=
  match is with
  | [] => ret (TDone b x)
  | i :: is =>
      match nth_error fs i, nth_error x i with
      | Some f, Some old =>
          tbind (step f old b) (fun y => set_nth i y x) (fun r y => t_pass step fs is (set_nth i y x) r)
      | _, _ => ret TBroken
      end
  end.

(** func (x *M) decode(d) error: decode.templ 10-93 (v1: 12-95). *)
Fixpoint t_decode (fuel : nat) (m : nat) (x : list gval) (b : bytes) : run (list gval) :=
  match fuel with
  | O => ret TDeep
  | Datatypes.S fuel =>
      t_nil b (fun r => ret (TDone r x)) (fun b =>
        match nth_error S m with
        | None => ret TBroken
        | Some fs =>
            match getFields go_decodeLUT fs 0 with
            | None => ret TBroken
            | Some (other, slices, messages) =>
                tbind (t_pass t_other fs other x b) (fun x => x) (fun b x =>
                tbind (t_pass (t_slice fuel (t_decode fuel)) fs slices x b) (fun x => x) (fun b x =>
                t_pass (t_message fuel (t_decode fuel)) fs messages x b))
            end
        end)
  end.
End Decode.

(** func (x *M) Decode(b []byte) error for x other than nil: decode.templ 1-8. *)
Definition Trace1 (W : Z) (room : Z -> bool) (S : schema) (fuel m : nat) (x : list gval) (b : bytes)
  : run (list gval) := t_decode room false (V1Model.decode W) S fuel m x b.
Definition Trace2 (W : Z) (room : Z -> bool) (S : schema) (fuel m : nat) (x : list gval) (b : bytes)
  : run (list gval) := t_decode room true (fun dst => V2Model.decode W (V1Model.oget dst)) S fuel m x b.
