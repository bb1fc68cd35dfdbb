(** How a struct in the memory of a Go program stands for a tree (GenModel), and which files the generated programs
    make sense for. *)
From Coq Require Import String.
From Verif Require Import Base Spec GenTables GenModel NameModel NameSpec EmitModel EmitSpec GoAst GoEmit.

(** ---- The messages of a file, numbered; its fields as GenModel has them ---- *)
(** in the order of the templates *)
Definition messages_of (f : filed) : list msgd := flat_map (structs (fun m => [m])) (d_msgs f).
Fixpoint position (s : bytes) (ms : list msgd) : nat :=
  match ms with [] => O | m :: ms => if same s (m_full m) then O else S (position s ms) end.
Definition ftype_of (ms : list msgd) (t : ftyp) : ftype :=
  match t with TScalar k => Scalar k | TEnum _ => Scalar KEnum | TMsg s => Msg (position s ms) | TMap _ _ => Scalar KGroup end.
Definition field_of (ms : list msgd) (fd : fieldd) : field :=
  match f_typ fd with
  | TMap k v => MapOf (kind_of k) (ftype_of ms v)
  | t => if f_many fd then Many (ftype_of ms t) else One (ftype_of ms t)
  end.
Definition schema_of (f : filed) : schema := map (fun m => map (field_of (messages_of f)) (m_fields m)) (messages_of f).

(** ---- Memory ---- *)
(** an element of a repeated field *)
Definition element (fd : fieldd) : fieldd := mkfield (f_name fd) (f_full fd) false (f_typ fd).
Section Rep.
Variables (ms : list msgd) (h : list obj).
(** [rep fd x v at]: the Go value [v] of the type of field [fd] is the tree [x]; the objects it consists of are at [at]
    (an object that occurs twice is there twice).  Slices have fewer than 2^32 elements: the generated code counts them
    in a uint32. *)
Inductive rep : fieldd -> gval -> gov -> list nat -> Prop :=
| rep_base fd v : f_many fd = false -> scalar_type (kind_of (f_typ fd)) = Some (want v) -> rep fd (GPrim v) (GoBase v) []
| rep_nil fd s : f_many fd = false -> f_typ fd = TMsg s -> rep fd (GMsg None) (GoPtr (camel s) None) []
| rep_msg fd s m xs vs a fp : f_many fd = false -> f_typ fd = TMsg s -> nth_error ms (position s ms) = Some m ->
    nth_error h a = Some (OStruct (combine (map goname (m_fields m)) vs)) -> reps (m_fields m) xs vs fp ->
    rep fd (GMsg (Some xs)) (GoPtr (camel s) (Some a)) (a :: fp)
| rep_empty fd : f_many fd = true -> is_map fd = false -> rep fd (GList []) (GoSlice (type_text (element fd)) None) []
| rep_list fd xs vs a fp : f_many fd = true -> is_map fd = false ->
    nth_error h a = Some (OArray vs) -> zlen xs < 2 ^ 32 -> reps (repeat (element fd) (length xs)) xs vs fp ->
    rep fd (GList xs) (GoSlice (type_text (element fd)) (Some a)) (a :: fp)
| rep_nomap fd k v : f_typ fd = TMap k v -> rep fd (GMap None) (GoMap (map_name fd) None) []
| rep_map fd k v l vs a fp : f_typ fd = TMap k v ->
    nth_error h a = Some (OMap (combine (map fst l) vs)) -> reps (repeat (map_value fd v) (length l)) (map snd l) vs fp ->
    rep fd (GMap (Some l)) (GoMap (map_name fd) (Some a)) (a :: fp)
with reps : list fieldd -> list gval -> list gov -> list nat -> Prop :=
| reps_nil : reps [] [] [] []
| reps_cons fd x v fp1 fds xs vs fp2 : rep fd x v fp1 -> reps fds xs vs fp2 -> reps (fd :: fds) (x :: xs) (v :: vs) (fp1 ++ fp2).
End Rep.
(** At address [a] there is a struct of message [m] that holds [xs], made of the objects at [fp], no two of which are the
    same. *)
Definition struct_at (ms : list msgd) (h : list obj) (a : nat) (m : msgd) (xs : list gval) (fp : list nat) : Prop :=
  exists vs, nth_error h a = Some (OStruct (combine (map goname (m_fields m)) vs)) /\ reps ms h (m_fields m) xs vs fp /\ NoDup (a :: fp).
(** All that happened between two memories happened to the objects at [fp] (now [fp']) or to new ones. *)
Definition only_at (h h' : list obj) (fp fp' : list nat) : Prop :=
  (length h <= length h')%nat /\
  (forall c, (c < length h)%nat -> ~ In c fp -> nth_error h' c = nth_error h c) /\
  (forall c, In c fp' -> In c fp \/ (length h <= c)%nat).

(** ---- Which files ---- *)
(** types of fields are types of the file: messages, and enums at top level or directly in a top-level message *)
Definition known_type (f : filed) (t : ftyp) : Prop :=
  match t with
  | TScalar k => k <> KEnum /\ k <> KMessage
  | TEnum s => exists e, shallow_enum f e /\ e_full e = s
  | TMsg s => exists m, has_message f m /\ m_full m = s
  | TMap _ _ => False
  end.
Definition field_known (f : filed) (fd : fieldd) : Prop :=
  match f_typ fd with TMap k v => f_many fd = true /\ known_type f k /\ known_type f v | t => known_type f t end.
Definition enum_field (fd : fieldd) : Prop := exists s, f_typ fd = TEnum s.
(** Names of the file do not clash with each other or with the variables of generated functions. *)
Record names_apart (v2 : bool) (f : filed) : Prop := {
  na_ident : forall n, In n (go_names (go_file v2 f)) -> identifier n;
  na_once : NoDup (go_names (go_file v2 f));
  na_fields : forall m, has_message f m -> NoDup (map goname (m_fields m));
  na_temps : forall m fd, has_message f m -> In fd (m_fields m) -> enum_field fd -> f_many fd = false ->
    ~ In (goname fd ++ str "Temp") (go_names (go_file v2 f));
  na_value : forall m fd k s, has_message f m -> In fd (m_fields m) -> f_typ fd = TMap k (TEnum s) ->
    ~ In (str "ValueTemp") (go_names (go_file v2 f));
  na_known : forall m fd, has_message f m -> In fd (m_fields m) -> field_known f fd
}.
