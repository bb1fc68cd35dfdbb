(** What the naming helpers mean, independently of their loops. *)
From Coq Require Import String Ascii.
From Verif Require Import Base Utf8 NameModel.

Definition str (s : string) : bytes := map (fun a => Z.of_N (N_of_ascii a)) (list_ascii_of_string s).

Definition lower (c : Z) : Prop := 97 <= c <= 122.
Definition upper (c : Z) : Prop := 65 <= c <= 90.
Definition digit (c : Z) : Prop := 48 <= c <= 57.
Definition letter (c : Z) : Prop := lower c \/ upper c.
Definition ident_char (c : Z) : Prop := letter c \/ digit c \/ c = 95.
(** protobuf and (ASCII) Go, Rust and TypeScript identifiers *)
Definition identifier (s : bytes) : Prop :=
  exists c t, s = c :: t /\ (letter c \/ c = 95) /\ Forall ident_char t.
(** full names: identifiers joined by dots *)
Inductive full_name : bytes -> Prop :=
| Full_one s : identifier s -> full_name s
| Full_dot s t : identifier s -> full_name t -> full_name (s ++ 46 :: t).
(** Go exports identifiers that start with an upper case letter *)
Definition exported (s : bytes) : Prop := identifier s /\ exists c t, s = c :: t /\ upper c.

(** CamelCase character by character: what becomes of [c] between [prev] and [next].
    Dots go; an underscore goes if it comes first or precedes a lower case letter; a lower case
    letter becomes upper case unless it follows a letter (or a foreign character). *)
Definition starts_word (prev : option Z) : bool :=
  match prev with None => true | Some p => (p =? 95) || (p =? 46) || is_digit p end.
Definition camel_piece (prev : option Z) (c : Z) (next : option Z) : bytes :=
  if c =? 46 then []
  else if c =? 95 then
    match prev, next with
    | None, _ => []
    | _, Some n => if is_lower n then [] else [95]
    | _, None => [95]
    end
  else if is_lower c && starts_word prev then [c - 32]
  else [c].
Fixpoint camel_from (prev : option Z) (s : bytes) : bytes :=
  match s with [] => [] | c :: t => camel_piece prev c (hd_error t) ++ camel_from (Some c) t end.
Definition camel_spec (s : bytes) : bytes := camel_from None s.

(** SnakeCase character by character: an upper case letter is lowered and gets an underscore in
    front unless it comes first or follows another upper case letter. *)
Definition snake_piece (prev : option Z) (c : Z) : list Z :=
  if is_upper c then
    match prev with Some p => if is_upper p then [c + 32] else [95; c + 32] | None => [c + 32] end
  else [c].
Fixpoint snake_from (prev : option Z) (cs : list Z) : list Z :=
  match cs with [] => [] | c :: t => snake_piece prev c ++ snake_from (Some c) t end.
Definition snake_spec (cs : list Z) : list Z := snake_from None cs.

(** letters and digits, without case *)
Definition fold_case (c : Z) : Z := if is_upper c then c + 32 else c.
Definition alnum (c : Z) : bool := is_lower c || is_upper c || is_digit c.
Definition content (s : bytes) : bytes := map fold_case (filter alnum s).

(** names made of lower case words joined by single underscores, as style guides ask for *)
Definition word (w : bytes) : Prop := w <> [] /\ Forall lower w.
Definition long_word (w : bytes) : Prop := Forall lower w /\ 2 <= zlen w.
Fixpoint join (ws : list bytes) : bytes :=
  match ws with [] => [] | [w] => w | w :: ws => w ++ 95 :: join ws end.
Definition style_name (s : bytes) : Prop := exists ws, ws <> [] /\ Forall word ws /\ s = join ws.

(** the results of [n] calls of one counter, the captured variable starting at [i] *)
Fixpoint counts (W : Z) (n : nat) (i : Z) : list Z :=
  match n with O => [] | S n => let (r, i) := Counter W i in r :: counts W n i end.
