(** Model of the naming helpers: /repo/utils/utils.go (identical: /repo/v2/utils/utils.go).

    A Go string is its bytes.  [range s] over a string and utf8.DecodeRuneInString are library
    code: [runes] is their documented behaviour (an ill-formed byte counts as U+FFFD, width 1),
    WriteRune and string(rune) write UTF-8 ([utf8_char]).  unicode.ToLower beyond ASCII is an
    arbitrary function. *)
From Verif Require Import Base Utf8.

Definition is_lower (c : Z) : bool := (97 <=? c) && (c <=? 122).   (* 'a' <= c && c <= 'z' *)
Definition is_upper (c : Z) : bool := (65 <=? c) && (c <=? 90).
Definition is_digit (c : Z) : bool := (48 <=? c) && (c <=? 57).

(** utils.go 68-71: the inner loop; [i+1 < len(s) && 'a' <= s[i+1] && s[i+1] <= 'z'] *)
Definition lower_next (s : bytes) (i : Z) : res bool :=
  if i + 1 <? zlen s then let! c := index s (i + 1) in Ok (is_lower c) else Ok false.
Fixpoint camel_inner (fuel : nat) (s : bytes) (i : Z) (t : bytes) : res (Z * bytes) :=
  let! b := lower_next s i in
  if b then
    match fuel with
    | O => Panic
    | S fuel => let i := i + 1 in let! c := index s i in camel_inner fuel s i (t ++ [c])
    end
  else Ok (i, t).
(** 49-72: the outer loop *)
Fixpoint camel_loop (fuel : nat) (s : bytes) (i : Z) (t : bytes) : res bytes :=
  if i <? zlen s then
    match fuel with
    | O => Panic
    | S fuel =>
        let! c := index s i in
        let! b := lower_next s i in
        if (c =? 95) && b then camel_loop fuel s (i + 1) t              (* 51-53 *)
        else if c =? 46 then camel_loop fuel s (i + 1) t                (* 54-56 *)
        else if is_digit c then camel_loop fuel s (i + 1) (t ++ [c])    (* 57-60 *)
        else
          let c := if is_lower c then Z.lxor c 32 else c in             (* 63-65 *)
          let t := t ++ [c] in                                          (* 66 *)
          let! (i, t) := camel_inner (length s) s i t in
          camel_loop fuel s (i + 1) t
    end
  else Ok t.
(** utils.go 36-74; also CamelCaseFullName 98-100 and CamelCaseName 102-104 *)
Definition CamelCase (s : bytes) : res bytes :=
  if zlen s =? 0 then Ok []
  else
    let! c := index s 0 in
    let i := if c =? 95 then 1 else 0 in
    camel_loop (length s) s i [].

(** The runes of a string, in order (language specification, "For range"; unicode/utf8). *)
Fixpoint runes (s : bytes) : list Z :=
  match s with
  | [] => []
  | a :: s1 =>
      if a <? 0x80 then a :: runes s1 else
      match s1 with
      | [] => [0xFFFD]
      | b :: s2 =>
          if between 0xC2 a 0xDF && cont b then ((a - 0xC0) * 64 + (b - 0x80)) :: runes s2 else
          match s2 with
          | [] => 0xFFFD :: runes s1
          | c :: s3 =>
              if between 0xE0 a 0xEF && between (if a =? 0xE0 then 0xA0 else 0x80) b (if a =? 0xED then 0x9F else 0xBF) && cont c
              then ((a - 0xE0) * 4096 + (b - 0x80) * 64 + (c - 0x80)) :: runes s3 else
              match s3 with
              | [] => 0xFFFD :: runes s1
              | d :: s4 =>
                  if between 0xF0 a 0xF4 && between (if a =? 0xF0 then 0x90 else 0x80) b (if a =? 0xF4 then 0x8F else 0xBF) && cont c && cont d
                  then ((a - 0xF0) * 262144 + (b - 0x80) * 4096 + (c - 0x80) * 64 + (d - 0x80)) :: runes s4
                  else 0xFFFD :: runes s1
              end
          end
      end
  end.
(** utils.go 79-90: the loop; [b] is the buffer, [consc] the flag *)
Fixpoint snake_loop (cs : list Z) (b : bytes) (consc : bool) : bytes :=
  match cs with
  | [] => b
  | c :: cs =>
      if is_upper c then
        let b := if (0 <? zlen b) && negb consc then b ++ utf8_char 95 else b in
        snake_loop cs (b ++ utf8_char (c - 65 + 97)) true
      else snake_loop cs (b ++ utf8_char c) false
  end.
(** SnakeCase 76-92, SnakeCaseName 94-96 *)
Definition SnakeCase (s : bytes) : bytes := snake_loop (runes s) [] false.

(** unicode.ToLower: exact on ASCII, [other] elsewhere *)
Definition ToLower (other : Z -> Z) (r : Z) : Z :=
  if r <? 128 then if is_upper r then r + 32 else r else other r.
(** the first rune and the number of bytes it takes (utf8.DecodeRuneInString) *)
Definition first_width (s : bytes) (r : Z) : Z :=
  if r <? 0x80 then 1
  else match utf8_char r with
       | p => if list_eq_dec Z.eq_dec (ztake (zlen p) s) p then zlen p else 1
       end.
(** FirstLowerCase 115-121, FirstLowerCaseName 123-125 *)
Definition FirstLowerCase (other : Z -> Z) (s : bytes) : bytes :=
  match runes s with
  | [] => []
  | r :: _ => utf8_char (ToLower other r) ++ zdrop (first_width s r) s
  end.
(** LowercaseCamelCase 127-137, LowercaseCamelCaseName 139-141; rune(s[0]) is the first byte *)
Definition LowercaseCamelCase (other : Z -> Z) (s : bytes) : bytes :=
  match s with
  | [] => []
  | [c] => utf8_char (ToLower other c)
  | c :: t => utf8_char (ToLower other c) ++ t
  end.
(** AppendString 106-113 *)
Definition AppendString (inputs : list bytes) : bytes := fold_left (fun b s => b ++ s) inputs [].
(** Counter 147-153: the value returned and the new value of the captured variable; int of width W *)
Definition Counter (W : Z) (i : Z) : Z * Z := let i := sw W (i + 1) in (i, i).
