(** UTF-8, as used by Rust strings and the TypeScript TextEncoder/TextDecoder.

    Specification: a byte string is UTF-8 iff it is the concatenation of the encodings of Unicode
    scalar values.  Independent of any implementation. *)
From Verif Require Import Base.

(** Unicode scalar values: code points that are not surrogates. *)
Definition scalar_value (c : Z) : Prop := 0 <= c < 0xD800 \/ 0xE000 <= c < 0x110000.
(** RFC 3629, section 3 *)
Definition utf8_char (c : Z) : bytes :=
  if c <? 0x80 then [c]
  else if c <? 0x800 then [0xC0 + c / 64; 0x80 + c mod 64]
  else if c <? 0x10000 then [0xE0 + c / 4096; 0x80 + c / 64 mod 64; 0x80 + c mod 64]
  else [0xF0 + c / 262144; 0x80 + c / 4096 mod 64; 0x80 + c / 64 mod 64; 0x80 + c mod 64].
Definition utf8 (p : bytes) : Prop :=
  exists cs, Forall scalar_value cs /\ p = concat (map utf8_char cs).

(** The check made by Rust's [str::from_utf8] (library code; this is its documented behaviour,
    the well-formed byte sequences of Unicode Table 3-7). *)
Definition cont (b : Z) : bool := (0x80 <=? b) && (b <=? 0xBF).
Definition between (lo b hi : Z) : bool := (lo <=? b) && (b <=? hi).
Fixpoint from_utf8 (p : bytes) : bool :=
  match p with
  | [] => true
  | a :: p1 =>
      if between 0 a 0x7F then from_utf8 p1 else
      match p1 with
      | [] => false
      | b :: p2 =>
          if between 0xC2 a 0xDF then cont b && from_utf8 p2 else
          match p2 with
          | [] => false
          | c :: p3 =>
              if a =? 0xE0 then between 0xA0 b 0xBF && cont c && from_utf8 p3
              else if between 0xE1 a 0xEC || between 0xEE a 0xEF then cont b && cont c && from_utf8 p3
              else if a =? 0xED then between 0x80 b 0x9F && cont c && from_utf8 p3
              else
                match p3 with
                | [] => false
                | d :: p4 =>
                    if a =? 0xF0 then between 0x90 b 0xBF && cont c && cont d && from_utf8 p4
                    else if between 0xF1 a 0xF3 then cont b && cont c && cont d && from_utf8 p4
                    else if a =? 0xF4 then between 0x80 b 0x8F && cont c && cont d && from_utf8 p4
                    else false
                end
          end
      end
  end.

Lemma utf8_nil : utf8 [].
Proof. exists []. split; [constructor|reflexivity]. Qed.
Lemma utf8_app_char c p : scalar_value c -> utf8 p -> utf8 (utf8_char c ++ p).
Proof. intros Hc (cs & H & ->). exists (c :: cs). split; [constructor; assumption|reflexivity]. Qed.

Lemma from_utf8_char c p : scalar_value c -> from_utf8 (utf8_char c ++ p) = from_utf8 p.
Proof.
  intros Hc. unfold scalar_value in Hc. unfold utf8_char.
  destruct (Z.ltb_spec c 0x80).
  { cbn [app from_utf8]. unfold between.
    destruct (Z.leb_spec 0 c), (Z.leb_spec c 0x7F); cbn [andb]; try lia. reflexivity. }
  destruct (Z.ltb_spec c 0x800).
  { assert (HA : 0xC2 <= 0xC0 + c / 64 <= 0xDF) by lia.
    assert (HB : 0x80 <= 0x80 + c mod 64 <= 0xBF) by lia.
    set (A := 0xC0 + c / 64) in *. set (B := 0x80 + c mod 64) in *. clearbody A B. clear - HA HB.
    cbn [app from_utf8].
    replace (between 0 A 0x7F) with false by (unfold between; lia).
    replace (between 0xC2 A 0xDF) with true by (unfold between; lia).
    replace (cont B) with true by (unfold cont; lia). reflexivity. }
  destruct (Z.ltb_spec c 0x10000).
  { assert (HC : 0x80 <= 0x80 + c mod 64 <= 0xBF) by lia.
    assert (HB : 0x80 <= 0x80 + c / 64 mod 64 <= 0xBF) by lia.
    assert (HA : 0xE0 <= 0xE0 + c / 4096 <= 0xEF) by lia.
    assert (HAB : (0xE0 + c / 4096 = 0xE0 -> 0xA0 <= 0x80 + c / 64 mod 64) /\
                  (0xE0 + c / 4096 = 0xED -> 0x80 + c / 64 mod 64 <= 0x9F)) by (split; lia).
    set (A := 0xE0 + c / 4096) in *. set (B := 0x80 + c / 64 mod 64) in *.
    set (C := 0x80 + c mod 64) in *. clearbody A B C. clear - HA HB HC HAB. destruct HAB.
    cbn [app from_utf8].
    replace (between 0 A 0x7F) with false by (unfold between; lia).
    replace (between 0xC2 A 0xDF) with false by (unfold between; lia).
    replace (cont C) with true by (unfold cont; lia).
    replace (cont B) with true by (unfold cont; lia).
    destruct (Z.eqb_spec A 0xE0).
    { replace (between 0xA0 B 0xBF) with true by (unfold between; lia). reflexivity. }
    destruct (Z.eqb_spec A 0xED).
    { replace (between 0x80 B 0x9F) with true by (unfold between; lia).
      replace (between 0xE1 A 0xEC || between 0xEE A 0xEF) with false by (unfold between; lia).
      reflexivity. }
    replace (between 0xE1 A 0xEC || between 0xEE A 0xEF) with true by (unfold between; lia).
    reflexivity. }
  assert (HD : 0x80 <= 0x80 + c mod 64 <= 0xBF) by lia.
  assert (HC : 0x80 <= 0x80 + c / 64 mod 64 <= 0xBF) by lia.
  assert (HB : 0x80 <= 0x80 + c / 4096 mod 64 <= 0xBF) by lia.
  assert (HA : 0xF0 <= 0xF0 + c / 262144 <= 0xF4) by lia.
  assert (HAB : (0xF0 + c / 262144 = 0xF0 -> 0x90 <= 0x80 + c / 4096 mod 64) /\
                (0xF0 + c / 262144 = 0xF4 -> 0x80 + c / 4096 mod 64 <= 0x8F)) by (split; lia).
  set (A := 0xF0 + c / 262144) in *. set (B := 0x80 + c / 4096 mod 64) in *.
  set (C := 0x80 + c / 64 mod 64) in *. set (D := 0x80 + c mod 64) in *.
  clearbody A B C D. clear - HA HB HC HD HAB. destruct HAB.
  cbn [app from_utf8].
  replace (between 0 A 0x7F) with false by (unfold between; lia).
  replace (between 0xC2 A 0xDF) with false by (unfold between; lia).
  replace (A =? 0xE0) with false by lia.
  replace (between 0xE1 A 0xEC || between 0xEE A 0xEF) with false by (unfold between; lia).
  replace (A =? 0xED) with false by lia.
  replace (cont C) with true by (unfold cont; lia).
  replace (cont D) with true by (unfold cont; lia).
  replace (cont B) with true by (unfold cont; lia).
  destruct (Z.eqb_spec A 0xF0).
  { replace (between 0x90 B 0xBF) with true by (unfold between; lia). reflexivity. }
  destruct (Z.eqb_spec A 0xF4).
  { replace (between 0xF1 A 0xF3) with false by (unfold between; lia).
    replace (between 0x80 B 0x8F) with true by (unfold between; lia). reflexivity. }
  replace (between 0xF1 A 0xF3) with true by (unfold between; lia). reflexivity.
Qed.

Lemma utf8_char2 a b : 0xC2 <= a <= 0xDF -> 0x80 <= b <= 0xBF ->
  exists c, scalar_value c /\ utf8_char c = [a; b].
Proof.
  intros. exists ((a - 0xC0) * 64 + (b - 0x80)). split; [unfold scalar_value; lia|].
  unfold utf8_char. destruct (Z.ltb_spec ((a - 0xC0) * 64 + (b - 0x80)) 0x80); [lia|].
  destruct (Z.ltb_spec ((a - 0xC0) * 64 + (b - 0x80)) 0x800); [|lia]. repeat f_equal; lia.
Qed.
Lemma utf8_char3 a b c : 0xE0 <= a <= 0xEF -> 0x80 <= b <= 0xBF -> 0x80 <= c <= 0xBF ->
  (a = 0xE0 -> 0xA0 <= b) -> (a = 0xED -> b <= 0x9F) ->
  exists x, scalar_value x /\ utf8_char x = [a; b; c].
Proof.
  intros. set (x := (a - 0xE0) * 4096 + (b - 0x80) * 64 + (c - 0x80)).
  assert (0x800 <= x < 0x10000) by (unfold x; lia).
  exists x. split.
  - unfold scalar_value. destruct (Z.eq_dec a 0xED); [left; unfold x; lia|].
    destruct (Z.ltb_spec a 0xED); [left|right]; unfold x; lia.
  - unfold utf8_char. destruct (Z.ltb_spec x 0x80); [lia|].
    destruct (Z.ltb_spec x 0x800); [lia|]. destruct (Z.ltb_spec x 0x10000); [|lia].
    unfold x. repeat f_equal; lia.
Qed.
Lemma utf8_char4 a b c d : 0xF0 <= a <= 0xF4 -> 0x80 <= b <= 0xBF -> 0x80 <= c <= 0xBF ->
  0x80 <= d <= 0xBF -> (a = 0xF0 -> 0x90 <= b) -> (a = 0xF4 -> b <= 0x8F) ->
  exists x, scalar_value x /\ utf8_char x = [a; b; c; d].
Proof.
  intros. set (x := (a - 0xF0) * 262144 + (b - 0x80) * 4096 + (c - 0x80) * 64 + (d - 0x80)).
  assert (0x10000 <= x < 0x110000) by (unfold x; lia).
  exists x. split; [unfold scalar_value; lia|].
  unfold utf8_char. destruct (Z.ltb_spec x 0x80); [lia|].
  destruct (Z.ltb_spec x 0x800); [lia|]. destruct (Z.ltb_spec x 0x10000); [lia|].
  unfold x. repeat f_equal; lia.
Qed.

Lemma from_utf8_sound n : forall p, (length p <= n)%nat -> from_utf8 p = true -> utf8 p.
Proof.
  induction n as [|n IH]; intros p Hl H.
  { destruct p; [apply utf8_nil|cbn in Hl; lia]. }
  destruct p as [|a p1]; [apply utf8_nil|]. cbn [length] in Hl.
  cbn [from_utf8] in H.
  destruct (between 0 a 0x7F) eqn:E1.
  { unfold between in E1. change (a :: p1) with ([a] ++ p1).
    replace [a] with (utf8_char a) by (unfold utf8_char; destruct (Z.ltb_spec a 0x80); [reflexivity|lia]).
    apply utf8_app_char; [unfold scalar_value; lia|apply IH; [lia|exact H]]. }
  destruct p1 as [|b p2]; [discriminate H|]. cbn [length] in Hl.
  destruct (between 0xC2 a 0xDF) eqn:E2.
  { apply andb_prop in H. destruct H as [Hb H]. unfold between, cont in *.
    destruct (utf8_char2 a b) as (c & Hc & Ec); [lia|lia|].
    change (a :: b :: p2) with ([a; b] ++ p2). rewrite <- Ec.
    apply utf8_app_char; [exact Hc|apply IH; [lia|exact H]]. }
  destruct p2 as [|c p3]; [discriminate H|]. cbn [length] in Hl.
  assert (H3 : 0xE0 <= a <= 0xEF -> (a = 0xE0 -> 0xA0 <= b) -> (a = 0xED -> b <= 0x9F) ->
               0x80 <= b <= 0xBF -> 0x80 <= c <= 0xBF -> from_utf8 p3 = true -> utf8 (a :: b :: c :: p3)).
  { intros. destruct (utf8_char3 a b c) as (x & Hx & Ex); try assumption.
    change (a :: b :: c :: p3) with ([a; b; c] ++ p3). rewrite <- Ex.
    apply utf8_app_char; [exact Hx|apply IH; [lia|assumption]]. }
  destruct (Z.eqb_spec a 0xE0).
  { apply andb_prop in H. destruct H as [Hb H]. unfold between, cont in *. apply H3; try lia; exact H. }
  destruct (between 0xE1 a 0xEC || between 0xEE a 0xEF) eqn:E3.
  { apply andb_prop in H. destruct H as [Hb H]. unfold between, cont in *. apply H3; try lia; exact H. }
  destruct (Z.eqb_spec a 0xED).
  { apply andb_prop in H. destruct H as [Hb H]. unfold between, cont in *. apply H3; try lia; exact H. }
  clear H3. destruct p3 as [|d p4]; [discriminate H|]. cbn [length] in Hl.
  assert (H4 : 0xF0 <= a <= 0xF4 -> (a = 0xF0 -> 0x90 <= b) -> (a = 0xF4 -> b <= 0x8F) ->
               0x80 <= b <= 0xBF -> 0x80 <= c <= 0xBF -> 0x80 <= d <= 0xBF ->
               from_utf8 p4 = true -> utf8 (a :: b :: c :: d :: p4)).
  { intros. destruct (utf8_char4 a b c d) as (x & Hx & Ex); try assumption.
    change (a :: b :: c :: d :: p4) with ([a; b; c; d] ++ p4). rewrite <- Ex.
    apply utf8_app_char; [exact Hx|apply IH; [lia|assumption]]. }
  destruct (Z.eqb_spec a 0xF0).
  { apply andb_prop in H. destruct H as [Hb H]. unfold between, cont in *. apply H4; try lia; exact H. }
  destruct (between 0xF1 a 0xF3) eqn:E4.
  { apply andb_prop in H. destruct H as [Hb H]. unfold between, cont in *. apply H4; try lia; exact H. }
  destruct (Z.eqb_spec a 0xF4); [|discriminate H].
  apply andb_prop in H. destruct H as [Hb H]. unfold between, cont in *. apply H4; try lia; exact H.
Qed.

Theorem from_utf8_iff p : from_utf8 p = true <-> utf8 p.
Proof.
  split; [apply (from_utf8_sound (length p)); lia|].
  intros (cs & H & ->). induction H as [|c cs Hc H IH]; [reflexivity|].
  cbn [map concat]. rewrite from_utf8_char; assumption.
Qed.
Lemma utf8_bytes_ok p : utf8 p -> bytes_ok p.
Proof.
  intros (cs & H & ->). induction H as [|c cs Hc H IH]; [apply bytes_ok_nil|].
  cbn [map concat]. apply bytes_ok_app. split; [|exact IH]. unfold utf8_char, scalar_value in *.
  destruct (Z.ltb_spec c 0x80); [repeat constructor; lia|].
  destruct (Z.ltb_spec c 0x800); [repeat constructor; lia|].
  destruct (Z.ltb_spec c 0x10000); repeat constructor; lia.
Qed.
Lemma utf8_app p q : utf8 p -> utf8 q -> utf8 (p ++ q).
Proof.
  intros (a & Ha & ->) (b & Hb & ->). exists (a ++ b).
  split; [apply Forall_app; split; assumption|]. rewrite map_app, concat_app. reflexivity.
Qed.
