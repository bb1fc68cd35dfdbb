(** Machine integers, byte strings and Go-style indexing/slicing.
    Nothing in this file is specific to polyglot. *)
From Coq Require Export List ZArith Lia Bool.
From Coq Require Export ZifyBool ZifyNat.
Export ListNotations.
Open Scope Z_scope.

Ltac Zify.zify_post_hook ::= Z.div_mod_to_equations.

Definition bytes := list Z.
Definition isbyte (c : Z) : Prop := 0 <= c < 256.
Definition bytes_ok (b : bytes) : Prop := Forall isbyte b.

(** Fixed-width integers: the wrap is explicit. *)
Definition u8  (x : Z) : Z := x mod 2 ^ 8.
Definition u16 (x : Z) : Z := x mod 2 ^ 16.
Definition u32 (x : Z) : Z := x mod 2 ^ 32.
Definition u64 (x : Z) : Z := x mod 2 ^ 64.
(** two's complement reading of the low [w] bits *)
Definition sw (w x : Z) : Z :=
  if x mod 2 ^ w <? 2 ^ (w - 1) then x mod 2 ^ w else x mod 2 ^ w - 2 ^ w.
Definition s32 (x : Z) : Z := sw 32 x.
Definition s64 (x : Z) : Z := sw 64 x.

(** Lists indexed by [Z]. *)
Definition zlen {A} (l : list A) : Z := Z.of_nat (length l).
Definition ztake {A} (n : Z) (l : list A) : list A := firstn (Z.to_nat n) l.
Definition zdrop {A} (n : Z) (l : list A) : list A := skipn (Z.to_nat n) l.

(** A computation that may panic (Go run-time panic / JS exception). *)
Inductive res (A : Type) : Type :=
| Ok (a : A)
| Panic.
Arguments Ok {A} a.
Arguments Panic {A}.

Definition bind {A B} (x : res A) (f : A -> res B) : res B :=
  match x with Ok a => f a | Panic => Panic end.
Notation "'let!' x ':=' e 'in' k" := (bind e (fun x => k))
  (at level 200, x pattern, e at level 100, k at level 200).

(** Go [b[i]]: panics unless [0 <= i < len(b)]. *)
Definition index (b : bytes) (i : Z) : res Z :=
  if i <? 0 then Panic
  else match nth_error b (Z.to_nat i) with Some c => Ok c | None => Panic end.
(** Go [b[i:]]: panics unless [0 <= i <= len(b)]. *)
Definition slice_from (b : bytes) (i : Z) : res bytes :=
  if (i <? 0) || (zlen b <? i) then Panic else Ok (zdrop i b).
(** Go [b[:i]] for a slice whose capacity is its length: panics unless [0 <= i <= len(b)]. *)
Definition slice_to (b : bytes) (i : Z) : res bytes :=
  if (i <? 0) || (zlen b <? i) then Panic else Ok (ztake i b).
(** Go [b[i:j]] likewise. *)
Definition slice (b : bytes) (i j : Z) : res bytes :=
  if (i <? 0) || (j <? i) || (zlen b <? j) then Panic else Ok (ztake (j - i) (zdrop i b)).

(** overwrite [l] from position [i] with [p] (used only within bounds) *)
Definition splice {A} (l : list A) (i : Z) (p : list A) : list A :=
  ztake i l ++ p ++ zdrop (i + zlen p) l.

(** ** Lemmas *)

Lemma zlen_nil {A} : zlen (@nil A) = 0.
Proof. reflexivity. Qed.
Lemma zlen_cons {A} (x : A) l : zlen (x :: l) = 1 + zlen l.
Proof. unfold zlen; cbn [length]; lia. Qed.
Lemma zlen_app {A} (l1 l2 : list A) : zlen (l1 ++ l2) = zlen l1 + zlen l2.
Proof. unfold zlen; rewrite app_length; lia. Qed.
Lemma zlen_nonneg {A} (l : list A) : 0 <= zlen l.
Proof. unfold zlen; lia. Qed.
Lemma zlen_repeat {A} (x : A) n : zlen (repeat x n) = Z.of_nat n.
Proof. unfold zlen; rewrite repeat_length; reflexivity. Qed.
Lemma zlen_0_nil {A} (l : list A) : zlen l = 0 -> l = [].
Proof. destruct l; [reflexivity|]. rewrite zlen_cons. pose proof (zlen_nonneg l). lia. Qed.

Lemma zlen_ztake {A} n (l : list A) : 0 <= n <= zlen l -> zlen (ztake n l) = n.
Proof. unfold zlen, ztake; intros; rewrite firstn_length; lia. Qed.
Lemma zlen_zdrop {A} n (l : list A) : 0 <= n <= zlen l -> zlen (zdrop n l) = zlen l - n.
Proof. unfold zlen, zdrop; intros; rewrite skipn_length; lia. Qed.
Lemma ztake_zdrop {A} n (l : list A) : ztake n l ++ zdrop n l = l.
Proof. apply firstn_skipn. Qed.
Lemma ztake_app_exact {A} (l1 l2 : list A) : ztake (zlen l1) (l1 ++ l2) = l1.
Proof.
  unfold ztake, zlen. rewrite Nat2Z.id, firstn_app, Nat.sub_diag, firstn_all.
  cbn [firstn]. apply app_nil_r.
Qed.
Lemma zdrop_app_exact {A} (l1 l2 : list A) : zdrop (zlen l1) (l1 ++ l2) = l2.
Proof.
  unfold zdrop, zlen. rewrite Nat2Z.id, skipn_app, Nat.sub_diag, skipn_all.
  reflexivity.
Qed.
Lemma zdrop_0 {A} (l : list A) : zdrop 0 l = l.
Proof. reflexivity. Qed.
Lemma ztake_0 {A} (l : list A) : ztake 0 l = [].
Proof. reflexivity. Qed.
Lemma ztake_all {A} n (l : list A) : zlen l <= n -> ztake n l = l.
Proof. unfold ztake, zlen; intros; apply firstn_all2; lia. Qed.
Lemma zdrop_all {A} n (l : list A) : zlen l <= n -> zdrop n l = [].
Proof. unfold zdrop, zlen; intros; apply skipn_all2; lia. Qed.
Lemma zdrop_zdrop {A} a b (l : list A) : 0 <= a -> 0 <= b -> zdrop a (zdrop b l) = zdrop (a + b) l.
Proof.
  unfold zdrop; intros. replace (Z.to_nat (a + b)) with (Z.to_nat b + Z.to_nat a)%nat by lia.
  revert l; induction (Z.to_nat b) as [|m IH]; intros l; [reflexivity|].
  destruct l; [destruct (Z.to_nat a); reflexivity|]. cbn [skipn Nat.add]. apply IH.
Qed.
Lemma ztake_ztake {A} a b (l : list A) : 0 <= a <= b -> ztake a (ztake b l) = ztake a l.
Proof. unfold ztake; intros; rewrite firstn_firstn; f_equal; lia. Qed.
Lemma ztake_app1 {A} n (l1 l2 : list A) : n <= zlen l1 -> ztake n (l1 ++ l2) = ztake n l1.
Proof.
  unfold ztake, zlen; intros H. rewrite firstn_app.
  replace (Z.to_nat n - length l1)%nat with 0%nat by lia. apply app_nil_r.
Qed.
Lemma zdrop_app1 {A} n (l1 l2 : list A) : n <= zlen l1 -> zdrop n (l1 ++ l2) = zdrop n l1 ++ l2.
Proof.
  unfold zdrop, zlen; intros H. rewrite skipn_app.
  replace (Z.to_nat n - length l1)%nat with 0%nat by lia. reflexivity.
Qed.
Lemma ztake_app2 {A} n (l1 l2 : list A) :
  zlen l1 <= n -> ztake n (l1 ++ l2) = l1 ++ ztake (n - zlen l1) l2.
Proof.
  unfold ztake, zlen; intros H. rewrite firstn_app.
  rewrite firstn_all2 by lia. do 2 f_equal. lia.
Qed.
Lemma zdrop_app2 {A} n (l1 l2 : list A) :
  zlen l1 <= n -> zdrop n (l1 ++ l2) = zdrop (n - zlen l1) l2.
Proof.
  unfold zdrop, zlen; intros H. rewrite skipn_app.
  rewrite skipn_all2 by lia. cbn [app]. f_equal. lia.
Qed.
Lemma zdrop_cons {A} n (x : A) l : 0 < n -> zdrop n (x :: l) = zdrop (n - 1) l.
Proof.
  unfold zdrop; intros. replace (Z.to_nat n) with (S (Z.to_nat (n - 1))) by lia. reflexivity.
Qed.
Lemma ztake_cons {A} n (x : A) l : 0 < n -> ztake n (x :: l) = x :: ztake (n - 1) l.
Proof.
  unfold ztake; intros. replace (Z.to_nat n) with (S (Z.to_nat (n - 1))) by lia. reflexivity.
Qed.

Lemma zlen_splice {A} (l : list A) i p :
  0 <= i -> i + zlen p <= zlen l -> zlen (splice l i p) = zlen l.
Proof.
  intros Hi Hl. pose proof (zlen_nonneg p). unfold splice.
  rewrite !zlen_app, zlen_ztake, zlen_zdrop by lia. lia.
Qed.
Lemma ztake_splice_le {A} (l : list A) i p n :
  0 <= n <= i -> i <= zlen l -> ztake n (splice l i p) = ztake n l.
Proof.
  intros Hn Hi. unfold splice.
  rewrite ztake_app1 by (rewrite zlen_ztake; lia). apply ztake_ztake; lia.
Qed.
Lemma ztake_splice_end {A} (l : list A) i p :
  0 <= i -> i <= zlen l -> ztake (i + zlen p) (splice l i p) = ztake i l ++ p.
Proof.
  intros Hi Hl. unfold splice. rewrite app_assoc.
  replace (i + zlen p) with (zlen (ztake i l ++ p)) by (rewrite zlen_app, zlen_ztake; lia).
  apply ztake_app_exact.
Qed.
Lemma zdrop_splice_ge {A} (l : list A) i p n :
  0 <= i -> i + zlen p <= n -> i + zlen p <= zlen l -> zdrop n (splice l i p) = zdrop n l.
Proof.
  intros Hi Hn Hl. pose proof (zlen_nonneg p). unfold splice. rewrite app_assoc.
  rewrite zdrop_app2 by (rewrite zlen_app, zlen_ztake; lia).
  rewrite zlen_app, zlen_ztake by lia.
  rewrite zdrop_zdrop by lia. f_equal; lia.
Qed.
Lemma splice_nil {A} (l : list A) i : splice l i [] = l.
Proof. unfold splice. rewrite zlen_nil, Z.add_0_r. apply ztake_zdrop. Qed.
Lemma splice_splice_app {A} (l : list A) i p q :
  0 <= i -> i + zlen p <= zlen l ->
  splice (splice l i p) (i + zlen p) q = splice l i (p ++ q).
Proof.
  intros Hi Hl. pose proof (zlen_nonneg p). pose proof (zlen_nonneg q).
  unfold splice at 1. rewrite ztake_splice_end by lia.
  unfold splice at 2. rewrite <- !app_assoc. do 3 f_equal.
  rewrite zlen_app.
  unfold splice. rewrite app_assoc, zdrop_app2 by (rewrite zlen_app, zlen_ztake; lia).
  rewrite zlen_app, zlen_ztake by lia. rewrite zdrop_zdrop by lia. f_equal; lia.
Qed.

Lemma bytes_ok_app a b : bytes_ok (a ++ b) <-> bytes_ok a /\ bytes_ok b.
Proof. apply Forall_app. Qed.
Lemma bytes_ok_cons a b : bytes_ok (a :: b) <-> isbyte a /\ bytes_ok b.
Proof. unfold bytes_ok; split; intros H; [inversion H; auto|constructor; tauto]. Qed.
Lemma bytes_ok_nil : bytes_ok [].
Proof. constructor. Qed.
Lemma bytes_ok_ztake n b : bytes_ok b -> bytes_ok (ztake n b).
Proof. intros H. rewrite <- (ztake_zdrop n b) in H. apply bytes_ok_app in H; tauto. Qed.
Lemma bytes_ok_zdrop n b : bytes_ok b -> bytes_ok (zdrop n b).
Proof. intros H. rewrite <- (ztake_zdrop n b) in H. apply bytes_ok_app in H; tauto. Qed.

(** indexing *)
Lemma index_app1 b c r i : i = zlen b -> index (b ++ c :: r) i = Ok c.
Proof.
  intros ->. unfold index, zlen. destruct (Z.ltb_spec (Z.of_nat (length b)) 0); [lia|].
  rewrite Nat2Z.id, nth_error_app2, Nat.sub_diag by lia. reflexivity.
Qed.
Lemma index_end b i : i >= zlen b -> index b i = Panic.
Proof.
  unfold index, zlen; intros. destruct (Z.ltb_spec i 0); [reflexivity|].
  destruct (nth_error b (Z.to_nat i)) eqn:E; [|reflexivity].
  assert (nth_error b (Z.to_nat i) <> None) as H' by congruence.
  apply nth_error_Some in H'. lia.
Qed.
Lemma slice_from_ok b i : 0 <= i <= zlen b -> slice_from b i = Ok (zdrop i b).
Proof.
  intros. unfold slice_from. destruct (Z.ltb_spec i 0); [lia|].
  destruct (Z.ltb_spec (zlen b) i); [lia|reflexivity].
Qed.
Lemma slice_to_ok b i : 0 <= i <= zlen b -> slice_to b i = Ok (ztake i b).
Proof.
  intros. unfold slice_to. destruct (Z.ltb_spec i 0); [lia|].
  destruct (Z.ltb_spec (zlen b) i); [lia|reflexivity].
Qed.
Lemma slice_from_panic b i : i < 0 \/ zlen b < i -> slice_from b i = Panic.
Proof.
  intros. unfold slice_from. destruct (Z.ltb_spec i 0); [reflexivity|].
  destruct (Z.ltb_spec (zlen b) i); [reflexivity|lia].
Qed.
Lemma slice_to_panic b i : i < 0 \/ zlen b < i -> slice_to b i = Panic.
Proof.
  intros. unfold slice_to. destruct (Z.ltb_spec i 0); [reflexivity|].
  destruct (Z.ltb_spec (zlen b) i); [reflexivity|lia].
Qed.
Lemma slice_ok b i j : 0 <= i <= j -> j <= zlen b -> slice b i j = Ok (ztake (j - i) (zdrop i b)).
Proof.
  intros. unfold slice. destruct (Z.ltb_spec i 0); [lia|].
  destruct (Z.ltb_spec j i); [lia|].
  destruct (Z.ltb_spec (zlen b) j); [lia|reflexivity].
Qed.

(** bit operations *)
Lemma land_127 c : Z.land c 127 = c mod 128.
Proof. change 127 with (Z.ones 7). rewrite Z.land_ones by lia. reflexivity. Qed.
Lemma shiftr_7 v : Z.shiftr v 7 = v / 128.
Proof. rewrite Z.shiftr_div_pow2 by lia. reflexivity. Qed.

(** [x] has only bits below [s], [y] only bits at or above [s]: or is plus *)
Lemma land_disjoint x y s : 0 <= s -> 0 <= x < 2 ^ s -> Z.land x (y * 2 ^ s) = 0.
Proof.
  intros Hs Hx. apply Z.bits_inj'. intros n Hn. rewrite Z.land_spec, Z.bits_0.
  rewrite <- Z.shiftl_mul_pow2 by lia. destruct (Z.ltb_spec n s).
  - rewrite Z.shiftl_spec_low by lia. apply andb_false_r.
  - rewrite <- (Z.mod_small x (2 ^ s)) by lia. rewrite Z.mod_pow2_bits_high by lia. reflexivity.
Qed.
Lemma lor_disjoint x y s : 0 <= s -> 0 <= x < 2 ^ s -> Z.lor x (y * 2 ^ s) = x + y * 2 ^ s.
Proof.
  intros Hs Hx. rewrite <- Z.lxor_lor by (apply land_disjoint; assumption).
  symmetry. apply Z.add_nocarry_lxor. apply land_disjoint; assumption.
Qed.
(** accumulate digit [c] at bit position [s] in a [w]-bit register *)
Lemma lor_shift_wrap w x c s :
  0 <= s <= w -> 0 <= x < 2 ^ s -> 0 <= c ->
  Z.lor x (Z.shiftl c s mod 2 ^ w) = (x + c * 2 ^ s) mod 2 ^ w.
Proof.
  intros Hs Hx Hc. rewrite Z.shiftl_mul_pow2 by lia.
  replace w with ((w - s) + s) by lia. rewrite Z.pow_add_r by lia.
  assert (H2s : 0 < 2 ^ s) by (apply Z.pow_pos_nonneg; lia).
  assert (H2w : 0 < 2 ^ (w - s)) by (apply Z.pow_pos_nonneg; lia).
  rewrite Zmult_mod_distr_r, lor_disjoint by lia.
  rewrite (Z.mul_comm (2 ^ (w - s)) (2 ^ s)), (Z.rem_mul_r _ (2 ^ s) (2 ^ (w - s))) by lia.
  rewrite Z_mod_plus_full, Z.div_add, (Z.mod_small x), (Z.div_small x) by lia.
  rewrite Z.add_0_l. ring.
Qed.
Lemma lor_128 v : 0 <= v < 128 -> Z.lor v 128 = v + 128.
Proof. intros. change 128 with (1 * 2 ^ 7) at 1. rewrite lor_disjoint; lia. Qed.
Lemma lor_byte_128 v : 0 <= v -> Z.lor (u8 v) 128 = v mod 128 + 128.
Proof.
  intros Hv. unfold u8. change (2 ^ 8) with 256.
  assert (H : v mod 256 = v mod 128 + (v / 128 mod 2) * 128) by lia.
  rewrite H. assert (Hp : v / 128 mod 2 = 0 \/ v / 128 mod 2 = 1) by lia.
  destruct Hp as [-> | ->].
  - rewrite Z.add_0_r, lor_128 by lia. reflexivity.
  - rewrite Z.mul_1_l. rewrite <- (lor_128 (v mod 128)) by lia.
    rewrite <- Z.lor_assoc. reflexivity.
Qed.
Lemma u8_small v : 0 <= v < 256 -> u8 v = v.
Proof. intros. apply Z.mod_small. exact H. Qed.
Lemma u32_small v : 0 <= v < 2 ^ 32 -> u32 v = v.
Proof. intros. apply Z.mod_small. exact H. Qed.
Lemma sw_range w x : 0 < w -> - 2 ^ (w - 1) <= sw w x < 2 ^ (w - 1).
Proof.
  intros Hw. unfold sw.
  assert (2 ^ w = 2 * 2 ^ (w - 1)) as E by (rewrite <- Z.pow_succ_r by lia; f_equal; lia).
  assert (0 < 2 ^ (w - 1)) by (apply Z.pow_pos_nonneg; lia).
  pose proof (Z.mod_pos_bound x (2 ^ w) ltac:(lia)).
  destruct (Z.ltb_spec (x mod 2 ^ w) (2 ^ (w - 1))); lia.
Qed.
Lemma sw_small w x : 0 < w -> - 2 ^ (w - 1) <= x < 2 ^ (w - 1) -> sw w x = x.
Proof.
  intros Hw Hx. unfold sw.
  assert (2 ^ w = 2 * 2 ^ (w - 1)) as E by (rewrite <- Z.pow_succ_r by lia; f_equal; lia).
  assert (0 < 2 ^ (w - 1)) by (apply Z.pow_pos_nonneg; lia).
  destruct (Z.ltb_spec x 0) as [Hn|Hn].
  - assert (x mod 2 ^ w = x + 2 ^ w) as ->
      by (rewrite <- (Z.mod_add x 1) by lia; rewrite Z.mod_small; lia).
    destruct (Z.ltb_spec (x + 2 ^ w) (2 ^ (w - 1))); lia.
  - rewrite Z.mod_small by lia. destruct (Z.ltb_spec x (2 ^ (w - 1))); lia.
Qed.
Lemma s32_small x : - 2 ^ 31 <= x < 2 ^ 31 -> s32 x = x.
Proof. intros. apply sw_small; [lia|exact H]. Qed.
Lemma s64_small x : - 2 ^ 63 <= x < 2 ^ 63 -> s64 x = x.
Proof. intros. apply sw_small; [lia|exact H]. Qed.
