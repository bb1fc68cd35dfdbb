(** Ill-formed names, FirstLowerCase outside ASCII, AppendString and Counter. *)
From Verif Require Import Base Utf8 NameModel NameSpec NameThms NameThms3.

(** no character starts here *)
Lemma runes_bad a t : isbyte a -> bytes_ok t -> (forall r u, scalar_value r -> a :: t <> utf8_char r ++ u) ->
  runes (a :: t) = 0xFFFD :: runes t.
Proof.
  intros Ha Ht H. unfold isbyte in Ha. cbn [runes]. destruct (Z.ltb_spec a 128) as [L|L].
  { exfalso. apply (H a t); [unfold scalar_value; lia|]. unfold utf8_char. destruct (Z.ltb_spec a 128); [reflexivity|lia]. }
  destruct t as [|b t2]; [reflexivity|]. inversion Ht as [|? ? Hb Ht2]; subst. unfold isbyte in Hb.
  destruct (between 0xC2 a 0xDF && cont b) eqn:E2.
  { exfalso. apply andb_prop in E2. unfold between, cont in E2. destruct (utf8_char2 a b) as (x & Hx & Ex); [lia|lia|].
    apply (H x t2 Hx). rewrite Ex. reflexivity. }
  destruct t2 as [|c t3]; [reflexivity|]. inversion Ht2 as [|? ? Hc Ht3]; subst. unfold isbyte in Hc.
  destruct (between 0xE0 a 0xEF && between (if a =? 0xE0 then 0xA0 else 0x80) b (if a =? 0xED then 0x9F else 0xBF) && cont c) eqn:E3.
  { exfalso. apply andb_prop in E3. destruct E3 as [E3 Ec]. apply andb_prop in E3. unfold between, cont in *.
    destruct (utf8_char3 a b c) as (x & Hx & Ex);
      [lia|destruct (Z.eqb_spec a 0xE0), (Z.eqb_spec a 0xED); lia|lia|intros ->; cbn in E3; lia|intros ->; cbn in E3; lia|].
    apply (H x t3 Hx). rewrite Ex. reflexivity. }
  destruct t3 as [|d t4]; [reflexivity|]. inversion Ht3 as [|? ? Hd Ht4]; subst. unfold isbyte in Hd.
  destruct (between 0xF0 a 0xF4 && between (if a =? 0xF0 then 0x90 else 0x80) b (if a =? 0xF4 then 0x8F else 0xBF) && cont c && cont d) eqn:E4.
  { exfalso. apply andb_prop in E4. destruct E4 as [E4 Ed]. apply andb_prop in E4. destruct E4 as [E4 Ec]. apply andb_prop in E4. unfold between, cont in *.
    destruct (utf8_char4 a b c d) as (x & Hx & Ex);
      [lia|destruct (Z.eqb_spec a 0xF0), (Z.eqb_spec a 0xF4); lia|lia|lia|intros ->; cbn in E4; lia|intros ->; cbn in E4; lia|].
    apply (H x t4 Hx). rewrite Ex. reflexivity. }
  reflexivity.
Qed.

Lemma first_lower_char other c t : scalar_value c ->
  FirstLowerCase other (utf8_char c ++ t) = utf8_char (ToLower other c) ++ t.
Proof.
  intros Hc. unfold FirstLowerCase. rewrite runes_char by exact Hc. f_equal. unfold first_width.
  destruct (Z.ltb_spec c 0x80).
  - assert (E : utf8_char c = [c]) by (unfold utf8_char; rewrite (proj2 (Z.ltb_lt c 128)) by lia; reflexivity).
    rewrite E. reflexivity.
  - rewrite ztake_app_exact. destruct (list_eq_dec Z.eq_dec (utf8_char c) (utf8_char c)) as [_|N]; [|congruence].
    apply zdrop_app_exact.
Qed.
Lemma first_lower_bad other a t : isbyte a -> bytes_ok t -> (forall r u, scalar_value r -> a :: t <> utf8_char r ++ u) ->
  FirstLowerCase other (a :: t) = utf8_char (other 0xFFFD) ++ t.
Proof.
  intros Ha Ht H. unfold FirstLowerCase. rewrite (runes_bad a t Ha Ht H).
  change (ToLower other 0xFFFD) with (other 0xFFFD). f_equal. unfold first_width. cbn [Z.ltb Z.compare].
  change (0xFFFD <? 0x80) with false. cbv iota.
  destruct (list_eq_dec Z.eq_dec (ztake (zlen (utf8_char 0xFFFD)) (a :: t)) (utf8_char 0xFFFD)) as [E|_]; [|reflexivity].
  exfalso. apply (H 0xFFFD (zdrop (zlen (utf8_char 0xFFFD)) (a :: t))); [unfold scalar_value; lia|].
  rewrite <- E at 1. symmetry. unfold ztake, zdrop. apply firstn_skipn.
Qed.
Lemma append_string l : AppendString l = concat l.
Proof.
  unfold AppendString. assert (G : forall (l : list bytes) (b : bytes), fold_left (fun b s => b ++ s) l b = b ++ concat l).
  { induction l0 as [|x l0 IH]; intros b; cbn [fold_left concat]; [rewrite app_nil_r; reflexivity|]. rewrite IH, <- app_assoc. reflexivity. }
  apply (G l []).
Qed.
Lemma counter_counts W n : forall i, (W = 32 \/ W = 64) -> 0 <= i -> i + Z.of_nat n < 2 ^ (W - 1) ->
  counts W n i = map (fun k => i + 1 + Z.of_nat k) (seq 0 n).
Proof.
  induction n as [|n IH]; intros i HW Hi Hn; [reflexivity|]. cbn [counts]. unfold Counter.
  assert (E : sw W (i + 1) = i + 1).
  { unfold sw. destruct HW as [-> | ->]; cbn [Z.sub Z.pow Z.pow_pos] in *; rewrite Z.mod_small by lia; destruct (_ <? _) eqn:E; lia. }
  rewrite E. cbn [seq map]. f_equal; [lia|]. rewrite IH by (auto; lia). rewrite <- seq_shift, map_map. apply map_ext. intros k. lia.
Qed.
