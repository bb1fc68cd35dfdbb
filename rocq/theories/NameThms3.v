(** SnakeCase and the lower-casing helpers. *)
From Coq Require Import String.
From Verif Require Import Base Utf8 NameModel NameSpec NameThms NameThms2.

Lemma utf8_char_nonempty c : utf8_char c <> [].
Proof. unfold utf8_char. destruct (c <? 128), (c <? 2048), (c <? 65536); discriminate. Qed.
Definition text (cs : list Z) : bytes := concat (map utf8_char cs).
Lemma text_app a b : text (a ++ b) = text a ++ text b.
Proof. unfold text. rewrite map_app, concat_app. reflexivity. Qed.
Lemma zlen_pos {A} (l : list A) : l <> [] -> (0 <? zlen l) = true.
Proof. destruct l; [congruence|]. intros _. rewrite zlen_cons. pose proof (zlen_nonneg l). lia. Qed.
Lemma snake_loop_ok cs : forall prev b consc,
  (prev = None -> b = []) -> (forall p, prev = Some p -> b <> [] /\ consc = is_upper p) ->
  snake_loop cs b consc = b ++ text (snake_from prev cs).
Proof.
  induction cs as [|c cs IH]; intros prev b consc H1 H2.
  - cbn. rewrite app_nil_r. reflexivity.
  - cbn [snake_loop snake_from]. rewrite text_app. unfold snake_piece. destruct (is_upper c) eqn:E.
    + replace (c - 65 + 97) with (c + 32) by lia.
      assert (NE : forall l : bytes, l ++ utf8_char (c + 32) <> []) by (intros l; destruct l; [apply utf8_char_nonempty|discriminate]).
      rewrite (IH (Some c)); [|discriminate|intros p Hp; injection Hp as <-; split; [apply NE|rewrite E; reflexivity]].
      destruct prev as [p|].
      * destruct (H2 p eq_refl) as [Hb ->]. rewrite (zlen_pos b Hb). destruct (is_upper p); cbn [andb negb].
        -- unfold text at 2. cbn [map concat]. rewrite app_nil_r, <- !app_assoc. reflexivity.
        -- unfold text at 2. cbn [map concat]. rewrite app_nil_r, <- !app_assoc. reflexivity.
      * rewrite (H1 eq_refl). cbn [andb app]. change (0 <? zlen (@nil Z)) with false. cbn [andb app].
        unfold text at 2. cbn [map concat]. rewrite app_nil_r. reflexivity.
    + rewrite (IH (Some c)); [|discriminate|].
      * unfold text at 2. cbn [map concat]. rewrite app_nil_r, <- !app_assoc. reflexivity.
      * intros p Hp. injection Hp as <-. split; [|rewrite E; reflexivity].
        destruct b; [apply utf8_char_nonempty|discriminate].
Qed.
Theorem snake_exact s : SnakeCase s = text (snake_spec (runes s)).
Proof. unfold SnakeCase, snake_spec. rewrite (snake_loop_ok _ None); [reflexivity|reflexivity|discriminate]. Qed.

(** runes and UTF-8 *)
Lemma runes_ascii s : Forall (fun c => 0 <= c < 128) s -> runes s = s.
Proof.
  induction 1 as [|c s Hc _ IH]; [reflexivity|]. cbn [runes]. destruct (Z.ltb_spec c 128); [|lia]. rewrite IH. reflexivity.
Qed.
Lemma text_ascii s : Forall (fun c => 0 <= c < 128) s -> text s = s.
Proof.
  induction 1 as [|c s Hc _ IH]; [reflexivity|]. unfold text in *. cbn [map concat]. rewrite IH. unfold utf8_char.
  destruct (Z.ltb_spec c 128); [reflexivity|lia].
Qed.
Lemma runes_char c p : scalar_value c -> runes (utf8_char c ++ p) = c :: runes p.
Proof.
  intros Hc. unfold scalar_value in Hc. unfold utf8_char.
  destruct (Z.ltb_spec c 0x80).
  { cbn [app runes]. destruct (Z.ltb_spec c 128); [reflexivity|lia]. }
  destruct (Z.ltb_spec c 0x800).
  { assert (E : (0xC0 + c / 64 - 0xC0) * 64 + (0x80 + c mod 64 - 0x80) = c) by lia.
    assert (HA : 0xC2 <= 0xC0 + c / 64 <= 0xDF) by lia. assert (HB : 0x80 <= 0x80 + c mod 64 <= 0xBF) by lia.
    set (A := 0xC0 + c / 64) in *. set (B := 0x80 + c mod 64) in *. clearbody A B.
    cbn [app runes]. replace (A <? 0x80) with false by lia.
    replace (between 0xC2 A 0xDF) with true by (unfold between; lia). replace (cont B) with true by (unfold cont; lia).
    cbn [andb]. rewrite E. reflexivity. }
  destruct (Z.ltb_spec c 0x10000).
  { assert (E : (0xE0 + c / 4096 - 0xE0) * 4096 + (0x80 + c / 64 mod 64 - 0x80) * 64 + (0x80 + c mod 64 - 0x80) = c) by lia.
    assert (HC : 0x80 <= 0x80 + c mod 64 <= 0xBF) by lia.
    assert (HB : 0x80 <= 0x80 + c / 64 mod 64 <= 0xBF) by lia.
    assert (HA : 0xE0 <= 0xE0 + c / 4096 <= 0xEF) by lia.
    assert (HAB : (0xE0 + c / 4096 = 0xE0 -> 0xA0 <= 0x80 + c / 64 mod 64) /\
                  (0xE0 + c / 4096 = 0xED -> 0x80 + c / 64 mod 64 <= 0x9F)) by (split; lia).
    set (A := 0xE0 + c / 4096) in *. set (B := 0x80 + c / 64 mod 64) in *.
    set (C := 0x80 + c mod 64) in *. clearbody A B C. destruct HAB as [HAB1 HAB2].
    cbn [app runes]. replace (A <? 0x80) with false by lia.
    replace (between 0xC2 A 0xDF) with false by (unfold between; lia). cbn [andb].
    replace (between 0xE0 A 0xEF) with true by (unfold between; lia).
    replace (between (if A =? 0xE0 then 0xA0 else 0x80) B (if A =? 0xED then 0x9F else 0xBF)) with true.
    2:{ unfold between. destruct (Z.eqb_spec A 0xE0), (Z.eqb_spec A 0xED); lia. }
    replace (cont C) with true by (unfold cont; lia). cbn [andb]. rewrite E. reflexivity. }
  assert (E : (0xF0 + c / 262144 - 0xF0) * 262144 + (0x80 + c / 4096 mod 64 - 0x80) * 4096 + (0x80 + c / 64 mod 64 - 0x80) * 64 + (0x80 + c mod 64 - 0x80) = c) by lia.
  assert (HD : 0x80 <= 0x80 + c mod 64 <= 0xBF) by lia.
  assert (HC : 0x80 <= 0x80 + c / 64 mod 64 <= 0xBF) by lia.
  assert (HB : 0x80 <= 0x80 + c / 4096 mod 64 <= 0xBF) by lia.
  assert (HA : 0xF0 <= 0xF0 + c / 262144 <= 0xF4) by lia.
  assert (HAB : (0xF0 + c / 262144 = 0xF0 -> 0x90 <= 0x80 + c / 4096 mod 64) /\
                (0xF0 + c / 262144 = 0xF4 -> 0x80 + c / 4096 mod 64 <= 0x8F)) by (split; lia).
  set (A := 0xF0 + c / 262144) in *. set (B := 0x80 + c / 4096 mod 64) in *.
  set (C := 0x80 + c / 64 mod 64) in *. set (D := 0x80 + c mod 64) in *.
  clearbody A B C D. destruct HAB as [HAB1 HAB2].
  cbn [app runes]. replace (A <? 0x80) with false by lia.
  replace (between 0xC2 A 0xDF) with false by (unfold between; lia). cbn [andb].
  replace (between 0xE0 A 0xEF) with false by (unfold between; lia). cbn [andb].
  replace (between 0xF0 A 0xF4) with true by (unfold between; lia).
  replace (between (if A =? 0xF0 then 0x90 else 0x80) B (if A =? 0xF4 then 0x8F else 0xBF)) with true.
  2:{ unfold between. destruct (Z.eqb_spec A 0xF0), (Z.eqb_spec A 0xF4); lia. }
  replace (cont C) with true by (unfold cont; lia). replace (cont D) with true by (unfold cont; lia). cbn [andb]. rewrite E. reflexivity.
Qed.
Theorem runes_text cs : Forall scalar_value cs -> runes (text cs) = cs.
Proof.
  induction 1 as [|c cs Hc _ IH]; [reflexivity|]. unfold text in *. cbn [map concat]. rewrite runes_char by exact Hc.
  rewrite IH. reflexivity.
Qed.
Lemma runes_scalar n : forall s, (length s <= n)%nat -> bytes_ok s -> Forall scalar_value (runes s).
Proof.
  assert (F : scalar_value 0xFFFD) by (unfold scalar_value; lia).
  induction n as [|n IH]; intros s Hl Hb; [destruct s; [constructor|cbn in Hl; lia]|].
  destruct s as [|a s1]; [constructor|]. cbn [length] in Hl. inversion Hb as [|? ? Ha Hb1]; subst. unfold isbyte in Ha. cbn [runes].
  destruct (Z.ltb_spec a 0x80); [constructor; [unfold scalar_value; lia|apply IH; [lia|exact Hb1]]|].
  destruct s1 as [|b s2]; [apply Forall_cons; [exact F|apply Forall_nil]|]. cbn [length] in Hl. inversion Hb1 as [|? ? Hb' Hb2]; subst. unfold isbyte in Hb'.
  assert (K : Forall scalar_value (0xFFFD :: runes (b :: s2))) by (constructor; [exact F|apply IH; [cbn [length]; lia|exact Hb1]]).
  destruct (between 0xC2 a 0xDF && cont b) eqn:E1.
  { constructor; [unfold scalar_value, between, cont in *; lia|apply IH; [lia|exact Hb2]]. }
  destruct s2 as [|c s3]; [exact K|]. cbn [length] in Hl. inversion Hb2 as [|? ? Hc Hb3]; subst. unfold isbyte in Hc.
  destruct (between 0xE0 a 0xEF && between (if a =? 0xE0 then 0xA0 else 0x80) b (if a =? 0xED then 0x9F else 0xBF) && cont c) eqn:E2.
  { constructor; [|apply IH; [lia|exact Hb3]]. unfold scalar_value, between, cont in *.
    destruct (Z.eqb_spec a 0xE0), (Z.eqb_spec a 0xED); lia. }
  destruct s3 as [|d s4]; [exact K|]. cbn [length] in Hl. inversion Hb3 as [|? ? Hd Hb4]; subst. unfold isbyte in Hd.
  destruct (between 0xF0 a 0xF4 && between (if a =? 0xF0 then 0x90 else 0x80) b (if a =? 0xF4 then 0x8F else 0xBF) && cont c && cont d) eqn:E3; [|exact K].
  constructor; [|apply IH; [lia|exact Hb4]]. unfold scalar_value, between, cont in *.
  destruct (Z.eqb_spec a 0xF0), (Z.eqb_spec a 0xF4); lia.
Qed.

(** snake_spec *)
Lemma snake_no_upper cs : Forall (fun c => is_upper c = false) (snake_spec cs).
Proof.
  unfold snake_spec. generalize (@None Z). induction cs as [|c cs IH]; intros prev; [constructor|]. cbn [snake_from].
  apply Forall_app. split; [|apply IH]. unfold snake_piece.
  assert (K : is_upper c = true -> is_upper (c + 32) = false) by (unfold is_upper; lia).
  destruct (is_upper c) eqn:E; [|constructor; [exact E|constructor]].
  destruct prev as [p|]; [destruct (is_upper p)|]; repeat constructor; auto.
Qed.
Lemma snake_same cs : Forall (fun c => is_upper c = false) cs -> snake_spec cs = cs.
Proof.
  unfold snake_spec. generalize (@None Z). induction cs as [|c cs IH]; intros prev H; [reflexivity|]. inversion H; subst.
  cbn [snake_from]. unfold snake_piece. rewrite H2. cbn [app]. rewrite IH by assumption. reflexivity.
Qed.
Lemma snake_scalar cs : Forall scalar_value cs -> Forall scalar_value (snake_spec cs).
Proof.
  unfold snake_spec. generalize (@None Z). induction cs as [|c cs IH]; intros prev H; [constructor|]. inversion H; subst.
  cbn [snake_from]. apply Forall_app. split; [|apply IH; assumption]. unfold snake_piece.
  assert (K : is_upper c = true -> scalar_value (c + 32)) by (unfold is_upper, scalar_value; lia).
  assert (K2 : scalar_value 95) by (unfold scalar_value; lia).
  destruct (is_upper c) eqn:E; [|apply Forall_cons; [assumption|apply Forall_nil]].
  destruct prev as [p|]; [destruct (is_upper p)|]; repeat (apply Forall_cons; auto).
Qed.
Theorem snake_idempotent s : bytes_ok s -> SnakeCase (SnakeCase s) = SnakeCase s.
Proof.
  intros H. assert (R : Forall scalar_value (runes s)) by (apply (runes_scalar (length s)); [lia|exact H]).
  rewrite (snake_exact (SnakeCase s)), (snake_exact s), runes_text by (apply snake_scalar, R).
  rewrite snake_same by apply snake_no_upper. reflexivity.
Qed.
Theorem snake_id s : utf8 s -> Forall (fun c => is_upper c = false) s -> SnakeCase s = s.
Proof.
  intros (cs & Hc & ->) H. rewrite snake_exact. fold (text cs) in *. rewrite runes_text by exact Hc. rewrite snake_same; [reflexivity|].
  revert H. induction Hc as [|c cs Hc _ IH]; intros H; [constructor|]. unfold text in H. cbn [map concat] in H.
  apply Forall_app in H. destruct H as [H1 H2]. constructor; [|apply IH, H2].
  unfold utf8_char in H1. destruct (Z.ltb_spec c 128); [inversion H1; assumption|]. unfold is_upper. lia.
Qed.
Lemma ident_ascii s : Forall ident_char s -> Forall (fun c => 0 <= c < 128) s.
Proof. intros H. eapply Forall_impl; [|exact H]. intros c Hc. unfold ident_char, letter, lower, upper, digit in Hc. lia. Qed.
Lemma snake_piece_ident prev c : ident_char c -> Forall ident_char (snake_piece prev c).
Proof.
  intros H. unfold snake_piece. assert (K2 : ident_char 95) by (right; right; reflexivity).
  assert (K : is_upper c = true -> ident_char (c + 32)) by (unfold is_upper, ident_char, letter, lower, upper, digit; lia).
  destruct (is_upper c) eqn:E; [|apply Forall_cons; [exact H|apply Forall_nil]].
  destruct prev as [p|]; [destruct (is_upper p)|]; repeat (apply Forall_cons; auto).
Qed.
Lemma snake_ident s : forall prev, Forall ident_char s -> Forall ident_char (snake_from prev s).
Proof.
  induction s as [|c s IH]; intros prev H; [constructor|]. inversion H; subst. cbn [snake_from].
  apply Forall_app. split; [apply snake_piece_ident; assumption|apply IH; assumption].
Qed.
Theorem snake_ascii s : Forall ident_char s -> SnakeCase s = snake_spec s.
Proof.
  intros H. rewrite snake_exact, runes_ascii by (apply ident_ascii, H). apply text_ascii, ident_ascii, snake_ident, H.
Qed.
Theorem snake_identifier s : identifier s -> identifier (SnakeCase s).
Proof.
  intros H. pose proof (ident_chars s H) as HF. rewrite snake_ascii by exact HF. destruct H as (c & t & -> & Hc & Ht).
  pose proof (snake_ident (c :: t) None HF) as HA. unfold snake_spec in *. cbn [snake_from] in *. unfold snake_piece in *.
  destruct (is_upper c) eqn:E; cbn [app] in *; inversion HA; subst.
  - exists (c + 32), (snake_from (Some c) t). split; [reflexivity|]. split; [|assumption].
    left; left. unfold is_upper, lower in *. lia.
  - exists c, (snake_from (Some c) t). split; [reflexivity|]. split; assumption.
Qed.
Lemma content_snake_piece prev c : content (snake_piece prev c) = content [c].
Proof.
  unfold snake_piece. destruct (is_upper c) eqn:E; [|reflexivity].
  assert (K : content [c + 32] = content [c]).
  { unfold content. cbn [filter]. assert (A1 : alnum c = true) by (unfold alnum; rewrite E, orb_true_r; reflexivity).
    assert (A2 : alnum (c + 32) = true) by (unfold alnum, is_lower, is_upper, is_digit in *; lia). rewrite A1, A2. cbn [map].
    f_equal. unfold fold_case. rewrite E. replace (is_upper (c + 32)) with false by (unfold is_upper in *; lia). reflexivity. }
  destruct prev as [p|]; [destruct (is_upper p)|]; exact K.
Qed.
Theorem snake_content s : content (snake_spec s) = content s.
Proof.
  unfold snake_spec. generalize (@None Z). induction s as [|c t IH]; intros prev; [reflexivity|]. cbn [snake_from].
  rewrite content_app, content_snake_piece, IH. change (c :: t) with ([c] ++ t). rewrite content_app. reflexivity.
Qed.
(** SnakeCase undoes CamelCase on names of words with at least two letters *)
Lemma snake_lowers w : forall p r, Forall lower w -> is_upper p = false ->
  exists q, is_upper q = false /\ snake_from (Some p) (w ++ r) = w ++ snake_from (Some q) r.
Proof.
  induction w as [|c w IH]; intros p r H Hp; [exists p; split; [exact Hp|reflexivity]|]. inversion H; subst.
  destruct (IH c r H3) as (q & Hq & E); [unfold is_upper, lower in *; lia|]. exists q. split; [exact Hq|].
  cbn [app snake_from]. unfold snake_piece. replace (is_upper c) with false by (unfold is_upper, lower in *; lia).
  cbn [app]. rewrite E. reflexivity.
Qed.
Lemma snake_caps ws : Forall long_word ws -> ws <> [] ->
  snake_from None (concat (map capitalize ws)) = join ws /\
  forall p, is_upper p = false -> snake_from (Some p) (concat (map capitalize ws)) = 95 :: join ws.
Proof.
  induction 1 as [|w ws [Hw Hl] Hws IH]; intros Hn; [congruence|].
  destruct w as [|a [|b w]]; try (cbn in Hl; lia).
  inversion Hw as [|? ? Ha Hw']; subst. inversion Hw' as [|? ? Hb Hw'']; subst.
  assert (G : forall prev, snake_piece prev (a - 32) = match prev with Some p => if is_upper p then [a] else [95; a] | None => [a] end).
  { intros prev. unfold snake_piece. replace (is_upper (a - 32)) with true by (unfold is_upper, lower in *; lia).
    replace (a - 32 + 32) with a by lia. reflexivity. }
  assert (T : snake_from (Some (a - 32)) ((b :: w) ++ concat (map capitalize ws)) =
              (b :: w) ++ match ws with [] => [] | _ => 95 :: join ws end).
  { cbn [app snake_from]. unfold snake_piece at 1. replace (is_upper b) with false by (unfold is_upper, lower in *; lia).
    cbn [app]. f_equal. destruct (snake_lowers w b (concat (map capitalize ws)) Hw'') as (q & Hq & E); [unfold is_upper, lower in *; lia|].
    rewrite E. f_equal. destruct ws as [|w2 ws]; [reflexivity|]. apply IH; [discriminate|exact Hq]. }
  assert (J : join ((a :: b :: w) :: ws) = a :: (b :: w) ++ match ws with [] => [] | _ => 95 :: join ws end).
  { destruct ws; [cbn [join]; rewrite app_nil_r; reflexivity|]. rewrite join_cons by discriminate. reflexivity. }
  assert (C : concat (map capitalize ((a :: b :: w) :: ws)) = (a - 32) :: (b :: w) ++ concat (map capitalize ws)) by reflexivity.
  split.
  - etransitivity; [|symmetry; exact J]. etransitivity; [apply f_equal; exact C|]. cbn [snake_from]. rewrite G.
    change ([a] ++ snake_from (Some (a - 32)) ((b :: w) ++ concat (map capitalize ws)) =
            [a] ++ ((b :: w) ++ match ws with [] => [] | _ => 95 :: join ws end)).
    f_equal. exact T.
  - intros p Hp. etransitivity; [|apply f_equal; symmetry; exact J]. etransitivity; [apply f_equal; exact C|].
    cbn [snake_from]. rewrite G, Hp.
    change ([95; a] ++ snake_from (Some (a - 32)) ((b :: w) ++ concat (map capitalize ws)) =
            [95; a] ++ ((b :: w) ++ match ws with [] => [] | _ => 95 :: join ws end)).
    f_equal. exact T.
Qed.
Lemma long_words ws : Forall long_word ws -> Forall word ws.
Proof.
  intros H. eapply Forall_impl; [|exact H]. intros w [H1 H2]. split; [|exact H1]. intros ->. cbn in H2. lia.
Qed.
Lemma join_chars ws : Forall word ws -> Forall ident_char (join ws).
Proof.
  induction 1 as [|w ws [_ Hw] _ IH]; [constructor|].
  assert (K : Forall ident_char w) by (eapply Forall_impl; [|exact Hw]; intros c Hc; left; left; exact Hc).
  destruct ws; [exact K|]. rewrite join_cons by discriminate. apply Forall_app. split; [exact K|].
  constructor; [right; right; reflexivity|exact IH].
Qed.
Theorem snake_camel ws : ws <> [] -> Forall long_word ws -> SnakeCase (camel_spec (join ws)) = join ws.
Proof.
  intros Hn H. pose proof (long_words ws H) as Hw.
  assert (F : Forall ident_char (camel_spec (join ws))).
  { apply camel_chars. eapply Forall_impl; [|apply join_chars, Hw]. intros; left; assumption. }
  rewrite snake_ascii by exact F. rewrite camel_join by exact Hw. apply (snake_caps ws H Hn).
Qed.

(** FirstLowerCase and LowercaseCamelCase *)
Theorem lower_first other c t : 0 <= c < 128 ->
  FirstLowerCase other (c :: t) = (if is_upper c then c + 32 else c) :: t /\
  LowercaseCamelCase other (c :: t) = (if is_upper c then c + 32 else c) :: t.
Proof.
  intros H. assert (U : utf8_char (ToLower other c) = [if is_upper c then c + 32 else c]).
  { unfold ToLower. destruct (Z.ltb_spec c 128); [|lia]. unfold utf8_char.
    destruct (is_upper c) eqn:E.
    - destruct (Z.ltb_spec (c + 32) 128); [reflexivity|unfold is_upper in E; lia].
    - destruct (Z.ltb_spec c 128); [reflexivity|lia]. }
  split.
  - unfold FirstLowerCase. cbn [runes]. destruct (Z.ltb_spec c 128); [|lia]. rewrite U. unfold first_width.
    destruct (Z.ltb_spec c 128); [|lia]. reflexivity.
  - unfold LowercaseCamelCase. destruct t; rewrite U; reflexivity.
Qed.
(** a first character outside ASCII: LowercaseCamelCase takes its first byte for a character *)
Lemma utf8_second c t : utf8 (c :: t) -> 128 <= c -> exists x t', t = x :: t' /\ 128 <= x < 192.
Proof.
  intros ([|r cs] & Hc & E) Hge; [discriminate E|]. inversion Hc as [|? ? Hr _]; subst. cbn [map concat] in E. unfold scalar_value in Hr.
  unfold utf8_char in E. destruct (Z.ltb_spec r 128).
  { cbn [app] in E. assert (c = r) by congruence. lia. }
  destruct (Z.ltb_spec r 2048).
  { eexists _, _. split; [cbn [app] in E; exact (f_equal (@tl Z) E)|]. lia. }
  destruct (Z.ltb_spec r 65536).
  - eexists _, _. split; [cbn [app] in E; exact (f_equal (@tl Z) E)|]. lia.
  - eexists _, _. split; [cbn [app] in E; exact (f_equal (@tl Z) E)|]. lia.
Qed.
Lemma bad_lead x t : 128 <= x < 192 -> from_utf8 (x :: t) = false.
Proof.
  intros H. cbn [from_utf8]. replace (between 0 x 0x7F) with false by (unfold between; lia).
  destruct t as [|b t]; [reflexivity|]. replace (between 0xC2 x 0xDF) with false by (unfold between; lia).
  destruct t as [|c t]; [reflexivity|]. replace (x =? 0xE0) with false by lia.
  replace (between 0xE1 x 0xEC || between 0xEE x 0xEF) with false by (unfold between; lia).
  replace (x =? 0xED) with false by lia. destruct t as [|d t]; [reflexivity|].
  replace (x =? 0xF0) with false by lia. replace (between 0xF1 x 0xF3) with false by (unfold between; lia).
  replace (x =? 0xF4) with false by lia. reflexivity.
Qed.
Theorem lower_corrupts other c t : utf8 (c :: t) -> 128 <= c -> scalar_value (other c) ->
  ~ utf8 (LowercaseCamelCase other (c :: t)).
Proof.
  intros H Hc Ho K. destruct (utf8_second c t H Hc) as (x & t' & -> & Hx). apply from_utf8_iff in K.
  unfold LowercaseCamelCase, ToLower in K. destruct (Z.ltb_spec c 128); [lia|]. rewrite from_utf8_char in K by exact Ho.
  rewrite bad_lead in K by exact Hx. discriminate K.
Qed.
