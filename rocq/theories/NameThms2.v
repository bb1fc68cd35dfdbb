(** Consequences for CamelCase. *)
From Coq Require Import String.
From Verif Require Import Base Utf8 NameModel NameSpec NameThms.

Lemma is_lower_iff c : is_lower c = true <-> lower c.
Proof. unfold is_lower, lower. lia. Qed.
Lemma is_upper_iff c : is_upper c = true <-> upper c.
Proof. unfold is_upper, upper. lia. Qed.
Lemma is_digit_iff c : is_digit c = true <-> digit c.
Proof. unfold is_digit, digit. lia. Qed.

Lemma piece_chars prev c next : ident_char c \/ c = 46 -> Forall ident_char (camel_piece prev c next).
Proof.
  intros H. unfold camel_piece. destruct (Z.eqb_spec c 46); [constructor|].
  destruct (Z.eqb_spec c 95) as [->|].
  { assert (ident_char 95) by (right; right; reflexivity).
    destruct prev; [|constructor]. destruct next; [|repeat constructor; assumption].
    destruct (is_lower z0); repeat constructor; assumption. }
  destruct (is_lower c) eqn:E, (starts_word prev); cbn [andb]; (apply Forall_cons; [|apply Forall_nil]);
    unfold is_lower in E; unfold ident_char, letter, lower, upper, digit in *; lia.
Qed.
Lemma camel_chars s : forall prev, Forall (fun c => ident_char c \/ c = 46) s -> Forall ident_char (camel_from prev s).
Proof.
  induction s as [|c t IH]; intros prev H; [constructor|]. inversion H; subst. cbn [camel_from].
  apply Forall_app. split; [apply piece_chars; assumption|apply IH; assumption].
Qed.
Lemma ident_chars s : identifier s -> Forall ident_char s.
Proof. intros (c & t & -> & H & Ht). constructor; [|exact Ht]. unfold ident_char, letter, lower, upper, digit in *. lia. Qed.
Lemma full_chars s : full_name s -> Forall (fun c => ident_char c \/ c = 46) s.
Proof.
  induction 1 as [s H|s t H _ IH].
  - apply ident_chars in H. eapply Forall_impl; [|exact H]. intros; left; assumption.
  - apply Forall_app. split; [|constructor; [right; reflexivity|exact IH]].
    apply ident_chars in H. eapply Forall_impl; [|exact H]. intros; left; assumption.
Qed.
Theorem camel_full_chars s : full_name s -> Forall ident_char (camel_spec s).
Proof. intros H. apply camel_chars, full_chars, H. Qed.

(** which names become exported identifiers *)
Definition good_start (s : bytes) : Prop := exists c t,
  (s = c :: t /\ letter c) \/ (s = 95 :: c :: t /\ letter c) \/ (s = 95 :: 95 :: c :: t /\ lower c).
Lemma letter_piece prev c next : letter c -> starts_word prev = true ->
  exists u, camel_piece prev c next = [u] /\ upper u.
Proof.
  intros H E. unfold camel_piece. replace (c =? 46) with false by (unfold letter, lower, upper in H; lia).
  replace (c =? 95) with false by (unfold letter, lower, upper in H; lia). rewrite E.
  destruct (is_lower c) eqn:EL; cbn [andb].
  - exists (c - 32). split; [reflexivity|]. unfold is_lower, upper in *. lia.
  - exists c. split; [reflexivity|]. unfold is_lower, letter, lower, upper in *. lia.
Qed.
Lemma upper_first prev c t : letter c -> starts_word prev = true ->
  exists u r, camel_from prev (c :: t) = u :: r /\ upper u.
Proof.
  intros H E. cbn [camel_from]. destruct (letter_piece prev c (hd_error t) H E) as (u & -> & Hu).
  exists u, (camel_from (Some c) t). split; [reflexivity|exact Hu].
Qed.
Lemma good_start_upper s : good_start s -> exists u r, camel_spec s = u :: r /\ upper u.
Proof.
  unfold camel_spec. intros (c & t & [(-> & H)|[(-> & H)|(-> & H)]]).
  - apply upper_first; [exact H|reflexivity].
  - change (camel_from None (95 :: c :: t)) with (camel_from (Some 95) (c :: t)). apply upper_first; [exact H|reflexivity].
  - change (camel_from None (95 :: 95 :: c :: t)) with (camel_from (Some 95) (95 :: c :: t)).
    cbn [camel_from]. unfold camel_piece at 1. change (95 =? 46) with false. change (95 =? 95) with true. cbn [hd_error]. cbv iota.
    apply is_lower_iff in H as H'. rewrite H'. cbn [app].
    apply (upper_first (Some 95) c t); [left; exact H|reflexivity].
Qed.
Lemma upper_exported s u r : Forall ident_char s -> s = u :: r -> upper u -> exported s.
Proof.
  intros HF -> Hu. inversion HF; subst. split; [|exists u, r; split; [reflexivity|exact Hu]].
  exists u, r. split; [reflexivity|]. split; [left; right; exact Hu|assumption].
Qed.
Theorem exported_iff s : identifier s -> (exported (camel_spec s) <-> good_start s).
Proof.
  intros Hs. split.
  - intros (_ & u & r & E & Hu). destruct Hs as (c & t & -> & Hc & Ht). unfold good_start.
    destruct Hc as [Hc|Hc]; [exists c, t; left; split; [reflexivity|exact Hc]|]. subst c.
    unfold camel_spec in E. change (camel_from None (95 :: t)) with (camel_from (Some 95) t) in E.
    destruct t as [|c t]; [discriminate E|]. inversion Ht as [|? ? H1 H2]; subst.
    destruct H1 as [H1|[H1|H1]].
    + exists c, t. right; left. split; [reflexivity|exact H1].
    + exfalso. cbn [camel_from] in E. unfold camel_piece in E at 1.
      replace (c =? 46) with false in E by (unfold digit in H1; lia). replace (c =? 95) with false in E by (unfold digit in H1; lia).
      replace (is_lower c) with false in E by (unfold digit, is_lower in *; lia). cbn [andb app] in E.
      assert (c = u) by congruence. unfold digit, upper in *. lia.
    + subst c. cbn [camel_from] in E. unfold camel_piece in E at 1. change (95 =? 46) with false in E. change (95 =? 95) with true in E.
      cbv iota in E. destruct t as [|c t]; cbn [hd_error] in E.
      { assert (95 = u) by (cbn in E; congruence). unfold upper in Hu. lia. }
      destruct (is_lower c) eqn:EL.
      * exists c, t. right; right. split; [reflexivity|apply is_lower_iff; exact EL].
      * exfalso. assert (95 = u) by (cbn [app] in E; congruence). unfold upper in Hu. lia.
  - intros H. destruct (good_start_upper s H) as (u & r & E & Hu).
    eapply upper_exported; [|exact E|exact Hu]. apply camel_chars. apply ident_chars in Hs.
    eapply Forall_impl; [|exact Hs]. intros; left; assumption.
Qed.
Theorem full_exported s : full_name s -> (exists c t, s = c :: t /\ letter c) -> exported (camel_spec s).
Proof.
  intros HF (c & t & E & Hc). destruct (good_start_upper s) as (u & r & E' & Hu).
  { exists c, t. left. split; assumption. }
  eapply upper_exported; [apply camel_full_chars; exact HF|exact E'|exact Hu].
Qed.
(** what is kept *)
Lemma content_app a b : content (a ++ b) = content a ++ content b.
Proof. unfold content. rewrite filter_app, map_app. reflexivity. Qed.
Lemma content_piece prev c next : content (camel_piece prev c next) = content [c].
Proof.
  unfold camel_piece. destruct (Z.eqb_spec c 46) as [->|]; [reflexivity|].
  destruct (Z.eqb_spec c 95) as [->|].
  { destruct prev; [|reflexivity]. destruct next; [|reflexivity]. destruct (is_lower z0); reflexivity. }
  destruct (is_lower c) eqn:E, (starts_word prev); cbn [andb]; try reflexivity.
  unfold content. cbn [filter]. assert (A1 : alnum c = true) by (unfold alnum; rewrite E; reflexivity).
  assert (A2 : alnum (c - 32) = true) by (unfold alnum, is_lower, is_upper, is_digit in *; lia). rewrite A1, A2. cbn [map].
  f_equal. unfold fold_case, is_upper, is_lower in *.
  destruct ((65 <=? c - 32) && (c - 32 <=? 90)) eqn:E1, ((65 <=? c) && (c <=? 90)) eqn:E2; lia.
Qed.
Theorem camel_content s : content (camel_spec s) = content s.
Proof.
  unfold camel_spec. generalize (@None Z). induction s as [|c t IH]; intros prev; [reflexivity|]. cbn [camel_from].
  rewrite content_app, content_piece, IH. change (c :: t) with ([c] ++ t). rewrite content_app. reflexivity.
Qed.
(** idempotence *)
Fixpoint shaped (q : option Z) (o : bytes) : Prop :=
  match o with
  | [] => True
  | c :: t => c <> 46 /\ (is_lower c = true -> starts_word q = false) /\ shaped (Some c) t
  end.
Lemma shaped_fix o : forall q, shaped q o -> (q = None -> hd_error o <> Some 95) -> camel_from q o = o.
Proof.
  induction o as [|c t IH]; intros q H Hq; [reflexivity|]. destruct H as (H46 & HL & Ht). cbn [camel_from].
  rewrite IH; [|exact Ht|discriminate]. unfold camel_piece. replace (c =? 46) with false by lia.
  destruct (Z.eqb_spec c 95) as [->|].
  - destruct q as [q|]; [|exfalso; apply (Hq eq_refl); reflexivity].
    destruct t as [|n t]; [reflexivity|]. cbn [hd_error]. destruct (is_lower n) eqn:E; [|reflexivity].
    destruct Ht as (_ & Hn & _). discriminate (Hn E).
  - destruct (is_lower c) eqn:E; [rewrite (HL eq_refl)|]; reflexivity.
Qed.
Lemma camel_shaped s : forall prev q, (starts_word prev = false -> starts_word q = false) -> shaped q (camel_from prev s).
Proof.
  induction s as [|c t IH]; intros prev q H; [exact I|]. cbn [camel_from]. unfold camel_piece.
  destruct (Z.eqb_spec c 46) as [->|N]; [apply IH; discriminate|].
  destruct (Z.eqb_spec c 95) as [->|N2].
  { assert (K : shaped q (95 :: camel_from (Some 95) t)) by (split; [discriminate|]; split; [discriminate|apply IH; auto]).
    assert (K2 : shaped q (camel_from (Some 95) t)) by (apply IH; discriminate).
    destruct prev; [|exact K2]. destruct (hd_error t); [|exact K]. destruct (is_lower z0); [exact K2|exact K]. }
  destruct (is_lower c) eqn:E; cbn [andb].
  - destruct (starts_word prev) eqn:E2; cbn [app].
    + split; [unfold is_lower in E; lia|]. split; [unfold is_lower in *; lia|]. apply IH.
      intros _. cbn. unfold is_digit, is_lower in *. lia.
    + split; [exact N|]. split; [intros _; apply H; reflexivity|]. apply IH. auto.
  - cbn [app]. split; [exact N|]. split; [congruence|]. apply IH. auto.
Qed.
Theorem camel_idempotent s : (forall t, camel_spec s <> 95 :: t) -> camel_spec (camel_spec s) = camel_spec s.
Proof.
  intros H. unfold camel_spec at 1. apply shaped_fix.
  - apply camel_shaped. discriminate.
  - intros _ E. destruct (camel_spec s) as [|c t] eqn:E2; [discriminate E|]. cbn in E. injection E as ->. apply (H t eq_refl).
Qed.
(** names in the usual style *)
Definition capitalize (w : bytes) : bytes := match w with c :: t => (c - 32) :: t | [] => [] end.
Lemma lowers_pass w : forall p, Forall lower w -> starts_word (Some p) = false -> forall r, next_lower r = false ->
  camel_from (Some p) (w ++ r) = w ++ camel_from (Some p) r.
Proof.
  induction w as [|c w IH]; intros p Hw Hp r Hr; [reflexivity|]. inversion Hw; subst. cbn [app camel_from].
  unfold camel_piece at 1. replace (c =? 46) with false by (unfold lower in *; lia). replace (c =? 95) with false by (unfold lower in *; lia).
  rewrite Hp, andb_false_r. cbn [app]. f_equal. rewrite (IH c); [|assumption| |assumption].
  - f_equal. apply prev_indep. exact Hr.
  - cbn. unfold is_digit, lower in *. lia.
Qed.
Lemma word_pass w prev r : word w -> starts_word prev = true -> next_lower r = false ->
  camel_from prev (w ++ r) = capitalize w ++ camel_from (Some 97) r.
Proof.
  intros [Hn Hw] Hp Hr. destruct w as [|c w]; [congruence|]. inversion Hw; subst. cbn [app camel_from capitalize].
  unfold camel_piece at 1. replace (c =? 46) with false by (unfold lower in *; lia). replace (c =? 95) with false by (unfold lower in *; lia).
  replace (is_lower c) with true by (symmetry; apply is_lower_iff; assumption). rewrite Hp. cbn [andb app]. f_equal.
  rewrite lowers_pass; try assumption; [f_equal; apply prev_indep; exact Hr|].
  cbn. unfold is_digit, lower in *. lia.
Qed.
Lemma join_cons w ws : ws <> [] -> join (w :: ws) = w ++ 95 :: join ws.
Proof. destruct ws; [congruence|reflexivity]. Qed.
Lemma word_head w r : word w -> exists c t, w ++ r = c :: t /\ lower c.
Proof. intros [Hn Hw]. destruct w as [|c w]; [congruence|]. inversion Hw; subst. exists c, (w ++ r). split; [reflexivity|assumption]. Qed.
Lemma join_head ws : ws <> [] -> Forall word ws -> exists c t, join ws = c :: t /\ lower c.
Proof.
  intros Hn Hw. destruct ws as [|w ws]; [congruence|]. inversion Hw; subst. destruct ws as [|w2 ws].
  - cbn [join]. destruct (word_head w [] H1) as (c & t & E & Hc). rewrite app_nil_r in E. exists c, t. split; assumption.
  - rewrite join_cons by discriminate. apply word_head. assumption.
Qed.
Lemma camel_join_from ws : Forall word ws -> forall prev, starts_word prev = true ->
  camel_from prev (join ws) = concat (map capitalize ws).
Proof.
  induction ws as [|w ws IH]; intros Hw prev Hp; [reflexivity|]. inversion Hw as [|? ? Hw1 Hw2]; subst. destruct ws as [|w2 ws].
  - cbn [join map concat]. rewrite <- (app_nil_r w) at 1. rewrite word_pass by (assumption || reflexivity). reflexivity.
  - rewrite join_cons by discriminate. rewrite word_pass by (assumption || reflexivity).
    destruct (join_head (w2 :: ws) ltac:(discriminate) Hw2) as (c & t & E & Hc).
    cbn [camel_from]. unfold camel_piece at 1. change (95 =? 46) with false. change (95 =? 95) with true. cbv iota.
    rewrite E at 1. cbn [hd_error]. apply is_lower_iff in Hc as Hc'. rewrite Hc'. cbn [app].
    rewrite IH by (assumption || reflexivity). reflexivity.
Qed.
Theorem camel_join ws : Forall word ws -> camel_spec (join ws) = concat (map capitalize ws).
Proof. intros H. apply camel_join_from; [exact H|reflexivity]. Qed.
(** the words can be read off the capitals *)
Lemma cap_split w1 w2 a b : word w1 -> word w2 -> next_lower a = false -> next_lower b = false ->
  capitalize w1 ++ a = capitalize w2 ++ b -> w1 = w2 /\ a = b.
Proof.
  intros [N1 H1] [N2 H2] Ha Hb. destruct w1 as [|c1 w1]; [congruence|]. destruct w2 as [|c2 w2]; [congruence|]. clear N1 N2.
  cbn [capitalize app]. intros E. assert (Ec : c1 - 32 = c2 - 32) by congruence. assert (Et : w1 ++ a = w2 ++ b) by congruence.
  assert (c1 = c2) by lia. subst c2. inversion H1 as [|? ? _ H1']; subst. inversion H2 as [|? ? _ H2']; subst. clear - Ha Hb Et H1' H2'.
  assert (K : w1 = w2 /\ a = b); [|destruct K as [-> ->]; split; reflexivity].
  revert w2 H2' Et. induction w1 as [|x w1 IH]; intros [|y w2] H2' Et.
  - split; [reflexivity|exact Et].
  - exfalso. cbn [app] in Et. subst a. inversion H2'; subst. apply is_lower_iff in H1. cbn in Ha. congruence.
  - exfalso. cbn [app] in Et. subst b. inversion H1'; subst. apply is_lower_iff in H1. cbn in Hb. congruence.
  - cbn [app] in Et. assert (x = y) by congruence. assert (w1 ++ a = w2 ++ b) by congruence. subst y.
    inversion H1' as [|? ? _ K1]; subst. inversion H2' as [|? ? _ K2]; subst. destruct (IH K1 w2 K2 H0) as [-> ->]. split; reflexivity.
Qed.
Lemma caps_next ws : Forall word ws -> next_lower (concat (map capitalize ws)) = false.
Proof.
  intros H. destruct H as [|w ws [Hn Hw] _]; [reflexivity|]. destruct w as [|c w]; [congruence|]. inversion Hw; subst.
  cbn. unfold is_lower, lower in *. lia.
Qed.
Lemma cap_nonempty w a : word w -> capitalize w ++ a <> [].
Proof. intros [Hn _]. destruct w; [congruence|discriminate]. Qed.
Lemma caps_inj ws : Forall word ws -> forall vs, Forall word vs ->
  concat (map capitalize ws) = concat (map capitalize vs) -> ws = vs.
Proof.
  induction 1 as [|w ws Hw Hws IH]; intros vs Hvs E.
  - destruct Hvs as [|v vs Hv _]; [reflexivity|]. cbn in E. symmetry in E. apply cap_nonempty in E; [contradiction|exact Hv].
  - destruct Hvs as [|v vs Hv Hvs]; [cbn in E; apply cap_nonempty in E; [contradiction|exact Hw]|].
    cbn [map concat] in E. destruct (cap_split w v _ _ Hw Hv (caps_next ws Hws) (caps_next vs Hvs) E) as [-> E2].
    rewrite (IH vs Hvs E2). reflexivity.
Qed.
Theorem camel_style_inj s t : style_name s -> style_name t -> camel_spec s = camel_spec t -> s = t.
Proof.
  intros (ws & _ & Hw & ->) (vs & _ & Hv & ->) E. rewrite !camel_join in E by assumption.
  rewrite (caps_inj ws Hw vs Hv E). reflexivity.
Qed.
