(** Rust declarations, reserved words, and which descriptors give code that compiles. *)
From Coq Require Import String.
From Verif Require Import Base Utf8 NameModel NameSpec NameThms NameThms2 NameThms3 NameThms4 GenTables EmitModel EmitSpec EmitThms.

Lemma in_rs_file f d : In d (rs_file f) <-> d = RsTrait (text "Encode") \/ d = RsTrait (text "Decode") \/
  (exists e, shallow_enum f e /\ In d (rs_enum e)) \/ (exists m, has_message f m /\ In d (rs_struct_decls m)).
Proof.
  unfold rs_file. rewrite !in_app_iff, in_flat_map, messages_in. cbn [In]. unfold shallow_enum, has_message. split.
  - intros [(e & He & Hd)|[[<-|[<-|[]]]|[(t & e & Ht & He & Hd)|(t & k & Ht & Hk & Hd)]]]; auto.
    + right. right. left. exists e. split; [left; exact He|exact Hd].
    + right. right. left. exists e. split; [right; eauto|exact Hd].
    + right. right. right. exists k. split; [eauto|exact Hd].
  - intros [->|[->|[(e & [He|(t & Ht & He)] & Hd)|(m & (t & Ht & Hk) & Hd)]]]; [auto|auto|left; eauto| |]; right; right; [left|right]; eauto 7.
Qed.
Theorem rs_types_iff f n : In n (flat_map rs_type (rs_file f)) <->
  (exists e, shallow_enum f e /\ CamelCase (e_full e) = Ok n) \/ (exists m, has_message f m /\ CamelCase (m_full m) = Ok n).
Proof.
  rewrite in_flat_map. split.
  - intros (d & Hd & Hn). apply in_rs_file in Hd. destruct Hd as [->|[->|[(e & He & [<-|[]])|(m & Hm & [<-|[]])]]]; try destruct Hn as [<-|[]].
    + destruct Hn. + destruct Hn.
    + left. exists e. split; [exact He|apply camel_ok].
    + right. exists m. split; [exact Hm|apply camel_ok].
  - intros [(e & He & En)|(m & Hm & En)]; apply camel_is in En; subst n.
    + eexists. split; [apply in_rs_file; right; right; left; exists e; split; [exact He|left; reflexivity]|left; reflexivity].
    + eexists. split; [apply in_rs_file; right; right; right; exists m; split; [exact Hm|left; reflexivity]|left; reflexivity].
Qed.
Lemma nth_ext {A} (a b : list A) : (forall i, nth_error a i = nth_error b i) -> a = b.
Proof.
  revert b. induction a as [|x a IH]; intros [|y b] H; [reflexivity|discriminate (H 0%nat)|discriminate (H 0%nat)|].
  pose proof (H 0%nat) as H0. cbn in H0. injection H0 as ->. f_equal. apply IH. intros i. exact (H (S i)).
Qed.
Theorem rs_enum_iff f n vs : In (RsEnum n vs) (rs_file f) <->
  exists e, shallow_enum f e /\ CamelCase (e_full e) = Ok n /\ length vs = length (e_values e) /\
    forall i x, nth_error (e_values e) i = Some x -> nth_error vs i = Some (v_name x, Z.of_nat i).
Proof.
  rewrite in_rs_file. split.
  - intros [H|[H|[(e & He & [H|[]])|(m & _ & [H|[]])]]]; try discriminate H. injection H as <- <-. exists e. split; [exact He|]. split; [apply camel_ok|].
    split; [rewrite map_length; apply numbered_length|]. intros i x Hx. rewrite nth_error_map, numbered_nth, Hx. reflexivity.
  - intros (e & He & En & L & H). apply camel_is in En. subst n. right. right. left. exists e. split; [exact He|]. left. unfold rs_enum. f_equal.
    apply nth_ext. intros i. rewrite nth_error_map, numbered_nth. destruct (nth_error (e_values e) i) as [x|] eqn:E.
    + rewrite (H i x E). reflexivity.
    + cbn [option_map]. symmetry. apply nth_error_None. apply nth_error_None in E. lia.
Qed.

(** ---- Names that SnakeCase sends to a lower case word: a prefix of it in upper case ---- *)
Lemma snake_lower_rest t : forall p, is_upper p = false -> Forall lower (snake_from (Some p) t) -> t = snake_from (Some p) t.
Proof.
  induction t as [|d t IH]; intros p Hp H; [reflexivity|]. cbn [snake_from] in *. unfold snake_piece in *. destruct (is_upper d) eqn:E.
  - rewrite Hp in H. cbn [app] in H. inversion H; subst. unfold lower in *. lia.
  - cbn [app] in *. inversion H; subst. f_equal. apply IH; assumption.
Qed.
Lemma snake_upper_rest t : forall p, is_upper p = true -> Forall lower (snake_from (Some p) t) ->
  exists u v, t = map raise u ++ v /\ snake_from (Some p) t = u ++ v.
Proof.
  induction t as [|d t IH]; intros p Hp H; [exists [], []; split; reflexivity|]. cbn [snake_from] in *. unfold snake_piece in *. destruct (is_upper d) eqn:E.
  - rewrite Hp in *. cbn [app] in *. inversion H; subst. destruct (IH d E H3) as (u & v & E1 & E2). exists (d + 32 :: u), v. cbn [map app]. unfold raise at 1.
    split; [f_equal; [lia|exact E1]|f_equal; exact E2].
  - cbn [app] in *. inversion H; subst. exists [], (d :: t). split; [reflexivity|]. cbn [app]. f_equal. symmetry. apply snake_lower_rest; assumption.
Qed.
Lemma snake_lowers_id v : forall p, Forall lower v -> snake_from p v = v.
Proof.
  induction v as [|c v IH]; intros p H; [reflexivity|]. inversion H; subst. cbn [snake_from]. unfold snake_piece.
  assert (E : is_upper c = false) by (unfold is_upper, lower in *; lia). rewrite E. cbn [app]. f_equal. apply IH. assumption.
Qed.
Lemma snake_raised u : forall p v, is_upper p = true -> Forall lower u -> Forall lower v -> snake_from (Some p) (map raise u ++ v) = u ++ v.
Proof.
  induction u as [|c u IH]; intros p v Hp Hu Hv; [apply snake_lowers_id; exact Hv|]. inversion Hu; subst. cbn [map app snake_from]. unfold snake_piece, raise at 1 2.
  assert (E : is_upper (c - 32) = true) by (unfold is_upper, lower in *; lia). rewrite E, Hp. cbn [app]. f_equal; [lia|]. apply IH; assumption.
Qed.
Theorem snake_word_iff s w : identifier s -> Forall lower w ->
  (SnakeCase s = w <-> exists u v, w = u ++ v /\ s = map raise u ++ v).
Proof.
  intros Hs Hw. pose proof (ident_chars s Hs) as HF. rewrite snake_ascii by exact HF. unfold snake_spec. split.
  - intros <-. destruct Hs as (c & t & -> & _ & _). cbn [snake_from] in *. unfold snake_piece in *. destruct (is_upper c) eqn:E; cbn [app] in *.
    + inversion Hw; subst. destruct (snake_upper_rest t c E H2) as (u & v & E1 & E2). exists (c + 32 :: u), v. cbn [map app]. unfold raise at 1.
      split; [f_equal; exact E2|]. f_equal; [lia|exact E1].
    + inversion Hw; subst. exists [], (c :: t). split; [|reflexivity]. cbn [app]. f_equal. symmetry. apply snake_lower_rest; assumption.
  - intros (u & v & -> & ->). apply Forall_app in Hw. destruct Hw as [Hu Hv]. destruct u as [|c u]; [apply snake_lowers_id; exact Hv|].
    inversion Hu; subst. cbn [map app snake_from]. unfold snake_piece, raise at 1 2.
    assert (E : is_upper (c - 32) = true) by (unfold is_upper, lower in *; lia). rewrite E. cbn [app]. f_equal; [lia|]. apply snake_raised; assumption.
Qed.

(** ---- Reserved words ---- *)
Lemma go_keyword s r : CamelCase s = Ok r -> ~ In r go_keywords.
Proof.
  intros E H. assert (L : forall k, In k go_keywords -> match k with c :: _ => is_lower c = true | [] => False end).
  { apply Forall_forall. vm_compute. repeat (apply Forall_cons; [reflexivity|]). apply Forall_nil. }
  specialize (L r H). destruct r as [|c u]; [exact L|]. rewrite (camel_never_lower s _ E c u eq_refl) in L. discriminate L.
Qed.
Lemma rust_type_keyword s r : CamelCase s = Ok r -> In r rust_keywords -> r = str "Self".
Proof.
  intros E H. assert (L : forall k, In k rust_keywords -> match k with c :: _ => is_lower c = true | [] => False end \/ k = str "Self").
  { apply Forall_forall. vm_compute. repeat (apply Forall_cons; [first [left; reflexivity|right; reflexivity]|]). apply Forall_nil. }
  destruct (L r H) as [L'|L']; [|exact L']. destruct r as [|c u]; [destruct L'|]. rewrite (camel_never_lower s _ E c u eq_refl) in L'. discriminate L'.
Qed.
Lemma all_lower w : forallb is_lower w = true -> Forall lower w.
Proof. intros H. apply Forall_forall. intros c Hc. rewrite forallb_forall in H. specialize (H c Hc). unfold is_lower, lower in *. lia. Qed.
Lemma rust_lower k : In k rust_keywords -> k <> str "Self" -> Forall lower k.
Proof.
  intros H N. apply all_lower. assert (L : forall k, In k rust_keywords -> forallb is_lower k = true \/ k = str "Self").
  { apply Forall_forall. vm_compute. repeat (apply Forall_cons; [first [left; reflexivity|right; reflexivity]|]). apply Forall_nil. }
  destruct (L k H); [assumption|contradiction].
Qed.
Theorem rust_field_keyword s : identifier s ->
  (In (SnakeCase s) rust_keywords <-> exists w u v, In w rust_keywords /\ w <> str "Self" /\ w = u ++ v /\ s = map raise u ++ v).
Proof.
  intros Hs. split.
  - intros H. assert (N : SnakeCase s <> str "Self").
    { intros E. pose proof (snake_no_upper (runes s)) as U. pose proof (ident_chars s Hs) as HF.
      rewrite runes_ascii in U by (apply ident_ascii, HF). rewrite snake_ascii in E by exact HF. rewrite E in U. inversion U; discriminate. }
    pose proof (rust_lower _ H N) as L. destruct (proj1 (snake_word_iff s _ Hs L) eq_refl) as (u & v & E1 & E2).
    exists (SnakeCase s), u, v. auto.
  - intros (w & u & v & H & N & E1 & E2). assert (E : SnakeCase s = w) by (apply snake_word_iff; [exact Hs|apply rust_lower; assumption|eauto]).
    rewrite E. exact H.
Qed.
Lemma ts_lower k : In k ts_keywords -> Forall lower k /\ k <> [].
Proof.
  intros H. assert (L : forall k, In k ts_keywords -> forallb is_lower k = true /\ k <> []).
  { apply Forall_forall. vm_compute. repeat (apply Forall_cons; [split; [reflexivity|discriminate]|]). apply Forall_nil. }
  destruct (L k H). split; [apply all_lower; assumption|assumption].
Qed.
Theorem ts_field_keyword other s : identifier s ->
  (In (LowercaseCamelCase other s) ts_keywords <-> exists c w, In (c :: w) ts_keywords /\ (s = c :: w \/ s = raise c :: w)).
Proof.
  intros Hs. destruct Hs as (a & t & -> & Ha & _). assert (B : 0 <= a < 128) by (unfold letter, lower, upper in Ha; lia).
  rewrite (proj2 (lower_first other a t B)). split.
  - intros H. exists (if is_upper a then a + 32 else a), t. split; [exact H|]. destruct (is_upper a); [right|left]; [|reflexivity]. unfold raise. f_equal. lia.
  - intros (c & w & H & E). destruct (ts_lower _ H) as [L _]. inversion L as [|? ? Lc Lw]; subst. destruct E as [E|E]; injection E as -> ->.
    + assert (U : is_upper c = false) by (unfold is_upper, lower in *; lia). rewrite U. exact H.
    + unfold raise. assert (U : is_upper (c - 32) = true) by (unfold is_upper, lower in *; lia). rewrite U. replace (c - 32 + 32) with c by lia. exact H.
Qed.
