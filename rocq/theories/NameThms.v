(** Proofs about the naming helpers. *)
From Coq Require Import String.
From Verif Require Import Base Utf8 NameModel NameSpec.

Lemma index_nth s i c t : 0 <= i -> zdrop i s = c :: t -> index s i = Ok c.
Proof.
  intros Hi H. unfold index. destruct (Z.ltb_spec i 0); [lia|].
  unfold zdrop in H. revert s H. induction (Z.to_nat i) as [|n IH]; intros s H.
  - cbn in H. subst s. reflexivity.
  - destruct s as [|x s]; [discriminate H|]. cbn [skipn] in H. cbn [nth_error]. apply IH, H.
Qed.
Lemma zdrop_step {A} (s : list A) i c t : 0 <= i -> zdrop i s = c :: t -> zdrop (i + 1) s = t /\ i < zlen s.
Proof.
  intros Hi H. split.
  - rewrite Z.add_comm, <- zdrop_zdrop by lia. rewrite H. reflexivity.
  - destruct (Z.ltb_spec i (zlen s)); [assumption|]. rewrite zdrop_all in H by lia. discriminate H.
Qed.
Lemma zdrop_end {A} (s : list A) i : 0 <= i -> zdrop i s = [] -> zlen s <= i.
Proof.
  intros Hi H. destruct (Z.ltb_spec i (zlen s)); [|lia].
  assert (zlen (zdrop i s) = zlen s - i) by (apply zlen_zdrop; lia). rewrite H in H1. unfold zlen at 1 in H1. cbn in H1. lia.
Qed.
Definition next_lower (t : bytes) : bool := match t with n :: _ => is_lower n | [] => false end.
Lemma lower_next_ok s i c t : 0 <= i -> zdrop i s = c :: t -> lower_next s i = Ok (next_lower t).
Proof.
  intros Hi H. destruct (zdrop_step s i c t Hi H) as [H1 H2]. unfold lower_next.
  destruct t as [|n t].
  - assert (zlen s <= i + 1) by (apply zdrop_end; [lia|exact H1]). destruct (Z.ltb_spec (i + 1) (zlen s)); [lia|reflexivity].
  - destruct (zdrop_step s (i + 1) n t ltac:(lia) H1) as [_ H3]. destruct (Z.ltb_spec (i + 1) (zlen s)); [|lia].
    rewrite (index_nth s (i + 1) n t) by (lia || exact H1). reflexivity.
Qed.
(** the leading lower case letters of a string *)
Fixpoint lowers (t : bytes) : bytes := match t with c :: t => if is_lower c then c :: lowers t else [] | [] => [] end.
Fixpoint after (t : bytes) : bytes := match t with c :: t' => if is_lower c then after t' else t | [] => [] end.
Lemma after_next t : next_lower (after t) = false.
Proof. induction t as [|c t IH]; [reflexivity|]. cbn. destruct (is_lower c) eqn:E; [exact IH|exact E]. Qed.
Lemma after_len t : zlen t = zlen (lowers t) + zlen (after t).
Proof.
  induction t as [|c t IH]; [reflexivity|]. cbn [lowers after]. destruct (is_lower c); [|rewrite (zlen_nil (A := Z)); lia].
  rewrite !zlen_cons. lia.
Qed.
Lemma camel_inner_ok s : forall t fuel i out c, 0 <= i -> zdrop i s = c :: t -> (length t <= fuel)%nat ->
  exists c', camel_inner fuel s i out = Ok (i + zlen (lowers t), out ++ lowers t) /\
    zdrop (i + zlen (lowers t)) s = c' :: after t.
Proof.
  induction t as [|n t IH]; intros fuel i out c Hi H Hf.
  - exists c. cbn [lowers after]. rewrite (zlen_nil (A := Z)), Z.add_0_r, app_nil_r. split; [|exact H].
    destruct fuel; cbn [camel_inner]; rewrite (lower_next_ok s i c [] Hi H); reflexivity.
  - cbn [lowers after]. destruct (is_lower n) eqn:E.
    + destruct fuel as [|fuel]; [cbn in Hf; lia|]. destruct (zdrop_step s i c (n :: t) Hi H) as [H1 _].
      destruct (IH fuel (i + 1) (out ++ [n]) n ltac:(lia) H1 ltac:(cbn in Hf; lia)) as (c' & E1 & E2).
      exists c'. rewrite zlen_cons. replace (i + (1 + zlen (lowers t))) with (i + 1 + zlen (lowers t)) by lia.
      split; [|exact E2]. cbn [camel_inner]. rewrite (lower_next_ok s i c (n :: t) Hi H). cbn [next_lower bind]. rewrite E.
      rewrite (index_nth s (i + 1) n t) by (lia || exact H1). cbn [bind]. rewrite E1. rewrite <- app_assoc. reflexivity.
    + exists c. rewrite (zlen_nil (A := Z)), Z.add_0_r, app_nil_r. split; [|exact H].
      destruct fuel; cbn [camel_inner]; rewrite (lower_next_ok s i c (n :: t) Hi H); cbn [next_lower bind]; rewrite E; reflexivity.
Qed.
(** inside a word *)
Lemma prev_indep p q t : next_lower t = false -> camel_from (Some p) t = camel_from (Some q) t.
Proof.
  destruct t as [|c t]; [reflexivity|]. cbn [next_lower camel_from]. intros E. f_equal. unfold camel_piece.
  rewrite E. reflexivity.
Qed.
Lemma camel_from_lowers : forall t p q, starts_word (Some p) = false ->
  camel_from (Some p) t = lowers t ++ camel_from (Some q) (after t).
Proof.
  induction t as [|c t IH]; intros p q Hp; [reflexivity|]. cbn [lowers after]. destruct (is_lower c) eqn:E.
  - cbn [camel_from]. unfold camel_piece at 1.
    assert (c =? 46 = false) by (unfold is_lower in E; lia). assert (c =? 95 = false) by (unfold is_lower in E; lia).
    rewrite H, H0, E, Hp. cbn [andb app]. f_equal. apply IH. cbn. unfold is_lower in E. unfold is_digit. lia.
  - cbn [app]. apply prev_indep. exact E.
Qed.
Lemma lxor_lower c : is_lower c = true -> Z.lxor c 32 = c - 32.
Proof.
  intros H. assert (L : 97 <= c <= 122) by (unfold is_lower in H; lia).
  replace c with (64 + 32 + (c - 96)) by lia. set (d := c - 96). assert (1 <= d <= 26) by (unfold d; lia). clearbody d.
  assert (D : d = 1 \/ d = 2 \/ d = 3 \/ d = 4 \/ d = 5 \/ d = 6 \/ d = 7 \/ d = 8 \/ d = 9 \/ d = 10 \/ d = 11 \/ d = 12 \/ d = 13 \/
    d = 14 \/ d = 15 \/ d = 16 \/ d = 17 \/ d = 18 \/ d = 19 \/ d = 20 \/ d = 21 \/ d = 22 \/ d = 23 \/ d = 24 \/ d = 25 \/ d = 26) by lia.
  repeat (destruct D as [->|D]; [reflexivity|]). subst d. reflexivity.
Qed.
Lemma camel_loop_ok s : forall fuel i out prev rest, 0 <= i -> zdrop i s = rest -> (length rest <= fuel)%nat ->
  starts_word prev = true \/ next_lower rest = false -> (prev = None -> hd_error rest <> Some 95) ->
  camel_loop fuel s i out = Ok (out ++ camel_from prev rest).
Proof.
  induction fuel as [|fuel IH]; intros i out prev rest Hi H Hf Hs Hn.
  - destruct rest; [|cbn in Hf; lia]. cbn [camel_loop camel_from]. rewrite app_nil_r.
    assert (zlen s <= i) by (apply zdrop_end; assumption). destruct (Z.ltb_spec i (zlen s)); [lia|reflexivity].
  - destruct rest as [|c t].
    { cbn [camel_loop camel_from]. rewrite app_nil_r.
      assert (zlen s <= i) by (apply zdrop_end; assumption). destruct (Z.ltb_spec i (zlen s)); [lia|reflexivity]. }
    destruct (zdrop_step s i c t Hi H) as [H1 H2]. cbn [length] in Hf.
    cbn [camel_loop]. destruct (Z.ltb_spec i (zlen s)); [|lia].
    rewrite (index_nth s i c t Hi H). cbn [bind]. rewrite (lower_next_ok s i c t Hi H). cbn [bind camel_from].
    destruct (Z.eqb_spec c 95) as [->|N95].
    { cbn [andb]. assert (Hp : prev <> None) by (intros ->; apply (Hn eq_refl); reflexivity).
      unfold camel_piece. cbn [Z.eqb]. change (95 =? 46) with false. change (95 =? 95) with true. cbv iota.
      destruct prev as [p|]; [clear Hp|congruence].
      destruct (next_lower t) eqn:EL.
      - destruct t as [|n t]; [discriminate EL|]. cbn [hd_error]. cbn [next_lower] in EL. rewrite EL. cbn [app].
        apply IH; try lia; try assumption; [left; reflexivity|discriminate].
      - change (is_digit 95) with false. change (is_lower 95) with false. cbv iota.
        destruct (camel_inner_ok s t (length s) i (out ++ [95]) 95 Hi H) as (c' & E1 & E2).
        { assert (length t = Z.to_nat (zlen t)) by (unfold zlen; lia).
          assert (zlen (95 :: t) = zlen s - i) by (rewrite <- H; apply zlen_zdrop; lia). rewrite zlen_cons in H4. unfold zlen in H3, H4. lia. }
        rewrite E1. cbn [bind].
        assert (L : lowers t = []) by (destruct t as [|n t]; [reflexivity|]; cbn in *; rewrite EL; reflexivity).
        assert (A : after t = t) by (destruct t as [|n t]; [reflexivity|]; cbn in *; rewrite EL; reflexivity).
        rewrite L in *. rewrite A in *. rewrite (zlen_nil (A := Z)), Z.add_0_r, app_nil_r in *.
        rewrite (IH (i + 1) (out ++ [95]) (Some 95) t); try lia; try assumption; [|right; exact EL|discriminate].
        destruct t as [|n t]; [rewrite <- app_assoc; reflexivity|]. cbn [hd_error]. cbn [next_lower] in EL. rewrite EL.
        rewrite <- app_assoc. reflexivity. }
    cbn [andb]. unfold camel_piece. replace (c =? 95) with false by lia.
    destruct (Z.eqb_spec c 46) as [->|N46].
    { cbn [app]. apply IH; try lia; try assumption; [left; reflexivity|discriminate]. }
    destruct (is_digit c) eqn:ED.
    { replace (is_lower c) with false by (unfold is_digit in ED; unfold is_lower; lia). cbn [andb].
      rewrite (IH (i + 1) (out ++ [c]) (Some c) t); try lia; try assumption.
      - rewrite <- app_assoc. reflexivity.
      - left. cbn. rewrite ED. apply orb_true_r.
      - discriminate. }
    set (c1 := if is_lower c then Z.lxor c 32 else c).
    destruct (camel_inner_ok s t (length s) i (out ++ [c1]) c Hi H) as (c' & E1 & E2).
    { assert (zlen (c :: t) = zlen s - i) by (rewrite <- H; apply zlen_zdrop; lia). rewrite zlen_cons in H3. unfold zlen in H3. lia. }
    rewrite E1. cbn [bind].
    destruct (zdrop_step s (i + zlen (lowers t)) c' (after t)) as [H3 _]; [pose proof (zlen_nonneg (lowers t)); lia|exact E2|].
    rewrite (IH (i + zlen (lowers t) + 1) ((out ++ [c1]) ++ lowers t) (Some 0) (after t)).
    + rewrite (camel_from_lowers t c 0). 2:{ cbn. rewrite ED. lia. }
      rewrite <- !app_assoc. f_equal. cbn [app]. unfold c1. destruct (is_lower c) eqn:EL.
      * rewrite (lxor_lower c EL). destruct Hs as [Hs|Hs]; [|cbn in Hs; congruence]. rewrite Hs. reflexivity.
      * cbn [andb]. reflexivity.
    + pose proof (zlen_nonneg (lowers t)). lia.
    + exact H3.
    + pose proof (after_len t). unfold zlen in H4. lia.
    + right. apply after_next.
    + discriminate.
Qed.
Theorem camel_exact s : CamelCase s = Ok (camel_spec s).
Proof.
  unfold CamelCase, camel_spec. destruct s as [|c t]; [reflexivity|].
  destruct (Z.eqb_spec (zlen (c :: t)) 0) as [E|_]; [rewrite zlen_cons in E; pose proof (zlen_nonneg t); lia|].
  cbn [index]. change (index (c :: t) 0) with (@Ok Z c). cbn [bind].
  destruct (Z.eqb_spec c 95) as [->|N].
  - rewrite (camel_loop_ok (95 :: t) _ 1 [] (Some 95) t); [|lia|reflexivity|cbn; lia|left; reflexivity|discriminate].
    cbn [app camel_from]. reflexivity.
  - rewrite (camel_loop_ok (c :: t) _ 0 [] None (c :: t)); [reflexivity|lia|reflexivity|lia|left; reflexivity|].
    cbn. congruence.
Qed.
