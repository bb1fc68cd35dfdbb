(** Lemmas about the emitted declarations. *)
From Coq Require Import String.
From Verif Require Import Base Utf8 NameModel NameSpec NameThms NameThms3 NameThms4 GenTables EmitModel EmitSpec.

Section Ind.
Variable P : msgd -> Prop.
Hypothesis H : forall full entry fields enums nested, Forall P nested -> P (mkmsg full entry fields enums nested).
Fixpoint msgd_ind' (m : msgd) : P m :=
  match m with
  | mkmsg full entry fields enums nested =>
      H full entry fields enums nested
        ((fix all (l : list msgd) : Forall P l := match l with [] => Forall_nil _ | x :: l => Forall_cons x (msgd_ind' x) (all l) end) nested)
  end.
End Ind.

Lemma camel_ok s : CamelCase s = Ok (camel s).
Proof. unfold camel. rewrite camel_exact. reflexivity. Qed.
Lemma camel_is s n : CamelCase s = Ok n <-> n = camel s.
Proof. rewrite camel_ok. split; congruence. Qed.

Lemma structs_in {D} (st : msgd -> list D) m d : In d (structs st m) <-> exists k, inside m k /\ In d (st k).
Proof.
  revert d. induction m as [full entry fields enums nested IH] using msgd_ind'. intros d. cbn [structs].
  rewrite in_app_iff, in_flat_map. split.
  - intros [(n & Hn & Hd)|Hd].
    + destruct (m_entry n) eqn:E; [destruct Hd|]. rewrite Forall_forall in IH. apply (IH n Hn) in Hd. destruct Hd as (k & Hk & Hd).
      exists k. split; [|exact Hd]. eapply inside_nested; [exact Hn|exact E|exact Hk].
    + eexists. split; [apply inside_self|exact Hd].
  - intros (k & Hk & Hd). inversion Hk as [|m' n k' Hn En Hi]; subst.
    + right. exact Hd.
    + left. exists n. split; [exact Hn|]. rewrite En. rewrite Forall_forall in IH. apply (IH n Hn). exists k. split; assumption.
Qed.
Lemma messages_in {D} (en : enumd -> list D) st ms d : In d (messages en st ms) <->
  (exists t e, In t ms /\ In e (m_enums t) /\ In d (en e)) \/ (exists t k, In t ms /\ inside t k /\ In d (st k)).
Proof.
  unfold messages. rewrite in_flat_map. split.
  - intros (t & Ht & Hd). apply in_app_or in Hd. destruct Hd as [Hd|Hd].
    + apply in_flat_map in Hd. destruct Hd as (e & He & Hd). left. eauto.
    + apply structs_in in Hd. destruct Hd as (k & Hk & Hd). right. eauto.
  - intros [(t & e & Ht & He & Hd)|(t & k & Ht & Hk & Hd)]; exists t; (split; [exact Ht|]); apply in_or_app.
    + left. apply in_flat_map. eauto.
    + right. apply structs_in. eauto.
Qed.
Lemma body_in {D} (en : enumd -> list D) st f d : In d (body en st f) <->
  (exists e, shallow_enum f e /\ In d (en e)) \/ (exists m, has_message f m /\ In d (st m)).
Proof.
  unfold body. rewrite in_app_iff, in_flat_map, messages_in. unfold shallow_enum, has_message. split.
  - intros [(e & He & Hd)|[(t & e & Ht & He & Hd)|(t & k & Ht & Hk & Hd)]].
    + left. exists e. split; [left; exact He|exact Hd].
    + left. exists e. split; [right; eauto|exact Hd].
    + right. exists k. split; [eauto|exact Hd].
  - intros [(e & [He|(t & Ht & He)] & Hd)|(m & (t & Ht & Hk) & Hd)]; [left; eauto|right; left; eauto 7|right; right; eauto 7].
Qed.

(** ---- numbering ---- *)
Lemma numbered_nth {A} (l : list A) : forall i n, nth_error (numbered i l) n = option_map (fun x => (i + Z.of_nat n, x)) (nth_error l n).
Proof.
  induction l as [|x l IH]; intros i [|n]; try reflexivity.
  - cbn [numbered nth_error option_map]. rewrite Z.add_0_r. reflexivity.
  - cbn [numbered nth_error]. rewrite IH. destruct (nth_error l n); [|reflexivity]. cbn [option_map]. do 2 f_equal. lia.
Qed.
Lemma numbered_in {A} (l : list A) i k x : In (k, x) (numbered i l) <-> exists n, nth_error l n = Some x /\ k = i + Z.of_nat n.
Proof.
  split.
  - intros H. apply In_nth_error in H. destruct H as (n & H). rewrite numbered_nth in H. destruct (nth_error l n) as [y|] eqn:E; [|discriminate].
    cbn in H. injection H as <- <-. exists n. split; [exact E|reflexivity].
  - intros (n & H & ->). apply (nth_error_In _ n). rewrite numbered_nth, H. reflexivity.
Qed.
Lemma numbered_length {A} (l : list A) : forall i, length (numbered i l) = length l.
Proof. induction l as [|x l IH]; intros i; [reflexivity|]. cbn [numbered length]. rewrite IH. reflexivity. Qed.

(** ---- Go ---- *)
Lemma in_go_enum d e : In d (go_enum e) <-> d = GoEnum (camel (e_full e)) \/
  exists i x, nth_error (e_values e) i = Some x /\ d = GoConst (camel (v_full x)) (camel (e_full e)) (Z.of_nat i).
Proof.
  unfold go_enum. cbn [In]. rewrite in_map_iff. split.
  - intros [H|((k & x) & E & H)]; [left; auto|]. apply numbered_in in H. destruct H as (n & H & ->). right. exists n, x. split; [exact H|].
    rewrite <- E. reflexivity.
  - intros [->|(i & x & H & ->)]; [left; reflexivity|]. right. exists (Z.of_nat i, x). split; [reflexivity|]. apply numbered_in.
    exists i. split; [exact H|reflexivity].
Qed.
Lemma in_go_file v2 f d : In d (go_file v2 f) <-> d = GoVar (if v2 then text "ErrDecodeNil" else text "NilDecode") \/
  (exists e, shallow_enum f e /\ In d (go_enum e)) \/ (exists m, has_message f m /\ In d (go_struct_decls m)).
Proof. unfold go_file. cbn [In]. rewrite body_in. split; intros [H|H]; auto. Qed.
Lemma in_go_map d m : In d (flat_map go_mapfield (m_fields m)) <-> exists fd k v, In fd (m_fields m) /\ f_typ fd = TMap k v /\
  (d = GoMap (camel (f_full fd) ++ text "Map") (FindValue (map_key fd k)) (FindValue (map_value fd v)) \/
   d = GoFunc (text "New" ++ camel (f_full fd) ++ text "Map") \/
   d = GoMethod (camel (f_full fd) ++ text "Map") (text "Encode") \/ d = GoMethod (camel (f_full fd) ++ text "Map") (text "decode")).
Proof.
  rewrite in_flat_map. split.
  - intros (fd & Hf & Hd). unfold go_mapfield in Hd. destruct (f_typ fd) as [| | |k v] eqn:E; try destruct Hd.
    + exists fd, k, v. split; [exact Hf|]. split; [exact E|]. left. auto.
    + exists fd, k, v. split; [exact Hf|]. split; [exact E|]. repeat (destruct H as [H|H]; [subst; auto|]). destruct H.
  - intros (fd & k & v & Hf & E & Hd). exists fd. split; [exact Hf|]. unfold go_mapfield. rewrite E. cbn [In].
    destruct Hd as [->|[->|[->| ->]]]; auto.
Qed.
Theorem go_types_iff v2 f n : In n (go_types (go_file v2 f)) <->
  (exists e, shallow_enum f e /\ CamelCase (e_full e) = Ok n) \/
  (exists m, has_message f m /\ CamelCase (m_full m) = Ok n) \/
  (exists m fd k v p, has_message f m /\ In fd (m_fields m) /\ f_typ fd = TMap k v /\ CamelCase (f_full fd) = Ok p /\ n = p ++ text "Map").
Proof.
  unfold go_types. rewrite in_flat_map. split.
  - intros (d & Hd & Hn). apply in_go_file in Hd. destruct Hd as [->|[(e & He & Hd)|(m & Hm & Hd)]]; [destruct Hn| |].
    + apply in_go_enum in Hd. destruct Hd as [->|(i & x & _ & ->)]; [|destruct Hn]. destruct Hn as [<-|[]]. left. exists e. split; [exact He|apply camel_ok].
    + unfold go_struct_decls in Hd. apply in_app_or in Hd. destruct Hd as [Hd|Hd].
      * apply in_go_map in Hd. destruct Hd as (fd & k & v & Hf & Et & Hd). right. right.
        destruct Hd as [->|[->|[->| ->]]]; try destruct Hn as []. 
        { subst n. exists m, fd, k, v, (camel (f_full fd)). repeat split; auto. apply camel_ok. } { destruct H. }
      * repeat (destruct Hd as [<-|Hd]; [try destruct Hn as []|]); try destruct Hd.
        { subst n. right. left. exists m. split; [exact Hm|apply camel_ok]. } { destruct H. }
  - intros [(e & He & En)|[(m & Hm & En)|(m & fd & k & v & p & Hm & Hf & Et & Ep & ->)]].
    + apply camel_is in En. subst n. exists (GoEnum (camel (e_full e))). split; [|left; reflexivity]. apply in_go_file. right. left.
      exists e. split; [exact He|]. apply in_go_enum. left. reflexivity.
    + apply camel_is in En. subst n. exists (GoStruct (camel (m_full m)) (map (fun f => (camel (f_name f), FindValue f)) (m_fields m))).
      split; [|left; reflexivity]. apply in_go_file. right. right. exists m. split; [exact Hm|]. unfold go_struct_decls. apply in_or_app. right. left. reflexivity.
    + apply camel_is in Ep. subst p. exists (GoMap (camel (f_full fd) ++ text "Map") (FindValue (map_key fd k)) (FindValue (map_value fd v))).
      split; [|left; reflexivity]. apply in_go_file. right. right. exists m. split; [exact Hm|]. unfold go_struct_decls. apply in_or_app. left.
      apply in_go_map. exists fd, k, v. auto.
Qed.
Lemma structs_count m : length (filter is_struct (structs go_struct_decls m)) = count m.
Proof.
  assert (A : forall k, length (filter is_struct (go_struct_decls k)) = 1%nat).
  { intros k. unfold go_struct_decls. rewrite filter_app, app_length. cbn [filter is_struct app length]. 
    assert (B : filter is_struct (flat_map go_mapfield (m_fields k)) = []).
    { induction (m_fields k) as [|fd l IH]; [reflexivity|]. cbn [flat_map]. rewrite filter_app, IH, app_nil_r. unfold go_mapfield.
      destruct (f_typ fd); reflexivity. }
    rewrite B. reflexivity. }
  induction m as [full entry fields enums nested IH] using msgd_ind'. cbn [structs count]. rewrite filter_app, app_length, A, Nat.add_comm. f_equal.
  induction nested as [|n l IHl]; [reflexivity|]. inversion IH; subst. cbn [flat_map map list_sum fold_right]. rewrite filter_app, app_length.
  unfold list_sum in IHl. rewrite IHl by assumption. destruct (m_entry n); [reflexivity|]. rewrite H1. reflexivity.
Qed.
Theorem go_struct_count v2 f : length (filter is_struct (go_file v2 f)) = message_count f.
Proof.
  unfold go_file, body, messages, message_count. cbn [filter is_struct]. rewrite filter_app, app_length.
  assert (E : forall es, filter is_struct (flat_map go_enum es) = []).
  { induction es as [|e es IH]; [reflexivity|]. cbn [flat_map]. rewrite filter_app, IH, app_nil_r. unfold go_enum. cbn [filter is_struct].
    induction (numbered 0 (e_values e)) as [|iv l IHl]; [reflexivity|exact IHl]. }
  rewrite E. cbn [length Nat.add]. induction (d_msgs f) as [|m l IH]; [reflexivity|]. cbn [flat_map map list_sum fold_right].
  rewrite !filter_app, !app_length, E, structs_count. cbn [length Nat.add]. unfold list_sum in IH. rewrite IH. reflexivity.
Qed.
Theorem go_struct_iff v2 f n fs : In (GoStruct n fs) (go_file v2 f) <->
  exists m, has_message f m /\ CamelCase (m_full m) = Ok n /\ fs = map (fun fd => (camel (f_name fd), FindValue fd)) (m_fields m).
Proof.
  rewrite in_go_file. split.
  - intros [H|[(e & _ & H)|(m & Hm & H)]]; [discriminate H| |].
    + apply in_go_enum in H. destruct H as [H|(i & x & _ & H)]; discriminate H.
    + unfold go_struct_decls in H. apply in_app_or in H. destruct H as [H|H].
      * apply in_go_map in H. destruct H as (fd & k & v & _ & _ & H). repeat (destruct H as [H|H]; [discriminate H|]). discriminate H.
      * destruct H as [H|H].
        { injection H as <- <-. exists m. split; [exact Hm|]. split; [apply camel_ok|reflexivity]. }
        repeat (destruct H as [H|H]; [discriminate H|]). destruct H.
  - intros (m & Hm & En & ->). apply camel_is in En. subst n. right. right. exists m. split; [exact Hm|]. apply in_or_app. right. left. reflexivity.
Qed.
Theorem go_const_iff v2 f n t v : In (GoConst n t v) (go_file v2 f) <->
  exists e i x, shallow_enum f e /\ nth_error (e_values e) i = Some x /\ v = Z.of_nat i /\ CamelCase (v_full x) = Ok n /\ CamelCase (e_full e) = Ok t.
Proof.
  rewrite in_go_file. split.
  - intros [H|[(e & He & H)|(m & Hm & H)]]; [discriminate H| |].
    + apply in_go_enum in H. destruct H as [H|(i & x & Hx & H)]; [discriminate H|]. injection H as -> -> ->. exists e, i, x.
      repeat split; auto; apply camel_ok.
    + unfold go_struct_decls in H. apply in_app_or in H. destruct H as [H|H].
      * apply in_go_map in H. destruct H as (fd & k & w & _ & _ & H). repeat (destruct H as [H|H]; [discriminate H|]). discriminate H.
      * repeat (destruct H as [H|H]; [discriminate H|]). destruct H.
  - intros (e & i & x & He & Hx & -> & E1 & E2). apply camel_is in E1, E2. subst. right. left. exists e. split; [exact He|].
    apply in_go_enum. right. exists i, x. auto.
Qed.

(** ---- The names FindValue writes are the declared ones ---- *)
Lemma camel_from_app_upper s : forall prev c t, is_lower c = false -> (s = [] -> prev <> None) ->
  camel_from prev (s ++ c :: t) = camel_from prev s ++ camel_from (Some (last s (match prev with Some p => p | None => 0 end))) (c :: t).
Proof.
  induction s as [|a s IH]; intros prev c t Hc Hp.
  - destruct prev as [p|]; [reflexivity|]. exfalso. apply Hp; reflexivity.
  - cbn [app camel_from]. rewrite <- app_assoc. f_equal.
    + unfold camel_piece. destruct (a =? 46); [reflexivity|]. destruct (a =? 95); [|reflexivity]. destruct prev as [p|]; [|reflexivity].
      destruct s as [|b s]; [|reflexivity]. cbn [app hd_error]. rewrite Hc. reflexivity.
    + rewrite IH by (auto; discriminate). f_equal. f_equal. f_equal. destruct s as [|b s]; [reflexivity|]. 
      clear. revert b. induction s as [|x s IH]; intros b; [reflexivity|]. cbn [last]. apply IH.
Qed.
Lemma camel_map s : camel (s ++ text "Map") = camel s ++ text "Map".
Proof.
  assert (E : forall u, camel u = camel_spec u) by (intros u; unfold camel; rewrite camel_exact; reflexivity).
  rewrite !E. unfold camel_spec. change (text "Map") with [77; 97; 112]. destruct s as [|a s]; [reflexivity|].
  rewrite camel_from_app_upper by (reflexivity || discriminate). f_equal.
Qed.
(** FindValue puts "[]" in front before converting: the first letter is then no longer the first *)
Lemma camel_slice c s : lower c -> exists r, camel (c :: s) = (c - 32) :: r /\ camel (text "[]" ++ c :: s) = text "[]" ++ c :: r.
Proof.
  intros H. assert (E : forall u, camel u = camel_spec u) by (intros u; unfold camel; rewrite camel_exact; reflexivity).
  rewrite !E. unfold camel_spec. exists (camel_from (Some c) s). change (text "[]") with [91; 93]. unfold lower in H.
  assert (L : is_lower c = true) by (unfold is_lower; lia).
  assert (D : c =? 46 = false) by lia. assert (U : c =? 95 = false) by lia.
  split; cbn [app camel_from]; unfold camel_piece; rewrite ?D, ?U, ?L; reflexivity.
Qed.

(** ---- References ---- *)
Lemma append2 a b : AppendString [a; b] = a ++ b.
Proof. rewrite append_string. cbn [concat]. rewrite app_nil_r. reflexivity. Qed.
Lemma append3 a b c : AppendString [a; b; c] = a ++ b ++ c.
Proof. rewrite append_string. cbn [concat]. rewrite app_nil_r. reflexivity. Qed.
Theorem enum_ref v2 f fd e : f_typ fd = TEnum (e_full e) -> f_many fd = false -> shallow_enum f e ->
  exists n, FindValue fd = Ok n /\ In n (go_types (go_file v2 f)).
Proof.
  intros Et Em He. exists (camel (e_full e)). unfold FindValue. rewrite Et, Em. split; [apply camel_ok|].
  apply go_types_iff. left. exists e. split; [exact He|apply camel_ok].
Qed.
Theorem msg_ref v2 f fd m : f_typ fd = TMsg (m_full m) -> has_message f m ->
  exists n, FindValue fd = Ok ((if f_many fd then text "[]*" else text "*") ++ n) /\ In n (go_types (go_file v2 f)) /\
    In (GoFunc (text "New" ++ n)) (go_file v2 f).
Proof.
  intros Et Hm. exists (camel (m_full m)). split; [|split].
  - unfold FindValue. rewrite Et, camel_ok. cbn [bind]. destruct (f_many fd); rewrite ?append2, ?append3; reflexivity.
  - apply go_types_iff. right. left. exists m. split; [exact Hm|apply camel_ok].
  - apply in_go_file. right. right. exists m. split; [exact Hm|]. apply in_or_app. right. right. left. reflexivity.
Qed.
Theorem map_ref v2 f m fd k v : has_message f m -> In fd (m_fields m) -> f_typ fd = TMap k v ->
  exists n, FindValue fd = Ok n /\ In (GoMap n (FindValue (map_key fd k)) (FindValue (map_value fd v))) (go_file v2 f) /\
    In (GoFunc (text "New" ++ n)) (go_file v2 f).
Proof.
  intros Hm Hf Et. exists (camel (f_full fd) ++ text "Map"). split; [|split].
  - unfold FindValue. rewrite Et, append2, camel_ok, camel_map. reflexivity.
  - apply in_go_file. right. right. exists m. split; [exact Hm|]. apply in_or_app. left. apply in_go_map. exists fd, k, v. auto.
  - apply in_go_file. right. right. exists m. split; [exact Hm|]. apply in_or_app. left. apply in_go_map. exists fd, k, v. auto.
Qed.

(** ---- Names that CamelCase sends to a capitalised word ---- *)
Lemma camel_rest' t : forall p, letter p -> Forall ident_char t -> Forall lower (camel_from (Some p) t) -> t = camel_from (Some p) t.
Proof.
  induction t as [|d t IH]; intros p Hp Ht Hw; [reflexivity|]. inversion Ht as [|? ? Hd Ht']; subst. cbn [camel_from] in Hw |- *.
  assert (D : d =? 46 = false) by (unfold ident_char, letter, lower, upper, digit in Hd; lia).
  assert (SW : starts_word (Some p) = false) by (unfold starts_word, is_digit; unfold letter, lower, upper in Hp; lia).
  unfold camel_piece in *. rewrite D, SW, andb_false_r in *. destruct (Z.eqb_spec d 95) as [->|N].
  - exfalso. destruct t as [|n t]; cbn [hd_error] in Hw.
    + inversion Hw; subst. unfold lower in *. lia.
    + destruct (is_lower n) eqn:En.
      * cbn [app camel_from] in Hw. unfold camel_piece in Hw. assert (A1 : n =? 46 = false) by (unfold is_lower in En; lia).
        assert (A2 : n =? 95 = false) by (unfold is_lower in En; lia). rewrite A1, A2, En in Hw. change (starts_word (Some 95)) with true in Hw.
        cbn [andb app] in Hw. inversion Hw; subst. unfold is_lower, lower in *. lia.
      * cbn [app] in Hw. inversion Hw; subst. unfold lower in *. lia.
  - cbn [app] in *. inversion Hw as [|? ? H1 H2]; subst. f_equal. apply IH; [left; exact H1|exact Ht'|exact H2].
Qed.
Lemma camel_rest t : forall p w, letter p -> Forall ident_char t -> camel_from (Some p) t = w -> Forall lower w -> t = w.
Proof. intros p w Hp Ht <- Hw. apply camel_rest'; assumption. Qed.
Theorem camel_word_iff s c w : identifier s -> lower c -> Forall lower w ->
  (CamelCase s = Ok ((c - 32) :: w) <-> In s (spellings c w)).
Proof.
  intros Hs Hc Hw. rewrite camel_exact. unfold camel_spec. split.
  - intros E. assert (E' : camel_from None s = (c - 32) :: w) by congruence. clear E.
    destruct Hs as (a & t & -> & Ha & Ht). unfold spellings. cbn [camel_from] in E'. unfold camel_piece in E'.
    assert (Da : a =? 46 = false) by (unfold letter, lower, upper in Ha; lia). rewrite Da in E'.
    destruct (Z.eqb_spec a 95) as [->|Na].
    + cbn [app] in E'. destruct t as [|d t]; [discriminate E'|]. inversion Ht as [|? ? Hd Ht']; subst. cbn [camel_from] in E'. unfold camel_piece in E'.
      assert (Dd : d =? 46 = false) by (unfold ident_char, letter, lower, upper, digit in Hd; lia). rewrite Dd in E'.
      destruct (Z.eqb_spec d 95) as [->|Nd].
      * destruct t as [|n t]; cbn [hd_error] in E'; [injection E' as E1 E2; unfold lower in Hc; lia|]. inversion Ht' as [|? ? Hn Ht'']; subst.
        destruct (is_lower n) eqn:En; [|cbn [app] in E'; injection E' as E1 E2; unfold lower in Hc; lia].
        cbn [app camel_from] in E'. unfold camel_piece in E'. assert (A1 : n =? 46 = false) by (unfold is_lower in En; lia).
        assert (A2 : n =? 95 = false) by (unfold is_lower in En; lia). rewrite A1, A2, En in E'. change (starts_word (Some 95)) with true in E'.
        cbn [andb app] in E'. injection E' as E1 E2. assert (n = c) by lia. subst n.
        apply camel_rest in E2; [subst t; cbn; auto 6|left; exact Hc|exact Ht''|exact Hw].
      * change (starts_word (Some 95)) with true in E'. rewrite andb_true_r in E'. destruct (is_lower d) eqn:Ed; cbn [app] in E'; injection E' as E1 E2.
        { assert (d = c) by lia. subst d. apply camel_rest in E2; [subst t; cbn; auto 6|left; exact Hc|exact Ht'|exact Hw]. }
        { subst d. apply camel_rest in E2; [subst t; cbn; auto 6|right; unfold lower, upper in *; lia|exact Ht'|exact Hw]. }
    + cbn [starts_word] in E'. rewrite andb_true_r in E'. destruct (is_lower a) eqn:Ea; cbn [app] in E'; injection E' as E1 E2.
      { assert (a = c) by lia. subst a. apply camel_rest in E2; [subst t; cbn; auto 6|left; exact Hc|exact Ht|exact Hw]. }
      { subst a. apply camel_rest in E2; [subst t; cbn; auto 6|right; unfold lower, upper in *; lia|exact Ht|exact Hw]. }
  - intros H.
    assert (LW : forall w p, (letter p) -> Forall lower w -> camel_from (Some p) w = w).
    { clear. induction w as [|d w IH]; intros p Hp H; [reflexivity|]. inversion H; subst. cbn [camel_from]. rewrite IH; [|left; assumption|assumption].
      unfold camel_piece. assert (A1 : d =? 46 = false) by (unfold lower in *; lia). assert (A2 : d =? 95 = false) by (unfold lower in *; lia).
      assert (SW : starts_word (Some p) = false) by (unfold starts_word, is_digit; unfold letter, lower, upper in Hp; lia).
      rewrite A1, A2, SW, andb_false_r. reflexivity. }
    assert (B1 : c =? 46 = false) by (unfold lower in Hc; lia). assert (B2 : c =? 95 = false) by (unfold lower in Hc; lia).
    assert (B3 : is_lower c = true) by (unfold is_lower, lower in *; lia).
    assert (B4 : (c - 32) =? 46 = false) by (unfold lower in Hc; lia). assert (B5 : (c - 32) =? 95 = false) by (unfold lower in Hc; lia).
    assert (B6 : is_lower (c - 32) = false) by (unfold is_lower, lower in *; lia).
    assert (W1 : camel_from (Some c) w = w) by (apply LW; [left; exact Hc|exact Hw]).
    assert (W2 : camel_from (Some (c - 32)) w = w) by (apply LW; [right; unfold upper, lower in *; lia|exact Hw]).
    destruct H as [<-|[<-|[<-|[<-|[<-|[]]]]]]; cbn [camel_from hd_error]; unfold camel_piece;
      change (95 =? 46) with false; change (95 =? 95) with true; cbv iota; rewrite ?B1, ?B2, ?B3, ?B4, ?B5, ?B6;
      change (starts_word (Some 95)) with true; change (starts_word None) with true; cbn [andb app]; rewrite ?W1, ?W2; reflexivity.
Qed.

(** ---- Fields and methods ---- *)
Lemma method_names v2 f n x : In (GoMethod n x) (go_file v2 f) -> In x (map text ["Error"; "Encode"; "Decode"; "decode"]%string).
Proof.
  rewrite in_go_file. intros [H|[(e & _ & H)|(m & _ & H)]]; [discriminate H| |].
  - apply in_go_enum in H. destruct H as [H|(i & y & _ & H)]; discriminate H.
  - unfold go_struct_decls in H. apply in_app_or in H. destruct H as [H|H].
    + apply in_go_map in H. destruct H as (fd & k & v & _ & _ & [H|[H|[H|H]]]); try discriminate H; injection H as -> ->; cbn; auto.
    + repeat (destruct H as [H|H]; [try discriminate H; injection H as <- <-; cbn; auto|]). destruct H.
Qed.
Lemma method_in v2 f m n x : has_message f m -> CamelCase (m_full m) = Ok n -> In x (map text ["Error"; "Encode"; "Decode"; "decode"]%string) ->
  In (GoMethod n x) (go_file v2 f).
Proof.
  intros Hm En Hx. apply camel_is in En. subst n. apply in_go_file. right. right. exists m. split; [exact Hm|]. apply in_or_app. right.
  cbn in Hx. repeat (destruct Hx as [<-|Hx]; [cbn; auto 8|]). destruct Hx.
Qed.
Lemma camel_never_lower s : forall t, CamelCase s = Ok t -> forall c u, t = c :: u -> is_lower c = false.
Proof.
  intros t E c u Et. rewrite camel_exact in E. assert (E' : camel_spec s = c :: u) by congruence. clear E Et. unfold camel_spec in E'.
  assert (G : forall s prev, starts_word prev = true -> camel_from prev s = c :: u -> is_lower c = false).
  { clear. induction s as [|a s IH]; intros prev Hp E; [discriminate E|]. cbn [camel_from] in E. unfold camel_piece in E.
    destruct (Z.eqb_spec a 46) as [->|N1]; [cbn [app] in E; apply (IH (Some 46)); [reflexivity|exact E]|].
    destruct (Z.eqb_spec a 95) as [->|N2].
    { destruct prev as [p|]; [|cbn [app] in E; apply (IH (Some 95)); [reflexivity|exact E]].
      destruct s as [|n s]; cbn [hd_error] in E; [injection E as <- _; reflexivity|].
      destruct (is_lower n); cbn [app] in E; [apply (IH (Some 95)); [reflexivity|exact E]|injection E as <- _; reflexivity]. }
    rewrite Hp, andb_true_r in E. destruct (is_lower a) eqn:L; cbn [app] in E; injection E as <- _; [|exact L]. unfold is_lower in *. lia. }
  apply (G s None); [reflexivity|exact E'].
Qed.
