(** Proofs about whole requests to the Rust generator: Rust's rules for the generated module. *)
From Coq Require Import String Permutation.
From Verif Require Import Base Utf8 NameModel NameSpec NameThms NameThms2 NameThms3 NameThms4 GenTables EmitModel EmitSpec EmitThms EmitThms2 EmitThms3 PkgModel PkgSpec PkgThms PkgThms2 PkgThms3 RsPkgModel RsPkgSpec RsPkgThms.

(** ---- words ---- *)
Lemma words_ident x : forall cur, Forall ident_char x -> words_from cur x = match cur ++ x with [] => [] | w => [w] end.
Proof.
  induction x as [|c x IH]; intros cur H; [rewrite app_nil_r; destruct cur; reflexivity|]. inversion H as [|? ? Hc Hx]; subst. cbn [words_from].
  replace (name_char c) with true.
  - rewrite IH by exact Hx. rewrite <- app_assoc. reflexivity.
  - unfold name_char, ident_char, letter, lower, upper, digit, is_lower, is_upper, is_digit in *. lia.
Qed.
Lemma words_sep a c b : name_char c = false -> forall cur, words_from cur (a ++ c :: b) = words_from cur a ++ words b.
Proof.
  intros E. induction a as [|d a IH]; intros cur.
  - cbn [app words_from]. rewrite E. destruct cur; reflexivity.
  - cbn [app words_from]. destruct (name_char d); [apply IH|]. destruct cur; [apply IH|]. cbn [app]. rewrite IH. reflexivity.
Qed.
Lemma words_name n : Forall ident_char n -> n <> [] -> words n = [n].
Proof. intros H N. unfold words. rewrite words_ident by exact H. destruct n; [congruence|reflexivity]. Qed.
Lemma words_vec x : words (text "Vec<" ++ x ++ text ">") = text "Vec" :: words x.
Proof.
  change (text "Vec<" ++ x ++ text ">") with (text "Vec" ++ 60 :: (x ++ 62 :: [])). unfold words. rewrite words_sep by reflexivity.
  unfold words. rewrite words_sep by reflexivity. cbn [words_from words]. rewrite app_nil_r. reflexivity.
Qed.
Lemma words_map k v : words (text "HashMap<" ++ k ++ text ", " ++ v ++ text ">") = text "HashMap" :: words k ++ words v.
Proof.
  change (text "HashMap<" ++ k ++ text ", " ++ v ++ text ">") with (text "HashMap" ++ 60 :: (k ++ 44 :: 32 :: (v ++ 62 :: []))). unfold words.
  rewrite words_sep by reflexivity. unfold words. rewrite words_sep by reflexivity. unfold words. cbn [words_from name_char]. 
  change (name_char 32) with false. cbv iota. rewrite words_sep by reflexivity. cbn [words words_from]. rewrite app_nil_r. reflexivity.
Qed.
Lemma letter_camel s : letter_name s -> exported (camel s).
Proof. intros [HF HL]. rewrite camel_spec_eq. apply full_exported; assumption. Qed.
Lemma exported_words n : exported n -> words n = [n].
Proof.
  intros [H _]. apply words_name; [apply ident_chars_of, H|]. destruct H as (c & t & -> & _). discriminate.
Qed.

Lemma nodup_item l : forall x y, NoDup (map rs_item l) -> In x l -> In y l -> rs_item x = rs_item y -> x = y.
Proof.
  induction l as [|z l IH]; intros x y N Hx Hy E; [destruct Hx|]. cbn [map] in N. apply NoDup_cons_iff in N. destruct N as [N1 N].
  destruct Hx as [->|Hx], Hy as [->|Hy]; [reflexivity| | |exact (IH x y N Hx Hy E)].
  - exfalso. apply N1. rewrite E. apply List.in_map_iff. eauto.
  - exfalso. apply N1. rewrite <- E. apply List.in_map_iff. eauto.
Qed.
Lemma nodup_types l : NoDup (map rs_item l) -> NoDup (flat_map rs_type l).
Proof.
  induction l as [|z l IH]; cbn [map flat_map]; intros N; [constructor|]. apply NoDup_cons_iff in N. destruct N as [N1 N].
  assert (S : forall n, In n (flat_map rs_type l) -> In n (map rs_item l)).
  { intros n Hn. apply in_flat_map in Hn. destruct Hn as (x & Hx & Hn). apply List.in_map_iff. exists x. split; [|exact Hx].
    destruct x; first [destruct Hn as [<-|[]]|destruct Hn]; reflexivity. }
  destruct z; cbn [rs_type app rs_item] in *; [apply IH, N| |]; (constructor; [intros K; apply N1, S, K|apply IH, N]).
Qed.
Lemma enum_parts e : map fst (map (fun iv : Z * evald => (v_name (snd iv), fst iv)) (numbered 0 (e_values e))) = map v_name (e_values e).
Proof.
  generalize 0. induction (e_values e) as [|x l IH]; intros i; [reflexivity|]. cbn [numbered map fst snd]. f_equal. apply IH.
Qed.
Lemma types_items l : (forall n, ~ In (RsTrait n) l) -> map rs_item l = flat_map rs_type l.
Proof.
  induction l as [|x l IH]; intros H; [reflexivity|]. cbn [map flat_map]. rewrite IH by (intros n K; apply (H n); right; exact K).
  destruct x as [n|n vs|n fs]; [exfalso; apply (H n); left; reflexivity|reflexivity|reflexivity].
Qed.
Lemma nodup_middle {A} (a b : list A) e d : NoDup (a ++ b) -> ~ In e (a ++ b) -> ~ In d (a ++ b) -> e <> d -> NoDup (a ++ [e; d] ++ b).
Proof.
  intros N He Hd Ne. apply (Permutation.Permutation_NoDup (l := e :: d :: a ++ b)).
  - apply (Permutation.Permutation_app_swap_app [e; d] a b).
  - constructor; [intros [K|K]; [exact (Ne (eq_sym K))|exact (He K)]|]. constructor; [exact Hd|exact N].
Qed.
Lemma items_nodup f : NoDup (flat_map rs_type (rs_file f)) -> ~ In (text "Encode") (flat_map rs_type (rs_file f)) -> ~ In (text "Decode") (flat_map rs_type (rs_file f)) ->
  NoDup (map rs_item (rs_file f)).
Proof.
  unfold rs_file. set (a := flat_map rs_enum (d_enums f)). set (b := messages rs_enum rs_struct_decls (d_msgs f)).
  rewrite !flat_map_app, !map_app. cbn [flat_map rs_type app]. intros N He Hd.
  assert (Ta : forall n, ~ In (RsTrait n) a).
  { intros n K. apply in_flat_map in K. destruct K as (e & _ & [K|[]]). discriminate K. }
  assert (Tb : forall n, ~ In (RsTrait n) b).
  { intros n K. apply messages_in in K. destruct K as [(t & e & _ & _ & [K|[]])|(t & k & _ & _ & [K|[]])]; discriminate K. }
  rewrite (types_items a Ta), (types_items b Tb). change (map rs_item [RsTrait (text "Encode"); RsTrait (text "Decode")]) with [text "Encode"; text "Decode"].
  apply nodup_middle; [exact N|exact He|exact Hd|discriminate].
Qed.

Section Module.
Variables (env : list msgd) (f : filed) (o : rsfile) (fuel : nat) (d : rsdeps).
Hypothesis Hd : DependencyAnalysis env fuel f = Some d.
Hypothesis Hi : q_imports o = rs_imports d.
Hypothesis Hf : q_decls o = rs_file f.
Hypothesis HP : rs_plain f.

Definition known (n : bytes) : Prop := In n (q_imports o ++ map rs_item (q_decls o) ++ rust_std ++ rust_primitive).
Lemma items_iff n : In n (map rs_item (q_decls o)) <-> rust_type_of f n \/ In n (map str ["Encode"; "Decode"]%string).
Proof using Hf.
  rewrite Hf. unfold rust_type_of. rewrite <- rs_types_iff. rewrite List.in_map_iff, in_flat_map. split.
  - intros (x & <- & Hx). destruct x as [t|t vs|t fs]; cbn [rs_item].
    + right. apply in_rs_file in Hx. destruct Hx as [E|[E|[(e & _ & [E|[]])|(m & _ & [E|[]])]]]; try discriminate E; injection E as ->; [left|right; left]; reflexivity.
    + left. exists (RsEnum t vs). split; [exact Hx|left; reflexivity].
    + left. exists (RsStruct t fs). split; [exact Hx|left; reflexivity].
  - intros [(x & Hx & Hn)|[<-|[<-|[]]]].
    + exists x. split; [|exact Hx]. destruct x; first [destruct Hn as [<-|[]]|destruct Hn]; reflexivity.
    + exists (RsTrait (text "Encode")). split; [reflexivity|]. apply in_rs_file. auto.
    + exists (RsTrait (text "Decode")). split; [reflexivity|]. apply in_rs_file. auto.
Qed.
Lemma known_iff n : known n <-> imported env f n \/ rust_type_of f n \/ In n (map str ["Encode"; "Decode"]%string) \/ In n rust_std \/ In n rust_primitive.
Proof using Hd Hi Hf.
  unfold known. rewrite !in_app_iff, items_iff, Hi, (imports_iff env fuel f d Hd). tauto.
Qed.
Lemma known_camel s : letter_name s -> known (camel s) <-> rust_named env f s.
Proof using Hd Hi Hf.
  intros HL. rewrite known_iff. unfold rust_named. split.
  - intros H. exists (camel s). split; [apply camel_ok|]. destruct H as [H|[H|[H|[H|H]]]]; auto. exfalso.
    apply letter_camel in HL. destruct HL as (_ & c & t & E & U). rewrite E in H. cbn in H. unfold upper in U.
    repeat (destruct H as [H|H]; [injection H as H _; lia|]). destruct H.
  - intros (n & E & H). apply camel_is in E. subst n. tauto.
Qed.
Lemma std_known n : In n rust_std \/ In n rust_primitive -> known n.
Proof using Hd Hi Hf. intros H. apply known_iff. tauto. Qed.
Lemma scalar_words k s : rs_typeLUT k = Some s -> forall n, In n (words (text s)) -> In n rust_std \/ In n rust_primitive.
Proof using Type. clear. destruct k; cbn; intros E; try discriminate E; injection E as <-; intros n H; vm_compute in H; vm_compute; tauto. Qed.
(** the names in a type *)
Lemma value_known many t x : (forall k v, t <> TMap k v) -> rs_plain_type t -> rs_findValue many t = Ok x ->
  (forall n, In n (words x) -> known n) <-> rust_refers env f t.
Proof using Hd Hi Hf.
  intros NM P E. destruct t as [k|s|s|k v]; [| | |exfalso; apply (NM k v); reflexivity].
  - cbn [rust_refers]. split; [auto|]. intros _. cbn [rs_findValue] in E. destruct (rs_typeLUT k) as [w|] eqn:Ek; [|discriminate].
    assert (Ex : x = if many then text "Vec<" ++ text w ++ text ">" else text w) by (injection E as E; symmetry; exact E). subst x. clear E. intros n Hn. apply std_known.
    destruct many; [|eapply scalar_words; eauto]. rewrite words_vec in Hn. destruct Hn as [<-|Hn]; [left; vm_compute; auto|eapply scalar_words; eauto].
  - cbn [rs_plain_type] in P. cbn [rs_findValue] in E. rewrite camel_ok in E. cbn [bind] in E.
    assert (Ex : x = if many then text "Vec<" ++ camel s ++ text ">" else camel s) by (injection E as E; symmetry; exact E). subst x. clear E. cbn [rust_refers]. rewrite <- known_camel by exact P.
    pose proof (exported_words _ (letter_camel _ P)) as W. destruct many; rewrite ?words_vec, W; split.
    + intros H. apply H. right. left. reflexivity.
    + intros H n [<-|[<-|[]]]; [apply std_known; left; vm_compute; auto|exact H].
    + intros H. apply H. left. reflexivity.
    + intros H n [<-|[]]. exact H.
  - cbn [rs_plain_type] in P. cbn [rs_findValue] in E. rewrite camel_ok in E. cbn [bind] in E.
    assert (Ex : x = if many then text "Vec<" ++ camel s ++ text ">" else camel s) by (injection E as E; symmetry; exact E). subst x. clear E. cbn [rust_refers]. rewrite <- known_camel by exact P.
    pose proof (exported_words _ (letter_camel _ P)) as W. destruct many; rewrite ?words_vec, W; split.
    + intros H. apply H. right. left. reflexivity.
    + intros H n [<-|[<-|[]]]; [apply std_known; left; vm_compute; auto|exact H].
    + intros H. apply H. left. reflexivity.
    + intros H n [<-|[]]. exact H.
Qed.
Lemma plain_value_type t : rs_plain_value t -> rs_plain_type t /\ (forall k v, t <> TMap k v).
Proof using Type. clear. intros H. destruct t; cbn in *; (split; [tauto|discriminate]) || destruct H. Qed.
Lemma value_returns t : rs_plain_value t -> exists x, rs_findValue false t = Ok x.
Proof using Type.
  clear. destruct t as [k|s|s|k v]; cbn [rs_plain_value rs_findValue]; intros H; [|rewrite camel_ok; cbn; eauto|rewrite camel_ok; cbn; eauto|destruct H].
  destruct H as (H1 & H2 & H3). destruct k; cbn; eauto; congruence.
Qed.
Lemma type_known many t x : rs_plain_type t -> rs_findValue many t = Ok x ->
  (forall n, In n (words x) -> known n) <-> rust_refers env f t /\ (forall k v, t = TMap k v -> known (text "HashMap")).
Proof using Hd Hi Hf.
  intros P E. destruct t as [k|s|s|k v].
  1-3: match type of E with rs_findValue _ ?t = _ => assert (NM : forall a b, t <> TMap a b) by (intros; discriminate) end; rewrite (value_known many _ x NM P E); split; [intros H; split; [exact H|discriminate]|intros [H _]; exact H].
  cbn [rs_plain_type] in P. destruct P as [Pk Pv]. destruct (plain_value_type k Pk) as [Tk Nk], (plain_value_type v Pv) as [Tv Nv].
  destruct (value_returns k Pk) as (a & Ea), (value_returns v Pv) as (b & Eb). cbn [rs_findValue] in E. rewrite Ea, Eb in E. cbn [bind] in E.
  assert (Ex : x = text "HashMap<" ++ a ++ text ", " ++ b ++ text ">") by congruence. subst x. clear E.
  rewrite words_map. cbn [rust_refers]. rewrite <- (value_known false k a Nk Tk Ea), <- (value_known false v b Nv Tv Eb). split.
  - intros H. split; [split; intros n Hn; apply H; right; apply in_or_app; auto|]. intros _ _ _. apply H. left. reflexivity.
  - intros ((Ha & Hb) & Hm) n [<-|Hn]; [apply (Hm k v eq_refl)|]. apply in_app_or in Hn. destruct Hn; auto.
Qed.

Hypothesis HR : forallb rs_rendered (rs_file f) = true.
Lemma field_text m fd : has_message f m -> In fd (m_fields m) -> exists x, rs_findValue (f_many fd) (f_typ fd) = Ok x.
Proof using HR.
  intros Hm Hfd. rewrite forallb_forall in HR.
  assert (K : In (RsStruct (camel (m_full m)) (map (fun fd => (SnakeCase (f_name fd), rs_findValue (f_many fd) (f_typ fd))) (m_fields m))) (rs_file f)).
  { apply rs_struct_iff. exists m. split; [exact Hm|]. split; [apply camel_ok|reflexivity]. }
  apply HR in K. cbn [rs_rendered] in K. rewrite forallb_forall in K.
  specialize (K (SnakeCase (f_name fd), rs_findValue (f_many fd) (f_typ fd))). cbn [snd] in K.
  destruct (rs_findValue (f_many fd) (f_typ fd)) as [x|] eqn:E; [eauto|]. exfalso. assert (returned (@Panic bytes) = true); [|discriminate]. apply K.
  apply List.in_map_iff. exists fd. rewrite E. auto.
Qed.
Lemma map_known : known (text "HashMap") <-> imports_maps env f \/ rust_type_of f (str "HashMap").
Proof using Hd Hi Hf.
  rewrite known_iff. unfold imported. split.
  - intros [[H|[[H _]|[_ H]]]|[H|[H|[H|H]]]]; auto; exfalso; vm_compute in H; intuition discriminate.
  - intros [H|H]; [left; right; right; split; [reflexivity|exact H]|right; left; exact H].
Qed.
Theorem module_iff : module_ok o <-> rs_proto_ok env f.
Proof using Hd Hi Hf HP HR.
  destruct HP as [P1 P2 P3].
  assert (TI : forall n, rust_type_of f n -> In n (map rs_item (q_decls o))) by (intros n H; apply items_iff; left; exact H).
  assert (SD : forall m, has_message f m -> In (RsStruct (camel (m_full m)) (map (fun fd => (SnakeCase (f_name fd), rs_findValue (f_many fd) (f_typ fd))) (m_fields m))) (q_decls o)).
  { intros m Hm. rewrite Hf. apply rs_struct_iff. exists m. split; [exact Hm|]. split; [apply camel_ok|reflexivity]. }
  assert (ED : forall e, shallow_enum f e -> In (RsEnum (camel (e_full e)) (map (fun iv : Z * evald => (v_name (snd iv), fst iv)) (numbered 0 (e_values e)))) (q_decls o)).
  { intros e He. rewrite Hf. apply in_rs_file. right. right. left. exists e. split; [exact He|left; reflexivity]. }
  assert (EV : forall n vs, In (RsEnum n vs) (q_decls o) -> exists e, shallow_enum f e /\ n = camel (e_full e) /\ vs = map (fun iv : Z * evald => (v_name (snd iv), fst iv)) (numbered 0 (e_values e))).
  { intros n vs H. rewrite Hf in H. apply in_rs_file in H. destruct H as [H|[H|[(e & He & [H|[]])|(m & _ & [H|[]])]]]; try discriminate H. injection H as <- <-. eauto. }
  assert (SV : forall n fs, In (RsStruct n fs) (q_decls o) -> exists m, has_message f m /\ fs = map (fun fd => (SnakeCase (f_name fd), rs_findValue (f_many fd) (f_typ fd))) (m_fields m)).
  { intros n fs H. rewrite Hf in H. apply rs_struct_iff in H. destruct H as (m & Hm & _ & ->). eauto. }
  assert (IM : forall x, In x (q_imports o) <-> imported env f x) by (intros x; rewrite Hi; apply (imports_iff env fuel f d Hd)).
  split.
  - intros [M1 M2 M3 M4 M5 M6 M7].
    assert (N : NoDup (map rs_item (q_decls o))).
    { clear -M2. induction (q_imports o) as [|x l IH]; [exact M2|]. cbn [app] in M2. apply NoDup_cons_iff in M2. apply IH, M2. }
    assert (KN : forall m fd x, has_message f m -> In fd (m_fields m) -> rs_findValue (f_many fd) (f_typ fd) = Ok x -> forall n, In n (words x) -> known n).
    { intros m fd x Hm Hfd E n Hn. apply (M6 _ n (SD m Hm)). cbn [rs_mentions]. apply in_flat_map. exists (SnakeCase (f_name fd), rs_findValue (f_many fd) (f_typ fd)).
      split; [apply List.in_map_iff; exists fd; auto|]. cbn [snd]. rewrite E. exact Hn. }
    split.
    + rewrite <- Hf. apply nodup_types, N.
    + intros n Hn. split; [|split].
      * intros K. apply IM in K. exact (NoDup_app_disjoint _ _ M2 n K (TI n Hn)).
      * intros K. cbn [map In] in K. destruct K as [K|K].
        { destruct (M1 n (TI n Hn)) as (_ & _ & W). apply W. rewrite <- K. vm_compute. auto 40. }
        assert (T : exists x, In x (q_decls o) /\ In n (rs_type x)).
        { rewrite Hf. apply in_flat_map, rs_types_iff. exact Hn. }
        destruct T as (x & Hx & Hn'). assert (In (RsTrait n) (q_decls o)) as Ht.
        { rewrite Hf. apply in_rs_file. destruct K as [K|[K|[]]]; [left|right; left]; rewrite <- K; reflexivity. }
        assert (E : x = RsTrait n).
        { apply (nodup_item _ _ _ N Hx Ht). destruct x; first [destruct Hn' as [<-|[]]|destruct Hn']; reflexivity. }
        subst x. destruct Hn'.
      * apply M3, TI, Hn.
    + intros m fd Hm Hfd. destruct (M4 _ (SnakeCase (f_name fd)) (SD m Hm)) as (_ & B & W); [|split; assumption].
      cbn [rs_parts]. rewrite map_map. apply List.in_map_iff. exists fd. auto.
    + intros m Hm. pose proof (M5 _ (SD m Hm)) as K. cbn [rs_parts] in K. rewrite map_map in K. exact K.
    + intros e x He Hx. destruct (M4 _ (v_name x) (ED e He)) as (_ & B & W); [|split; assumption].
      cbn [rs_parts]. rewrite enum_parts. apply List.in_map_iff. eauto.
    + intros e He. pose proof (M5 _ (ED e He)) as K. cbn [rs_parts] in K. rewrite enum_parts in K. exact K.
    + intros m fd Hm Hfd. destruct (field_text m fd Hm Hfd) as (x & E). apply (type_known (f_many fd) (f_typ fd) x); [apply (P2 m fd Hm Hfd)|exact E|].
      apply (KN m fd x Hm Hfd E).
    + intros (m & fd & k & v & Hm & Hfd & Et). destruct (field_text m fd Hm Hfd) as (x & E). apply map_known.
      apply (proj2 (proj1 (type_known (f_many fd) (f_typ fd) x (proj2 (P2 m fd Hm Hfd)) E) (KN m fd x Hm Hfd E)) k v Et).
    + intros (e & He). destruct (M7 _ _ (ED e He)) as [K _]. apply IM in K. destruct K as [K|[[_ K]|[K _]]]; [vm_compute in K; intuition discriminate|exact K|discriminate K].
  - intros [R1 R2 R3 R4 R5 R6 R7 R8 R9].
    assert (TX : forall n, rust_type_of f n -> exported n).
    { intros n [(e & He & E)|(m & Hm & E)]; apply camel_is in E; subst n; apply letter_camel; [apply (P3 e He)|apply (P1 m Hm)]. }
    split.
    + intros n Hn. apply items_iff in Hn. destruct Hn as [Hn|Hn].
      * pose proof (TX n Hn) as (I & c & t & E & U). split; [exact I|]. split; [intros B; rewrite B in E; injection E as <- _; unfold upper in U; lia|].
        intros K. destruct (R2 n Hn) as (_ & S & _). apply S. left.
        destruct Hn as [(e & _ & Ec)|(m & _ & Ec)]; rewrite (rust_type_keyword _ _ Ec K); reflexivity.
      * cbn [map In] in Hn. destruct Hn as [<-|[<-|[]]]; (split; [apply identb_ok; reflexivity|split; [discriminate|vm_compute; intuition discriminate]]).
    + apply NoDup_app_intro.
      * rewrite Hi. destruct d as [[] []]; cbn [rs_imports dep_enums dep_maps app]; repeat (constructor; [cbn [In]; intuition discriminate|]); constructor.
      * rewrite Hf. apply items_nodup; [exact R1| |]; intros K; apply rs_types_iff in K; apply R2 in K; destruct K as (_ & K & _); apply K; [right; left|right; right; left]; reflexivity.
      * intros x Hx K. apply IM in Hx. apply items_iff in K. destruct K as [K|K].
        -- destruct (R2 x K) as [W _]. exact (W Hx).
        -- cbn [map In] in K. destruct Hx as [Hx|[[Hx _]|[Hx _]]]; destruct K as [<-|[<-|[]]]; vm_compute in Hx; intuition discriminate.
    + intros n Hn. apply items_iff in Hn. destruct Hn as [Hn|Hn]; [apply (R2 n Hn)|]. cbn [map In] in Hn. destruct Hn as [<-|[<-|[]]]; vm_compute; intuition discriminate.
    + intros x n Hx Hn. destruct x as [t|t vs|t fs]; cbn [rs_parts] in Hn; [destruct Hn| |].
      * apply EV in Hx. destruct Hx as (e & He & _ & ->). rewrite enum_parts in Hn. apply List.in_map_iff in Hn. destruct Hn as (y & <- & Hy).
        destruct (P3 e He) as (_ & _ & I). split; [apply I, Hy|]. apply (R5 e y He Hy).
      * apply SV in Hx. destruct Hx as (m & Hm & ->). rewrite map_map in Hn. apply List.in_map_iff in Hn. destruct Hn as (fd & <- & Hfd). cbn [fst].
        split; [apply snake_identifier, (P2 m fd Hm Hfd)|]. apply (R3 m fd Hm Hfd).
    + intros x Hx. destruct x as [t|t vs|t fs]; cbn [rs_parts]; [constructor| |].
      * apply EV in Hx. destruct Hx as (e & He & _ & ->). rewrite enum_parts. apply R6, He.
      * apply SV in Hx. destruct Hx as (m & Hm & ->). rewrite map_map. apply R4, Hm.
    + intros x n Hx Hn. destruct x as [t|t vs|t fs]; cbn [rs_mentions] in Hn; try (exfalso; exact Hn). apply SV in Hx. destruct Hx as (m & Hm & ->).
      apply in_flat_map in Hn. destruct Hn as (y & Hy & Hn). apply List.in_map_iff in Hy. destruct Hy as (fd & <- & Hfd). cbn [snd] in Hn.
      destruct (field_text m fd Hm Hfd) as (x & E). rewrite E in Hn. fold (known n). revert n Hn.
      apply (type_known (f_many fd) (f_typ fd) x); [apply (P2 m fd Hm Hfd)|exact E|]. split; [apply R7 with m; assumption|].
      intros k v Et. apply map_known, R8. exists m, fd, k, v. auto.
    + intros n vs Hx. apply EV in Hx. destruct Hx as (e & He & _ & ->). split.
      * apply IM. right. left. split; [left; reflexivity|]. apply R9. eauto.
      * destruct (P3 e He) as (_ & Ne & _). destruct (e_values e); [congruence|discriminate].
Qed.
End Module.
