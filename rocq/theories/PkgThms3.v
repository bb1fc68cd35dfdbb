(** Proofs about whole requests to the Go generator: which packages follow Go's rules. *)
From Coq Require Import String.
From Verif Require Import Base Utf8 NameModel NameSpec NameThms NameThms2 NameThms3 NameThms4 GenTables EmitModel EmitSpec EmitThms EmitThms2 EmitThms3 PkgModel PkgSpec PkgThms PkgThms2.

Lemma NoDup_app_disjoint {A} (a b : list A) : NoDup (a ++ b) -> forall x, In x a -> In x b -> False.
Proof.
  induction a as [|y a IH]; cbn [app]; intros N x Ha Hb; [destruct Ha|]. apply NoDup_cons_iff in N. destruct N as [N1 N]. destruct Ha as [->|Ha].
  - apply N1, in_or_app. right. exact Hb.
  - exact (IH N x Ha Hb).
Qed.
Lemma NoDup_app_left {A} (a b : list A) : NoDup (a ++ b) -> NoDup a.
Proof.
  induction a as [|y a IH]; cbn [app]; intros N; [constructor|]. apply NoDup_cons_iff in N. destruct N as [N1 N]. constructor; [|exact (IH N)].
  intros K. apply N1, in_or_app. left. exact K.
Qed.
Lemma NoDup_app_intro {A} (a b : list A) : NoDup a -> NoDup b -> (forall x, In x a -> In x b -> False) -> NoDup (a ++ b).
Proof.
  intros Ha Hb. induction Ha as [|y a N _ IH]; cbn [app]; intros D; [exact Hb|]. constructor.
  - intros K. apply in_app_or in K. destruct K as [K|K]; [exact (N K)|exact (D y (or_introl eq_refl) K)].
  - apply IH. intros x H1 H2. exact (D x (or_intror H1) H2).
Qed.
Lemma ident_chars_of s : identifier s -> Forall ident_char s.
Proof.
  intros (c & t & -> & Hc & Ht). constructor; [|exact Ht]. unfold ident_char. destruct Hc as [H|H]; auto.
Qed.
Lemma new_identifier s : identifier s -> identifier (text "New" ++ s).
Proof.
  intros H. exists 78, ([101; 119] ++ s). split; [reflexivity|]. split; [left; right; unfold upper; lia|]. apply Forall_app. split.
  - repeat (constructor; [left; unfold letter, lower; lia|]). constructor.
  - apply ident_chars_of, H.
Qed.
Definition ident_charb (c : Z) : bool := is_lower c || is_upper c || is_digit c || (c =? 95).
Definition identb (s : bytes) : bool := match s with c :: t => (is_lower c || is_upper c || (c =? 95)) && forallb ident_charb t | [] => false end.
Lemma ident_charb_ok c : ident_charb c = true -> ident_char c.
Proof. unfold ident_charb, ident_char, letter, lower, upper, digit, is_lower, is_upper, is_digit. lia. Qed.
Lemma identb_ok s : identb s = true -> identifier s.
Proof.
  destruct s as [|c t]; [discriminate|]. cbn [identb]. intros H. apply andb_prop in H. destruct H as [Hc Ht]. exists c, t. split; [reflexivity|].
  split; [unfold letter, lower, upper, is_lower, is_upper in *; lia|]. rewrite forallb_forall in Ht. apply Forall_forall. intros x Hx. apply ident_charb_ok, Ht, Hx.
Qed.
Lemma text_usable : forall n, In n (map text ["Error"; "Encode"; "Decode"; "decode"]%string) -> usable n.
Proof.
  intros n H. cbn [map In] in H. destruct H as [<-|[<-|[<-|[<-|[]]]]]; (split; [apply identb_ok; reflexivity|split; [discriminate|vm_compute; intuition discriminate]]).
Qed.
Lemma var_usable (v2 : bool) : identifier (str (if v2 then "ErrDecodeNil" else "NilDecode")%string).
Proof. destruct v2; apply identb_ok; reflexivity. Qed.
Lemma nodup_res (l : list fieldd) : NoDup (map (fun fd => CamelCase (f_name fd)) l) <-> NoDup (map (fun fd => camel (f_name fd)) l).
Proof.
  induction l as [|x l IH]; cbn [map]; [split; constructor|]. rewrite !NoDup_cons_iff, IH, !List.in_map_iff. split; intros [H K]; (split; [|exact K]); intros (y & E & Hy); apply H; exists y.
  - rewrite !camel_ok. split; [f_equal; exact E|exact Hy].
  - rewrite !camel_ok in E. injection E as E. split; [exact E|exact Hy].
Qed.

Theorem one_file v2 o f p : o_header o = Some (p, RequiredImports v2) -> o_decls o = go_file v2 f -> plain_file f ->
  package_ok [o] <-> usable p /\ proto_ok v2 f.
Proof.
  intros Hh Hd HP.
  assert (HA : all_decls [o] = go_file v2 f) by (unfold all_decls; cbn [flat_map]; rewrite app_nil_r; exact Hd).
  split.
  - intros [C1 C2 _ C4 C5 _ C7 C8 C9 C10]. rewrite HA in *. split.
    { destruct C1 as (q & Hq & H). destruct (H o (or_introl eq_refl)) as (is & E). rewrite Hh in E. injection E as -> _. exact Hq. }
    split.
    + assert (K : In (text "polyglot") (flat_map qualifiers (o_decls o))).
      { eapply C2; [left; reflexivity|exact Hh|]. left. reflexivity. }
      rewrite Hd in K. apply qualifier_iff in K. destruct K as [K|[_ K]]; [discriminate K|exact K].
    + intros n H. apply C7. apply go_types_iff. exact H.
    + intros e x n He Hx En. apply (C4 n). apply In_nth_error in Hx. destruct Hx as (i & Hx). unfold go_names. apply in_flat_map.
      exists (GoConst n (camel (e_full e)) (Z.of_nat i)). split; [|left; reflexivity]. apply go_const_iff. exists e, i, x. repeat (split; [assumption || reflexivity|]). apply camel_ok.
    + exact C5.
    + intros m fd n Hm Hf En. apply camel_is in En. subst n.
      assert (T : In (camel (m_full m)) (go_types (go_file v2 f))) by (apply go_types_iff; right; left; exists m; split; [exact Hm|apply camel_ok]).
      assert (E : go_members (go_file v2 f) (camel (m_full m)) = _) by (apply struct_members; assumption).
      assert (F : In (camel (f_name fd)) (map (fun fd => camel (f_name fd)) (m_fields m))) by (apply List.in_map_iff; exists fd; auto).
      split.
      * apply (C8 (camel (m_full m))); [exact T|]. rewrite E. apply in_or_app. left. exact F.
      * pose proof (C9 _ T) as N. rewrite E in N. intros K.
        apply (NoDup_app_disjoint _ _ N (camel (f_name fd)) F). cbn [map In] in K |- *. change str with text in K. tauto.
    + intros m Hm. assert (T : In (camel (m_full m)) (go_types (go_file v2 f))) by (apply go_types_iff; right; left; exists m; split; [exact Hm|apply camel_ok]).
      pose proof (C9 _ T) as N. rewrite struct_members in N by assumption. apply nodup_res. apply NoDup_app_left in N. exact N.
    + apply (resolved_iff v2 f HP). intros n Hn. apply C10, Hn.
  - intros (Hp & [P1 P2 P3 P4 P5 P6 P7]).
    assert (TY : forall n, In n (go_types (go_file v2 f)) -> usable n) by (intros n H; apply P2; apply go_types_iff in H; exact H).
    assert (NK : forall n, In n (go_names (go_file v2 f)) -> ~ In n go_keywords) by (intros n H; apply no_lower_keyword; eapply names_no_lower; exact H).
    constructor; rewrite ?HA.
    + exists p. split; [exact Hp|]. intros g [<-|[]]. eexists. exact Hh.
    + intros g q is path name [<-|[]] E H. rewrite Hh in E. injection E as <- <-. rewrite Hd. apply qualifier_iff.
      cbn [RequiredImports In] in H. destruct H as [H|[H|[]]]; injection H as _ <-; [right|left; reflexivity]. split; [reflexivity|exact P1].
    + intros g q is name [<-|[]] E H. rewrite Hh in E. injection E as <- <-. rewrite Hd in H. apply qualifier_iff in H.
      destruct H as [->|[-> _]]; [right; left; reflexivity|left; reflexivity].
    + intros n H. split; [|apply NK, H]. unfold go_names in H. apply in_flat_map in H. destruct H as (d & H & Hn).
      destruct d as [x|x|x t v|x k v|x fs|x|r x]; cbn [go_name In] in Hn; destruct Hn as [<-|[]] || destruct Hn.
      * apply go_var_iff in H. subst x. apply var_usable.
      * apply TY. unfold go_types. apply in_flat_map. eexists. split; [exact H|left; reflexivity].
      * apply go_const_iff in H. destruct H as (e & i & y & He & Hy & _ & En & _). eapply P3; [exact He|eapply nth_error_In; exact Hy|exact En].
      * apply TY. unfold go_types. apply in_flat_map. eexists. split; [exact H|left; reflexivity].
      * apply TY. unfold go_types. apply in_flat_map. eexists. split; [exact H|left; reflexivity].
      * apply go_func_iff in H. destruct H as [(m & q & Hm & Eq & ->)|(m & fd & kt & vt & q & Hm & Hf & Et & Eq & ->)]; apply new_identifier.
        -- apply P2. right. left. eauto.
        -- apply P2. right. right. exists m, fd, kt, vt, q. auto.
    + exact P4.
    + intros g q is n [<-|[]] E H K. rewrite Hh in E. injection E as <- <-. apply names_no_lower in K.
      cbn [RequiredImports map snd In] in H. destruct H as [<-|[<-|[]]]; specialize (K _ _ eq_refl); discriminate K.
    + exact TY.
    + intros n x Hn Hx. destruct (members_cases v2 f P4 TY n Hn) as [E|[E|(m & Hm & ->)]].
      * rewrite E in Hx. destruct Hx.
      * rewrite E in Hx. apply text_usable. cbn [map In] in Hx |- *. tauto.
      * rewrite (struct_members v2 f P4 TY m Hm) in Hx. apply in_app_or in Hx. destruct Hx as [Hx|Hx].
        -- apply List.in_map_iff in Hx. destruct Hx as (fd & <- & Hf). apply (P5 m fd); [exact Hm|exact Hf|apply camel_ok].
        -- apply text_usable, Hx.
    + intros n Hn. destruct (members_cases v2 f P4 TY n Hn) as [E|[E|(m & Hm & ->)]].
      * rewrite E. constructor.
      * rewrite E. repeat constructor; cbn; intuition discriminate.
      * rewrite (struct_members v2 f P4 TY m Hm). apply NoDup_app_intro.
        -- apply nodup_res, P6, Hm.
        -- repeat constructor; cbn; intuition discriminate.
        -- intros x Hx K. apply List.in_map_iff in Hx. destruct Hx as (fd & <- & Hf). destruct (P5 m fd _ Hm Hf (camel_ok _)) as [_ N].
           cbn [In] in K. destruct K as [K|[K|[K|[K|[]]]]]; try (apply N; rewrite <- K; cbn [map In]; auto; fail).
           pose proof (camel_no_lower (f_name fd)) as L. rewrite <- K in L. specialize (L _ _ eq_refl). discriminate L.
    + apply (resolved_iff v2 f HP), P7.
Qed.

(** ---- whole requests ---- *)
Lemma outputs_of v2 files path : filter (out_of path) (map (output v2) (filter p_generate files)) = map (output v2) (filter (of_package path) files).
Proof.
  induction files as [|f fs IH]; [reflexivity|]. cbn [filter]. unfold of_package at 1. destruct (p_generate f); cbn [andb]; [|exact IH].
  cbn [map filter]. unfold out_of at 1. cbn [output o_path]. destruct (list_eq_dec Z.eq_dec (p_gopath f) path); cbn [map]; [f_equal|]; exact IH.
Qed.
Theorem package_iff v2 files os path :
  (forall f, In f files -> p_generate f = true -> plain_file (p_desc f)) -> Generate v2 files = Some os ->
  filter (out_of path) os <> [] ->
  package_ok (filter (out_of path) os) <-> exists f, filter (of_package path) files = [f] /\ usable (package_name f) /\ proto_ok v2 (p_desc f).
Proof.
  intros HP HG HN. apply generate_some in HG. destruct HG as [-> _]. rewrite outputs_of in *.
  destruct (filter (of_package path) files) as [|f [|g fs]] eqn:E.
  - exfalso. apply HN. reflexivity.
  - assert (If : In f files /\ of_package path f = true) by (apply filter_In; rewrite E; left; reflexivity). destruct If as [If Ef].
    unfold of_package in Ef. apply andb_prop in Ef. destruct Ef as [Eg _].
    cbn [map]. rewrite (one_file v2 (output v2 f) (p_desc f) (package_name f) eq_refl eq_refl (HP f If Eg)). split.
    + intros [H1 H2]. exists f. auto.
    + intros (f' & E' & H). injection E' as <-. exact H.
  - split.
    + intros H. exfalso. pose proof (names_once _ H) as N. unfold all_decls in N. cbn [map flat_map] in N. unfold go_names in N. rewrite !flat_map_app, !filter_app in N.
      assert (K : forall h, In (str (if v2 then "ErrDecodeNil" else "NilDecode")%string) (filter not_blank (flat_map go_name (o_decls (output v2 h))))).
      { intros h. apply filter_In. split; [|destruct v2; reflexivity]. apply in_flat_map. eexists. split; [apply go_var_iff; reflexivity|left; reflexivity]. }
      apply (NoDup_app_disjoint _ _ N _ (K f)), in_or_app. left. apply K.
    + intros (f' & E' & _). discriminate E'.
Qed.
Lemma dec_group f : has_group f \/ ~ has_group f.
Proof.
  destruct (existsb (fun m => existsb (fun fd => match f_typ fd with TScalar KGroup => true | _ => false end) (m_fields m)) (all_messages f)) eqn:E.
  - left. apply existsb_exists in E. destruct E as (m & Hm & E). apply existsb_exists in E. destruct E as (fd & Hf & E). exists m, fd.
    split; [apply all_messages_in, Hm|]. split; [exact Hf|]. destruct (f_typ fd) as [[]| | |]; (discriminate E || reflexivity).
  - right. intros (m & fd & Hm & Hf & Et). assert (existsb (fun m => existsb (fun fd => match f_typ fd with TScalar KGroup => true | _ => false end) (m_fields m)) (all_messages f) = true); [|congruence].
    apply existsb_exists. exists m. split; [apply all_messages_in, Hm|]. apply existsb_exists. exists fd. split; [exact Hf|]. rewrite Et. reflexivity.
Qed.
Theorem generate_none v2 files : (forall f, In f files -> p_generate f = true -> plain_file (p_desc f)) ->
  Generate v2 files = None <-> exists f, In f files /\ p_generate f = true /\ has_group (p_desc f).
Proof.
  intros HP. split.
  - intros H. destruct (forallb (fun f => negb (p_generate f) || forallb rendered (go_file v2 (p_desc f))) files) eqn:E.
    + exfalso. rewrite forallb_forall in E. rewrite (proj2 (generate_some v2 files (map (output v2) (filter p_generate files)))) in H; [discriminate H|]. split; [reflexivity|].
      intros f Hf Eg. specialize (E f Hf). rewrite Eg in E. exact E.
    + assert (exists f, In f files /\ (negb (p_generate f) || forallb rendered (go_file v2 (p_desc f))) = false).
      { clear -E. induction files as [|f fs IH]; [discriminate|]. cbn [forallb] in E. destruct (negb (p_generate f) || _) eqn:E1.
        - destruct (IH E) as (g & Hg & Eg). exists g. split; [right; exact Hg|exact Eg].
        - exists f. split; [left; reflexivity|exact E1]. }
      destruct H0 as (f & Hf & Ef). apply orb_false_elim in Ef. destruct Ef as [Eg Er]. apply negb_false_iff in Eg. exists f. split; [exact Hf|]. split; [exact Eg|].
      destruct (dec_group (p_desc f)) as [G|G]; [exact G|]. exfalso. apply (rendered_iff v2) in G; [congruence|]. apply HP; assumption.
  - intros (f & Hf & Eg & G). destruct (Generate v2 files) as [os|] eqn:E; [|reflexivity]. exfalso. apply generate_some in E. destruct E as [_ E].
    specialize (E f Hf Eg). apply rendered_iff in E; [contradiction|]. apply HP; assumption.
Qed.
