(** Proofs about whole requests to the Go generator. *)
From Coq Require Import String.
From Verif Require Import Base Utf8 NameModel NameSpec NameThms NameThms2 NameThms3 NameThms4 GenTables EmitModel EmitSpec EmitThms EmitThms2 EmitThms3 PkgModel PkgSpec.

(** ---- names ---- *)
Lemma last_name_nodot s : ~ In 46 s -> last_name s = s.
Proof.
  destruct s as [|c t]; [reflexivity|]. intros H. cbn [last_name].
  destruct (existsb (Z.eqb 46) (c :: t)) eqn:E; [|reflexivity]. apply existsb_exists in E. destruct E as (x & Hx & E).
  exfalso. apply H. replace 46 with x by lia. exact Hx.
Qed.
Lemma last_name_dot a s : last_name (a ++ 46 :: s) = last_name s.
Proof.
  induction a as [|c a IH].
  - cbn [app last_name]. cbn [existsb]. reflexivity.
  - cbn [app last_name]. replace (existsb (Z.eqb 46) (c :: a ++ 46 :: s)) with true; [exact IH|].
    symmetry. apply existsb_exists. exists 46. split; [right; apply in_or_app; right; left; reflexivity|reflexivity].
Qed.
Lemma last_component_iff s n : last_component s n <-> last_name s = n.
Proof.
  split.
  - induction 1 as [s H|a s n _ IH]; [apply last_name_nodot, H|]. rewrite last_name_dot. exact IH.
  - intros <-. induction s as [|c s IH]; [apply lc_one; intros []|].
    cbn [last_name]. destruct (existsb (Z.eqb 46) (c :: s)) eqn:E.
    + destruct (in_dec Z.eq_dec 46 s) as [Hi|Hn].
      * generalize dependent (last_name s). clear E. intros q IH. destruct IH as [t Ht|a t n Ht]; [contradiction|].
        change (c :: a ++ 46 :: t) with ((c :: a) ++ 46 :: t). apply lc_dot. exact Ht.
      * assert (c = 46). { apply existsb_exists in E. destruct E as (x & Hx & E). destruct Hx as [->|Hx]; [lia|]. exfalso. apply Hn. replace 46 with x by lia. exact Hx. }
        subst c. apply (lc_dot []). exact IH.
    + apply lc_one. intros H. assert (existsb (Z.eqb 46) (c :: s) = true); [|congruence]. apply existsb_exists. exists 46. split; [exact H|reflexivity].
Qed.
Lemma full_last s : full_name s -> last_name s <> [].
Proof.
  induction 1 as [s H|s t H _ IH]; [|rewrite last_name_dot; exact IH].
  rewrite last_name_nodot; [destruct H as (c & t & -> & _); discriminate|]. destruct H as (c & t & -> & Hc & Ht).
  intros [H|H].
  - subst c. unfold letter, lower, upper in Hc. lia.
  - rewrite Forall_forall in Ht. apply Ht in H. unfold ident_char, letter, lower, upper, digit in H. lia.
Qed.
Theorem clause_iff f n : p_package f = [] \/ full_name (p_package f) -> clause_of f n <-> package_name f = n.
Proof.
  intros HP. unfold clause_of, package_name. rewrite last_component_iff. destruct HP as [E|HP].
  - rewrite E. cbn [last_name]. split; [intros [(_ & ->)|(H & <-)]; [reflexivity|congruence]|]. intros <-. left. auto.
  - pose proof (full_last _ HP) as N. destruct (last_name (p_package f)) as [|c t] eqn:E; [congruence|]. split.
    + intros [(E1 & ->)|(_ & H)]; [|exact H]. rewrite E1 in E. discriminate E.
    + intros <-. right. split; [discriminate|reflexivity].
Qed.

(** names never start with a lower case letter *)
Definition no_lower (n : bytes) : Prop := forall c t, n = c :: t -> is_lower c = false.
Lemma camel_no_lower s : no_lower (camel s).
Proof. intros c t E. exact (camel_never_lower s (camel s) (camel_ok s) c t E). Qed.
Lemma camel_map_no_lower s : no_lower (camel s ++ text "Map").
Proof. rewrite <- camel_map. apply camel_no_lower. Qed.
Lemma new_no_lower s : no_lower (text "New" ++ s).
Proof. intros c t E. injection E as <- _. reflexivity. Qed.
Theorem names_no_lower v2 f n : In n (go_names (go_file v2 f)) -> no_lower n.
Proof.
  intros H. unfold go_names in H. apply in_flat_map in H. destruct H as (d & Hd & Hn). apply in_go_file in Hd.
  destruct Hd as [->|[(e & _ & Hd)|(m & _ & Hd)]].
  - destruct Hn as [<-|[]]. destruct v2; intros c t E; injection E as <- _; reflexivity.
  - apply in_go_enum in Hd. destruct Hd as [->|(i & x & _ & ->)]; destruct Hn as [<-|[]]; apply camel_no_lower.
  - unfold go_struct_decls in Hd. apply in_app_or in Hd. destruct Hd as [Hd|Hd].
    + apply in_go_map in Hd. destruct Hd as (fd & k & v & _ & _ & [->|[->|[->| ->]]]); cbn [go_name In] in Hn;
        first [destruct Hn as [<-|[]]|destruct Hn]; [apply camel_map_no_lower|apply new_no_lower].
    + cbn [In] in Hd. destruct Hd as [<-|[<-|[<-|[<-|[<-|[<-|[]]]]]]]; cbn [go_name In] in Hn; first [destruct Hn as [<-|[]]|destruct Hn]; [apply camel_no_lower|apply new_no_lower].
Qed.
Lemma no_lower_keyword n : no_lower n -> ~ In n go_keywords.
Proof. intros H I. cbn in I. repeat (destruct I as [<-|I]; [specialize (H _ _ eq_refl); discriminate H|]). destruct I. Qed.
Lemma no_lower_predeclared n : no_lower n -> ~ In n go_predeclared.
Proof. intros H I. cbn in I. repeat (destruct I as [<-|I]; [specialize (H _ _ eq_refl); discriminate H|]). destruct I. Qed.
Lemma types_names ds n : In n (go_types ds) -> In n (go_names ds).
Proof.
  unfold go_types, go_names. rewrite !in_flat_map. intros (d & Hd & Hn). exists d. split; [exact Hd|]. destruct d; exact Hn || destruct Hn.
Qed.

(** ---- the request ---- *)
Lemma generate_cons v2 f fs : Generate v2 (f :: fs) =
  if negb (p_generate f) then Generate v2 fs
  else if forallb rendered (go_file v2 (p_desc f))
       then option_map (cons (mkgofile (FileName (p_prefix f)) (p_gopath f) (Some (package_name f, RequiredImports v2)) (go_file v2 (p_desc f)))) (Generate v2 fs)
       else None.
Proof.
  cbn [Generate]. unfold ExecuteTemplate. destruct (negb (p_generate f)); [reflexivity|]. cbv zeta.
  destruct (forallb rendered (go_file v2 (p_desc f))); [|reflexivity]. destruct (Generate v2 fs); reflexivity.
Qed.
Definition output (v2 : bool) (f : protofile) : gofile :=
  mkgofile (FileName (p_prefix f)) (p_gopath f) (Some (package_name f, RequiredImports v2)) (go_file v2 (p_desc f)).
Theorem generate_some v2 fs os : Generate v2 fs = Some os <->
  os = map (output v2) (filter p_generate fs) /\ (forall f, In f fs -> p_generate f = true -> forallb rendered (go_file v2 (p_desc f)) = true).
Proof.
  revert os. induction fs as [|f fs IH]; intros os.
  - cbn. split; [intros E; injection E as <-; split; [reflexivity|intros f []]|intros (-> & _); reflexivity].
  - rewrite generate_cons. cbn [filter]. destruct (p_generate f) eqn:Eg; cbn [negb].
    + destruct (forallb rendered (go_file v2 (p_desc f))) eqn:Er.
      * split.
        -- intros H. destruct (Generate v2 fs) as [os'|]; [|discriminate]. cbn in H. injection H as <-. destruct (proj1 (IH os') eq_refl) as [-> H2].
           split; [reflexivity|]. intros g [<-|Hg] Eg'; auto.
        -- intros (-> & H). rewrite (proj2 (IH (map (output v2) (filter p_generate fs)))); [reflexivity|]. split; [reflexivity|].
           intros g Hg. apply H. right. exact Hg.
      * split; [discriminate|]. intros (_ & H). rewrite (H f (or_introl eq_refl) Eg) in Er. discriminate.
    + rewrite IH. split; intros (E & H); (split; [exact E|]); intros g Hg; [|apply H; right; exact Hg].
      destruct Hg as [<-|Hg]; [congruence|]. apply H, Hg.
Qed.

(** which files can be rendered *)
Lemma scalar_returned k : go_typeLUT k = None <-> k = KEnum \/ k = KMessage \/ k = KGroup.
Proof. destruct k; cbn; split; intros H; try discriminate; auto; destruct H as [H|[H|H]]; discriminate. Qed.
Lemma find_returned fd : returned (FindValue fd) = true <-> forall k, f_typ fd = TScalar k -> go_typeLUT k <> None.
Proof.
  unfold FindValue. destruct (f_typ fd) as [k|s|s|k v].
  - destruct (go_typeLUT k) eqn:E; cbn; split; try discriminate; auto.
    + intros _ k' H. injection H as <-. congruence.
    + intros H. exfalso. apply (H k eq_refl E).
  - destruct (f_many fd); rewrite camel_ok; cbn; split; intros; congruence || auto.
  - rewrite camel_ok. cbn [bind]. destruct (f_many fd); cbn; split; intros; congruence || auto.
  - rewrite camel_ok. cbn; split; intros; congruence || auto.
Qed.
Theorem rendered_iff v2 f : plain_file f -> forallb rendered (go_file v2 f) = true <-> ~ has_group f.
Proof.
  intros HP. rewrite forallb_forall. split.
  - intros H (m & fd & Hm & Hf & Et). 
    assert (R : returned (FindValue fd) = true).
    { assert (K : In (GoStruct (camel (m_full m)) (map (fun f => (camel (f_name f), FindValue f)) (m_fields m))) (go_file v2 f)).
      { apply go_struct_iff. exists m. split; [exact Hm|]. split; [apply camel_ok|reflexivity]. }
      specialize (H _ K). cbn [rendered] in H. rewrite forallb_forall in H. apply (H (camel (f_name fd), FindValue fd)).
      apply List.in_map_iff. exists fd. auto. }
    apply find_returned with (k := KGroup) in R; [|exact Et]. apply R. reflexivity.
  - intros H d Hd. apply in_go_file in Hd. destruct Hd as [->|[(e & _ & Hd)|(m & Hm & Hd)]]; [reflexivity| |].
    + apply in_go_enum in Hd. destruct Hd as [->|(i & x & _ & ->)]; reflexivity.
    + apply in_app_or in Hd. destruct Hd as [Hd|Hd].
      * apply in_go_map in Hd. destruct Hd as (fd & k & v & Hf & Et & Hd). pose proof (proj2 (HP m fd Hm Hf)) as P. rewrite Et in P. destruct P as [Pk Pv].
        assert (V : forall g t, f_typ g = t -> plain_value t -> returned (FindValue g) = true).
        { intros g t Eg Pt. apply find_returned. intros k' E' N. rewrite Eg in E'. rewrite E' in Pt. unfold plain_value in Pt. apply scalar_returned in N. destruct Pt as (P1 & P2 & P3). destruct N as [N|[N|N]]; contradiction. }
        destruct Hd as [->|[->|[->| ->]]]; try reflexivity. cbn [rendered].
        rewrite (V (map_key fd k) k eq_refl Pk), (V (map_value fd v) v eq_refl Pv). reflexivity.
      * cbn [In] in Hd. destruct Hd as [<-|[<-|[<-|[<-|[<-|[<-|[]]]]]]]; try reflexivity. cbn [rendered]. apply forallb_forall.
        intros x Hx. apply List.in_map_iff in Hx. destruct Hx as (fd & <- & Hf). cbn [snd]. apply find_returned. intros k Ek N. apply scalar_returned in N.
        pose proof (proj2 (HP m fd Hm Hf)) as P. rewrite Ek in P. unfold plain_type in P. destruct N as [N|[N|N]]; try (destruct P; contradiction).
        apply H. exists m, fd. subst k. auto.
Qed.

(** ---- imports ---- *)
Lemma method_exists v2 f : (exists r x, In (GoMethod r x) (go_file v2 f)) <-> exists m, has_message f m.
Proof.
  split.
  - intros (r & x & H). apply go_method_iff in H. destruct H as [(m & Hm & _)|(m & fd & kt & vt & p & Hm & _)]; exists m; exact Hm.
  - intros (m & Hm). exists (camel (m_full m)), (str "Encode"). apply go_method_iff. left. exists m. split; [exact Hm|]. split; [apply camel_ok|].
    right. left. reflexivity.
Qed.
Lemma qualifier_iff v2 f n : In n (flat_map qualifiers (go_file v2 f)) <-> n = str "errors" \/ (n = str "polyglot" /\ exists m, has_message f m).
Proof.
  rewrite in_flat_map, <- method_exists with (v2 := v2). split.
  - intros (d & Hd & Hn). destruct d; cbn [qualifiers In] in Hn; try (exfalso; exact Hn); destruct Hn as [<-|[]]; [left; reflexivity|right].
    split; [reflexivity|]. eauto.
  - intros [->|(-> & r & x & H)]; [|exists (GoMethod r x); split; [exact H|left; reflexivity]].
    exists (GoVar (str (if v2 then "ErrDecodeNil" else "NilDecode"))). split; [apply go_var_iff; reflexivity|left; reflexivity].
Qed.

(** ---- members ---- *)
Lemma structs_flat {D} (st : msgd -> list D) m : structs st m = flat_map st (structs (fun k => [k]) m).
Proof.
  induction m as [full entry fields enums nested IH] using msgd_ind'. cbn [structs]. rewrite flat_map_app. cbn [flat_map]. rewrite app_nil_r. f_equal.
  induction IH as [|n ns Hn _ IHn]; [reflexivity|]. cbn [flat_map]. rewrite flat_map_app, IHn. f_equal. destruct (m_entry n); [reflexivity|exact Hn].
Qed.
Definition all_messages (f : filed) : list msgd := flat_map (structs (fun k => [k])) (d_msgs f).
Lemma all_messages_in f m : In m (all_messages f) <-> has_message f m.
Proof.
  unfold all_messages, has_message. rewrite in_flat_map. split; intros (t & Ht & H); exists t; (split; [exact Ht|]).
  - apply structs_in in H. destruct H as (k & Hk & [<-|[]]). exact Hk.
  - apply structs_in. exists m. split; [exact H|left; reflexivity].
Qed.
(** anything collected from the declarations that enums do not contribute to *)
Lemma collect {B} (g : godecl -> list B) (v2 : bool) f : (forall e d, In d (go_enum e) -> g d = []) -> g (GoVar (text (if v2 then "ErrDecodeNil" else "NilDecode"))) = [] ->
  flat_map g (go_file v2 f) = flat_map (fun m => flat_map g (go_struct_decls m)) (all_messages f).
Proof.
  intros He Hv. assert (ZE : forall es : list enumd, flat_map g (flat_map go_enum es) = []).
  { induction es as [|e es IH]; [reflexivity|]. cbn [flat_map]. rewrite flat_map_app, IH, app_nil_r.
    assert (A : forall l, (forall d, In d l -> g d = []) -> flat_map g l = []).
    { induction l as [|d l IHl]; intros H; [reflexivity|]. cbn [flat_map]. rewrite (H d (or_introl eq_refl)). apply IHl. intros x Hx. apply H. right. exact Hx. }
    apply A, He. }
  unfold go_file. cbn [flat_map]. replace (if v2 then text "ErrDecodeNil" else text "NilDecode") with (text (if v2 then "ErrDecodeNil" else "NilDecode")) by (destruct v2; reflexivity).
  rewrite Hv. cbn [app]. unfold body. rewrite flat_map_app, ZE. cbn [app]. unfold messages, all_messages.
  induction (d_msgs f) as [|m ms IH]; [reflexivity|]. cbn [flat_map]. rewrite !flat_map_app, ZE, IH. cbn [app]. f_equal.
  rewrite structs_flat. clear. induction (structs (fun k : msgd => [k]) m) as [|k ks IH]; [reflexivity|]. cbn [flat_map]. rewrite flat_map_app, IH. reflexivity.
Qed.
