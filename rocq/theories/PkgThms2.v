(** Proofs about whole requests to the Go generator, second part. *)
From Coq Require Import String.
From Verif Require Import Base Utf8 NameModel NameSpec NameThms NameThms2 NameThms3 NameThms4 GenTables EmitModel EmitSpec EmitThms EmitThms2 EmitThms3 PkgModel PkgSpec PkgThms.

Definition beqb (a b : bytes) : bool := if list_eq_dec Z.eq_dec a b then true else false.
Definition sel_of (n : bytes) (b : bytes * list bytes) : list bytes := if list_eq_dec Z.eq_dec (fst b) n then snd b else [].
Definition map_block (fd : fieldd) : list (bytes * list bytes) :=
  match f_typ fd with TMap _ _ => [(camel (f_full fd) ++ text "Map", [text "Encode"; text "decode"])] | _ => [] end.
Definition blocks (m : msgd) : list (bytes * list bytes) :=
  flat_map map_block (m_fields m) ++
  [(camel (m_full m), map (fun fd => camel (f_name fd)) (m_fields m) ++ [text "Error"; text "Encode"; text "Decode"; text "decode"])].
Lemma flat_map_flat {A B C} (f : A -> list B) (g : B -> list C) l : flat_map g (flat_map f l) = flat_map (fun x => flat_map g (f x)) l.
Proof. induction l as [|x l IH]; [reflexivity|]. cbn [flat_map]. rewrite flat_map_app, IH. reflexivity. Qed.
Lemma members_blocks v2 f n : go_members (go_file v2 f) n = flat_map (sel_of n) (flat_map blocks (all_messages f)).
Proof.
  unfold go_members. rewrite collect; [|intros e d H; apply in_go_enum in H; destruct H as [->|(i & x & _ & ->)]; reflexivity|reflexivity].
  rewrite flat_map_flat. apply flat_map_ext. intros m. unfold go_struct_decls, blocks. rewrite !flat_map_app. f_equal.
  - induction (m_fields m) as [|fd fs IH]; [reflexivity|]. cbn [flat_map]. rewrite !flat_map_app, IH. f_equal. unfold go_mapfield, map_block.
    destruct (f_typ fd); try reflexivity. cbn [flat_map]. unfold sel_of. cbn [fst snd]. destruct (list_eq_dec Z.eq_dec (camel (f_full fd) ++ text "Map") n); reflexivity.
  - cbn [flat_map]. unfold sel_of. cbn [fst snd]. destruct (list_eq_dec Z.eq_dec (camel (m_full m)) n); [|reflexivity].
    cbn [app]. rewrite app_nil_r, map_map. cbn [fst]. reflexivity.
Qed.
Definition block_type (d : godecl) : list bytes := match d with GoMap n _ _ | GoStruct n _ => [n] | _ => [] end.
Lemma types_blocks v2 f : flat_map block_type (go_file v2 f) = map fst (flat_map blocks (all_messages f)).
Proof.
  rewrite collect; [|intros e d H; apply in_go_enum in H; destruct H as [->|(i & x & _ & ->)]; reflexivity|reflexivity].
  rewrite <- (map_id (flat_map _ (all_messages f))) at 1. induction (all_messages f) as [|m ms IH]; [reflexivity|]. cbn [flat_map]. rewrite !map_app, IH. f_equal.
  rewrite map_id. unfold go_struct_decls, blocks. rewrite flat_map_app, map_app. f_equal.
  induction (m_fields m) as [|fd fs IHf]; [reflexivity|]. cbn [flat_map]. rewrite flat_map_app, map_app, IHf. f_equal. unfold go_mapfield, map_block.
  destruct (f_typ fd); reflexivity.
Qed.
Lemma sub_nodup {A} (g h : A -> list bytes) p l : (forall d, g d = h d \/ g d = []) -> NoDup (filter p (flat_map h l)) -> NoDup (filter p (flat_map g l)).
Proof.
  intros H. induction l as [|d l IH]; [auto|]. cbn [flat_map]. rewrite !filter_app. intros N.
  assert (S : forall x, In x (filter p (flat_map g l)) -> In x (filter p (flat_map h l))).
  { intros x. rewrite !filter_In, !in_flat_map. intros ((y & Hy & Hx) & E). split; [|exact E]. exists y. split; [exact Hy|].
    destruct (H y) as [E1|E1]; rewrite E1 in Hx; [exact Hx|destruct Hx]. }
  assert (N2 : NoDup (filter p (flat_map h l))).
  { revert N. generalize (filter p (h d)). induction l0 as [|x xs IHx]; [auto|]. cbn [app]. intros N. apply NoDup_cons_iff in N. apply IHx, N. }
  destruct (H d) as [E|E]; rewrite E; [|exact (IH N2)].
  revert N. generalize (filter p (h d)). induction l0 as [|x xs IHx]; cbn [app]; intros N; [apply IH, N2|].
  apply NoDup_cons_iff in N. destruct N as [N1 N]. constructor; [|apply IHx, N]. intros K. apply N1. apply in_or_app. apply in_app_or in K. destruct K; auto.
Qed.
Lemma assoc_one bs n x : NoDup (filter not_blank (map fst bs)) -> not_blank n = true -> In (n, x) bs -> flat_map (sel_of n) bs = x.
Proof.
  assert (Z0 : forall bs, ~ In n (map fst bs) -> flat_map (sel_of n) bs = []).
  { induction bs0 as [|b bs0 IH]; intros H; [reflexivity|]. cbn [flat_map]. unfold sel_of at 1. destruct (list_eq_dec Z.eq_dec (fst b) n) as [E|_].
    - exfalso. apply H. left. exact E.
    - apply IH. intros K. apply H. right. exact K. }
  induction bs as [|b bs IH]; intros N B H; [destruct H|]. cbn [map filter] in N. destruct H as [->|H].
  - cbn [fst] in N. rewrite B in N. apply NoDup_cons_iff in N. destruct N as [N _]. cbn [flat_map]. rewrite Z0; [|intros K; apply N, filter_In; auto].
    unfold sel_of. cbn [fst snd]. destruct (list_eq_dec Z.eq_dec n n); [apply app_nil_r|congruence].
  - cbn [flat_map]. unfold sel_of at 1. destruct (list_eq_dec Z.eq_dec (fst b) n) as [E|_].
    + exfalso. rewrite E, B in N. apply NoDup_cons_iff in N. destruct N as [N _]. apply N, filter_In. split; [|exact B].
      apply List.in_map_iff. exists (n, x). auto.
    + apply IH; auto. destruct (not_blank (fst b)); [apply NoDup_cons_iff in N; apply N|exact N].
Qed.
Lemma not_blank_iff n : not_blank n = true <-> n <> PkgSpec.blank.
Proof. unfold not_blank. destruct (list_eq_dec Z.eq_dec n PkgSpec.blank) as [E|E]; cbn [negb]; split; intros H; (discriminate H || contradiction || auto). Qed.

Section Members.
Variables (v2 : bool) (f : filed).
Hypothesis Hnd : NoDup (filter not_blank (go_names (go_file v2 f))).
Hypothesis Hty : forall n, In n (go_types (go_file v2 f)) -> usable n.
Lemma blocks_nodup : NoDup (filter not_blank (map fst (flat_map blocks (all_messages f)))).
Proof using Hnd. rewrite <- (types_blocks v2). eapply sub_nodup; [|exact Hnd]. intros d. destruct d; cbn; auto. Qed.
Lemma struct_members m : has_message f m -> go_members (go_file v2 f) (camel (m_full m)) =
  map (fun fd => camel (f_name fd)) (m_fields m) ++ [text "Error"; text "Encode"; text "Decode"; text "decode"].
Proof using Hnd Hty.
  intros Hm. rewrite members_blocks. apply assoc_one; [apply blocks_nodup| |].
  - apply not_blank_iff. apply (Hty (camel (m_full m))). apply go_types_iff. right. left. exists m. split; [exact Hm|apply camel_ok].
  - apply in_flat_map. exists m. split; [apply all_messages_in, Hm|]. apply in_or_app. right. left. reflexivity.
Qed.
Lemma members_cases n : In n (go_types (go_file v2 f)) ->
  go_members (go_file v2 f) n = [] \/ go_members (go_file v2 f) n = [text "Encode"; text "decode"] \/ exists m, has_message f m /\ n = camel (m_full m).
Proof using Hnd Hty.
  intros H. pose proof (Hty n H) as (_ & U & _). apply not_blank_iff in U. rewrite members_blocks.
  destruct (in_dec (list_eq_dec Z.eq_dec) n (map fst (flat_map blocks (all_messages f)))) as [I|I].
  - apply List.in_map_iff in I. destruct I as ((n' & x) & E & I). cbn [fst] in E. subst n'.
    rewrite (assoc_one _ n x blocks_nodup U I). apply in_flat_map in I. destruct I as (m & Hm & I). apply all_messages_in in Hm.
    unfold blocks in I. apply in_app_or in I. destruct I as [I|[I|[]]].
    + apply in_flat_map in I. destruct I as (fd & _ & I). unfold map_block in I. destruct (f_typ fd); try (exfalso; exact I). 
      destruct I as [I|[]]. injection I as <- <-. right. left. reflexivity.
    + injection I as <- <-. right. right. exists m. auto.
  - left. clear -I. induction (flat_map blocks (all_messages f)) as [|b bs IH]; [reflexivity|]. cbn [flat_map]. unfold sel_of at 1.
    destruct (list_eq_dec Z.eq_dec (fst b) n) as [E|_]; [exfalso; apply I; left; exact E|]. apply IH. intros K. apply I. right. exact K.
Qed.
End Members.

(** ---- references ---- *)
Lemma type_name_id s : Forall ident_char s -> type_name s = s.
Proof.
  intros H. destruct H as [|c t Hc _]; [reflexivity|]. cbn [type_name].
  replace ((c =? 91) || (c =? 93) || (c =? 42)) with false; [reflexivity|]. unfold ident_char, letter, lower, upper, digit in Hc. lia.
Qed.
Lemma camel_spec_eq s : camel s = camel_spec s.
Proof. unfold camel. rewrite camel_exact. reflexivity. Qed.
Lemma camel_brackets s : camel (text "[]" ++ s) = text "[]" ++ camel_from (Some 93) s.
Proof. rewrite camel_spec_eq. reflexivity. Qed.
Lemma full_char s : full_name s -> Forall (fun c => ident_char c \/ c = 46) s.
Proof. apply full_chars. Qed.
Definition found (v2 : bool) (f : filed) (n : bytes) : Prop := In n (go_types (go_file v2 f)) \/ In n go_predeclared.
Lemma found_camel v2 f s : found v2 f (camel s) <-> go_type_of f (camel s).
Proof.
  unfold found, go_type_of. rewrite go_types_iff. split; [|auto]. intros [H|H]; [exact H|]. exfalso. revert H. apply no_lower_predeclared, camel_no_lower.
Qed.
Lemma value_refers v2 f fd : (forall k v, f_typ fd <> TMap k v) -> plain_type (f_typ fd) ->
  (forall n, In n (mention (FindValue fd)) -> found v2 f n) <-> refers f (f_many fd) (f_typ fd).
Proof.
  intros NM P. unfold FindValue. destruct (f_typ fd) as [k|s|s|k v]; [| | |exfalso; apply (NM k v); reflexivity].
  - cbn [refers]. split; [auto|]. intros _ n. destruct (go_typeLUT k) eqn:E; [|intros []]. intros H. right. revert n H.
    destruct k; cbn in E; try discriminate E; injection E as <-; destruct (f_many fd); intros n [<-|[]]; vm_compute; auto 30.
  - cbn [refers]. cbn in P. destruct (f_many fd).
    + rewrite append2, camel_ok, camel_brackets. cbn [mention In].
      assert (E : type_name (text "[]" ++ camel_from (Some 93) s) = camel_from (Some 93) s).
      { change (type_name (camel_from (Some 93) s) = camel_from (Some 93) s). apply type_name_id, camel_chars, full_char, P. }
      rewrite E. split.
      * intros H. exists (camel_from (Some 93) s). split; [rewrite camel_ok; f_equal; apply camel_brackets|].
        destruct (H _ (or_introl eq_refl)) as [K|K]; [left|right; exact K]. apply go_types_iff in K. exact K.
      * intros (n & En & H) m [<-|[]]. rewrite camel_ok in En. assert (En' : camel (text "[]" ++ s) = text "[]" ++ n) by (change (camel (str "[]" ++ s) = str "[]" ++ n); congruence).
        rewrite camel_brackets in En'. apply app_inv_head in En'. rewrite En'. destruct H as [H|H]; [left; apply go_types_iff, H|right; exact H].
    + rewrite camel_ok. cbn [mention In]. rewrite type_name_id by (rewrite camel_spec_eq; apply camel_full_chars, P). split.
      * intros H. exists (camel s). split; [reflexivity|]. apply (found_camel v2), H. left. reflexivity.
      * intros (n & En & H) m [<-|[]]. injection En as <-. apply found_camel, H.
  - cbn [refers]. cbn in P. rewrite camel_ok. cbn [bind].
    assert (E : type_name (camel s) = camel s) by (apply type_name_id; rewrite camel_spec_eq; apply camel_full_chars, P).
    assert (E1 : type_name (AppendString [text "*"; camel s]) = camel s) by (rewrite append2; exact E).
    assert (E2 : type_name (AppendString [text "[]"; text "*"; camel s]) = camel s) by (rewrite append3; exact E).
    assert (G : (forall n, In n [camel s] -> found v2 f n) <-> exists n, Ok (camel s) = Ok n /\ go_type_of f n).
    { split.
      - intros H. exists (camel s). split; [reflexivity|]. apply (found_camel v2), H. left. reflexivity.
      - intros (n & En & H) m [<-|[]]. injection En as <-. apply found_camel, H. }
    destruct (f_many fd); cbn [mention]; rewrite ?E1, ?E2; exact G.
Qed.
Lemma refers_map f many k v : refers f many (TMap k v) = (refers f false k /\ refers f false v).
Proof. reflexivity. Qed.
Theorem resolved_iff v2 f : plain_file f ->
  (forall n, In n (flat_map mentions (go_file v2 f)) -> found v2 f n) <->
  (forall m fd, has_message f m -> In fd (m_fields m) -> refers f (f_many fd) (f_typ fd)).
Proof.
  intros HP. split.
  - intros H m fd Hm Hf. pose proof (proj2 (HP m fd Hm Hf)) as P. destruct (f_typ fd) as [k|s|s|k v] eqn:Et.
    4:{ rewrite refers_map. cbn in P. destruct P as [Pk Pv].
        assert (K : In (GoMap (camel (f_full fd) ++ str "Map") (FindValue (map_key fd k)) (FindValue (map_value fd v))) (go_file v2 f)).
        { apply go_map_iff. exists m, fd, k, v, (camel (f_full fd)). repeat (split; [assumption || reflexivity || apply camel_ok|]). reflexivity. }
        assert (V : forall g t, f_typ g = t -> f_many g = false -> plain_value t -> (forall n, In n (mention (FindValue g)) -> found v2 f n) -> refers f false t).
        { intros g t <- Em Pt Hg. rewrite <- Em. apply (value_refers v2); [|unfold plain_value, plain_type in *; destruct (f_typ g); tauto|exact Hg].
          intros a b E. rewrite E in Pt. exact Pt. }
        split; [apply (V (map_key fd k) k eq_refl eq_refl Pk)|apply (V (map_value fd v) v eq_refl eq_refl Pv)]; intros n Hn; apply H, in_flat_map;
          (eexists; split; [exact K|]); cbn [mentions]; apply in_or_app; auto. }
    all: rewrite <- Et; apply (value_refers v2); [rewrite Et; discriminate|rewrite Et; exact P|]; intros n Hn; apply H, in_flat_map;
      exists (GoStruct (camel (m_full m)) (map (fun fd => (camel (f_name fd), FindValue fd)) (m_fields m)));
      (split; [apply go_struct_iff; exists m; split; [exact Hm|]; split; [apply camel_ok|reflexivity]|]);
      cbn [mentions]; apply in_flat_map; exists (camel (f_name fd), FindValue fd); (split; [|exact Hn]); apply List.in_map_iff; exists fd; auto.
  - intros H n Hn. apply in_flat_map in Hn. destruct Hn as (d & Hd & Hn). destruct d as [x|x|x t v|x k v|x fs|x|r x]; cbn [mentions] in Hn; try (exfalso; exact Hn).
    + destruct Hn as [<-|[]]. apply go_const_iff in Hd. destruct Hd as (e & i & y & He & _ & _ & _ & Et).
      left. apply go_types_iff. left. exists e. split; [exact He|exact Et].
    + apply go_map_iff in Hd. destruct Hd as (m & fd & kt & vt & p & Hm & Hf & Et & _ & _ & -> & ->). pose proof (H m fd Hm Hf) as R. rewrite Et, refers_map in R.
      pose proof (proj2 (HP m fd Hm Hf)) as P. rewrite Et in P. cbn in P. destruct P as [Pk Pv].
      assert (V : forall g t, f_typ g = t -> f_many g = false -> plain_value t -> refers f false t -> forall n, In n (mention (FindValue g)) -> found v2 f n).
      { intros g t <- Em Pt Hg. apply (value_refers v2 f g); [|unfold plain_value, plain_type in *; destruct (f_typ g); tauto|rewrite Em; exact Hg].
        intros a b E. rewrite E in Pt. exact Pt. }
      apply in_app_or in Hn. destruct Hn as [Hn|Hn]; [apply (V (map_key fd kt) kt eq_refl eq_refl Pk (proj1 R) n Hn)|apply (V (map_value fd vt) vt eq_refl eq_refl Pv (proj2 R) n Hn)].
    + apply go_struct_iff in Hd. destruct Hd as (m & Hm & _ & ->). apply in_flat_map in Hn. destruct Hn as (y & Hy & Hn).
      apply List.in_map_iff in Hy. destruct Hy as (fd & <- & Hf). cbn [snd] in Hn. pose proof (proj2 (HP m fd Hm Hf)) as P.
      destruct (f_typ fd) as [k|s|s|k v] eqn:Et.
      4:{ unfold FindValue in Hn. rewrite Et, append2, camel_ok, camel_map in Hn. cbn [mention In] in Hn. destruct Hn as [<-|[]].
          left. apply go_types_iff. right. right. exists m, fd, k, v, (camel (f_full fd)). repeat (split; [assumption || apply camel_ok|]).
          apply type_name_id, Forall_app. split; [rewrite camel_spec_eq; apply camel_full_chars, (HP m fd Hm Hf)|].
          change (Forall ident_char [77; 97; 112]). unfold ident_char, letter, lower, upper. repeat (constructor; [left; lia|]). constructor. }
      all: apply (value_refers v2 f fd); [rewrite Et; discriminate|rewrite Et; exact P|apply (H m fd Hm Hf)|exact Hn].
    + destruct Hn as [<-|[]]. apply go_method_iff in Hd. left. apply go_types_iff. right.
      destruct Hd as [(m & Hm & En & _)|(m & fd & kt & vt & p & Hm & Hf & Et & Ep & En & _)]; [left; eauto|right]. exists m, fd, kt, vt, p. auto.
Qed.
