(** Which declaration a name of the generated program stands for. *)
From Coq Require Import String.
From Verif Require Import Base Spec GenTables GenModel GenTrace NameModel NameSpec EmitModel EmitSpec EmitThms PkgThms GoAst GoEmit GoRunSpec.

Lemma same_refl n : same n n = true.
Proof. unfold same. destruct (list_eq_dec Z.eq_dec n n); congruence. Qed.
Lemma same_true a b : same a b = true -> a = b.
Proof. unfold same. destruct (list_eq_dec Z.eq_dec a b); congruence. Qed.
Lemma same_false a b : a <> b -> same a b = false.
Proof. unfold same. destruct (list_eq_dec Z.eq_dec a b); congruence. Qed.
Lemma same_recv_refl r : same_recv r r = true.
Proof. destruct r; [apply same_refl|reflexivity]. Qed.
Lemma same_recv_true a b : same_recv a b = true -> a = b.
Proof. destruct a, b; cbn; try congruence. intros H. apply same_true in H. congruence. Qed.

Lemma flat_unique {A B} (g : A -> list B) l : NoDup (flat_map g l) ->
  forall x y z, In x l -> In y l -> In z (g x) -> In z (g y) -> x = y.
Proof.
  induction l as [|a l IH]; cbn [flat_map]; [intros _ x y z []|]. intros H x y z Hx Hy Zx Zy.
  assert (N : NoDup (flat_map g l)) by (clear -H; induction (g a); [exact H|]; inversion H; auto).
  assert (D : forall w, In w (g a) -> ~ In w (flat_map g l)).
  { clear -H. induction (g a) as [|b m IHm]; [intros w []|]. cbn [app] in H. inversion H as [|? ? Hn Hd]; subst. intros w [<-|Hw]; [|apply (IHm Hd w Hw)].
    intros K. apply Hn. apply in_or_app. right. exact K. }
  destruct Hx as [<-|Hx], Hy as [<-|Hy].
  - reflexivity.
  - exfalso. apply (D z Zx). apply in_flat_map. eauto.
  - exfalso. apply (D z Zy). apply in_flat_map. eauto.
  - eapply IH; eauto.
Qed.
Lemma nodup_app_l {A} (a b : list A) : NoDup (a ++ b) -> NoDup a.
Proof. induction a; [constructor|]. cbn. intros H. inversion H; subst. constructor; [rewrite in_app_iff in *; tauto|auto]. Qed.
Lemma nodup_app_r {A} (a b : list A) : NoDup (a ++ b) -> NoDup b.
Proof. induction a; [auto|]. cbn. intros H. inversion H; subst. auto. Qed.
Lemma nodup_app_not {A} (a b : list A) x : NoDup (a ++ b) -> In x a -> ~ In x b.
Proof.
  induction a as [|y a IH]; [intros _ []|]. cbn. intros H. inversion H; subst. intros [<-|Hx]; [|auto]. rewrite in_app_iff in *. tauto.
Qed.
Lemma nodup_piece {A B} (g : A -> list B) l x : NoDup (flat_map g l) -> In x l -> NoDup (g x).
Proof.
  induction l as [|a l IH]; [intros _ []|]. cbn [flat_map]. intros H [<-|Hx]; [exact (nodup_app_l _ _ H)|]. apply IH; [exact (nodup_app_r _ _ H)|exact Hx].
Qed.
Lemma flat_flat {A B C} (g : B -> list C) (h : A -> list B) l : flat_map g (flat_map h l) = flat_map (fun a => flat_map g (h a)) l.
Proof. induction l as [|a l IH]; [reflexivity|]. cbn [flat_map]. rewrite flat_map_app, IH. reflexivity. Qed.
Lemma flat_ext {A B} (g h : A -> list B) l : (forall a, g a = h a) -> flat_map g l = flat_map h l.
Proof. intros H. induction l as [|a l IH]; [reflexivity|]. cbn [flat_map]. rewrite H, IH. reflexivity. Qed.

(** ---- the enums and messages of a file, in the order of the templates ---- *)
Definition units (f : filed) : list (enumd + msgd) := body (fun e => [inl e]) (fun m => [inr m]) f.
Definition either {D} (en : enumd -> list D) (st : msgd -> list D) (u : enumd + msgd) : list D :=
  match u with inl e => en e | inr m => st m end.
Lemma body_units {D} (en : enumd -> list D) st f : body en st f = flat_map (either en st) (units f).
Proof.
  unfold units, body, messages. rewrite flat_map_app. f_equal.
  - rewrite flat_flat. apply flat_ext. intros e. cbn [flat_map either]. rewrite app_nil_r. reflexivity.
  - rewrite flat_flat. apply flat_ext. intros m. rewrite flat_map_app. f_equal.
    + rewrite flat_flat. apply flat_ext. intros e. cbn [flat_map either]. rewrite app_nil_r. reflexivity.
    + rewrite (structs_flat st m), (structs_flat (fun m0 : msgd => [inr m0]) m), flat_flat. apply flat_ext. intros k. cbn [flat_map either]. rewrite app_nil_r. reflexivity.
Qed.
Lemma units_msg f m : In (inr m) (units f) <-> has_message f m.
Proof.
  unfold units. rewrite body_in. split.
  - intros [(e & _ & [H|[]])|(k & Hk & [H|[]])]; [discriminate H|]. injection H as <-. exact Hk.
  - intros H. right. exists m. split; [exact H|left; reflexivity].
Qed.
Lemma units_enum f e : In (inl e) (units f) <-> shallow_enum f e.
Proof.
  unfold units. rewrite body_in. split.
  - intros [(k & Hk & [H|[]])|(k & _ & [H|[]])]; [|discriminate H]. injection H as <-. exact Hk.
  - intros H. left. exists e. split; [exact H|left; reflexivity].
Qed.

(** ---- the names of the declarations ---- *)
Definition decl_name (d : decl) : list bytes :=
  match d with
  | DVar n | DType n _ | DConst n _ _ => [n]
  | DFunc f => match fn_recv f with None => [fn_name f] | Some _ => [] end
  end.
Lemma map_names fd : flat_map decl_name (map_decls fd) = flat_map go_name (go_mapfield fd).
Proof. unfold map_decls, go_mapfield. destruct (f_typ fd); reflexivity. Qed.
Lemma struct_names v2 m : flat_map decl_name (struct_decls v2 m) = flat_map go_name (go_struct_decls m).
Proof.
  unfold struct_decls, go_struct_decls. rewrite !flat_map_app, !flat_flat. f_equal. apply flat_ext. exact map_names.
Qed.
Lemma enum_names e : flat_map decl_name (enum_decls e) = flat_map go_name (go_enum e).
Proof.
  unfold enum_decls, go_enum. cbn [flat_map decl_name go_name app]. f_equal. induction (numbered 0 (e_values e)) as [|[i x] l IH]; [reflexivity|].
  cbn [map flat_map decl_name go_name app]. rewrite IH. reflexivity.
Qed.
Lemma program_names v2 f : flat_map decl_name (go_program v2 f) = go_names (go_file v2 f).
Proof.
  unfold go_program, go_file, go_names. cbn [flat_map]. f_equal. rewrite !body_units, !flat_flat. apply flat_ext. intros [e|m].
  - apply enum_names.
  - apply struct_names.
Qed.

Section Link.
Variables (v2 : bool) (f : filed).
Hypothesis once : NoDup (go_names (go_file v2 f)).
Let P := go_program v2 f.
Lemma P_units : P = DVar (if v2 then text "ErrDecodeNil" else text "NilDecode") :: flat_map (either enum_decls (struct_decls v2)) (units f).
Proof. unfold P, go_program. rewrite body_units. reflexivity. Qed.
Lemma names_once : NoDup (flat_map decl_name P).
Proof. unfold P. rewrite program_names. exact once. Qed.
Lemma in_P_msg m d : has_message f m -> In d (struct_decls v2 m) -> In d P.
Proof. intros H Hd. rewrite P_units. right. apply in_flat_map. exists (inr m). split; [apply units_msg, H|exact Hd]. Qed.
Lemma in_P_enum e d : shallow_enum f e -> In d (enum_decls e) -> In d P.
Proof. intros H Hd. rewrite P_units. right. apply in_flat_map. exists (inl e). split; [apply units_enum, H|exact Hd]. Qed.
Lemma in_P_map m fd d : has_message f m -> In fd (m_fields m) -> In d (map_decls fd) -> In d P.
Proof. intros H Hf Hd. apply (in_P_msg m); [exact H|]. unfold struct_decls. apply in_or_app. left. apply in_flat_map. eauto. Qed.

Lemma find_type_in n t : In (DType n t) P -> find_type P n = Some t.
Proof.
  unfold find_type. pose proof names_once as H. revert H. generalize P as l. induction l as [|d l IH]; [intros _ []|].
  cbn [flat_map]. intros H Hd. destruct Hd as [->|Hd].
  - cbn [app find_name]. rewrite same_refl. reflexivity.
  - assert (E : forall t', d = DType n t' -> False).
    { intros t' ->. apply (nodup_app_not _ _ n H); [left; reflexivity|]. apply in_flat_map. exists (DType n t). split; [exact Hd|left; reflexivity]. }
    apply nodup_app_r in H. destruct d as [|n' t'| |]; cbn [app find_name]; auto. rewrite same_false; [auto|]. intros ->. exact (E t' eq_refl).
Qed.
(** a function's name is no type *)
Lemma find_type_none n d : In d P -> In n (decl_name d) -> (forall t, d <> DType n t) -> find_type P n = None.
Proof.
  unfold find_type. intros Hd Hn Ht. destruct (find_name n _) as [t|] eqn:E; [|reflexivity]. exfalso.
  assert (K : In (DType n t) P).
  { revert E. generalize P as l. induction l as [|a l IH]; cbn [flat_map]; [discriminate|]. destruct a as [|n' t'| |]; cbn [app find_name]; auto.
    - intros E. right. apply IH, E.
    - destruct (same n n') eqn:En; [|right; auto]. intros E. injection E as ->. apply same_true in En. subst n'. left. reflexivity.
    - intros E. right. apply IH, E.
    - intros E. right. apply IH, E. }
  assert (d = DType n t) by (apply (flat_unique decl_name P names_once d (DType n t) n Hd K Hn); left; reflexivity).
  exact (Ht t H).
Qed.

Lemma find_func_some r n g l : find_func r n l = Some g -> In (DFunc g) l /\ fn_recv g = r /\ fn_name g = n.
Proof.
  clear. induction l as [|d l IH]; [discriminate|]. cbn [find_func]. destruct d as [| | |k]; try (intros E; apply IH in E; intuition (right; auto)).
  destruct (same_recv r (fn_recv k) && same n (fn_name k)) eqn:E.
  - intros Ek. injection Ek as ->. apply andb_prop in E. destruct E as (E1 & E2). apply same_recv_true in E1. apply same_true in E2. auto using in_eq.
  - intros Ek. apply IH in Ek. intuition (right; auto).
Qed.
Lemma find_func_exists g l : In (DFunc g) l -> exists k, find_func (fn_recv g) (fn_name g) l = Some k.
Proof.
  clear. induction l as [|d l IH]; [intros []|]. intros Hd. cbn [find_func]. destruct d as [| | |k]; try (destruct Hd as [Hd|Hd]; [discriminate Hd|auto]).
  destruct (same_recv (fn_recv g) (fn_recv k) && same (fn_name g) (fn_name k)) eqn:E; [eauto|]. destruct Hd as [Hd|Hd]; [|auto].
  injection Hd as ->. rewrite same_recv_refl, same_refl in E. discriminate E.
Qed.
(** the package-level name a function goes with *)
Definition owner (g : func) : bytes := match fn_recv g with Some t => t | None => fn_name g end.
Definition fd_names (fd : fieldd) : list bytes := flat_map decl_name (map_decls fd).
Lemma map_owner fd g : In (DFunc g) (map_decls fd) -> In (owner g) (fd_names fd).
Proof.
  unfold fd_names, map_decls. destruct (f_typ fd) as [| | |k v]; [intros []|intros []|intros []|].
  intros [E|[E|[E|[E|[]]]]]; [discriminate E| | |]; injection E as <-; [right; left|left|left]; reflexivity.
Qed.
Definition own_decls (m : msgd) : list decl :=
  [DType (camel (m_full m)) (TyStruct (map (fun fd => (goname fd, type_text fd)) (m_fields m)));
   DFunc (new_func v2 m); DFunc (error_func m); DFunc (encode_func m); DFunc (decode_outer_func v2 m); DFunc (decode_func v2 m)].
Lemma own_owner m g : In (DFunc g) (own_decls m) -> In (owner g) (flat_map decl_name (own_decls m)).
Proof.
  intros [E|[E|[E|[E|[E|[E|[]]]]]]]; try discriminate E; injection E as <-; first [left; reflexivity|right; left; reflexivity].
Qed.
Lemma struct_owner m g : In (DFunc g) (struct_decls v2 m) -> In (owner g) (flat_map decl_name (struct_decls v2 m)).
Proof.
  change (struct_decls v2 m) with (flat_map map_decls (m_fields m) ++ own_decls m). rewrite flat_map_app, !in_app_iff. intros [H|H]; [left|right; apply own_owner, H].
  rewrite flat_flat. apply in_flat_map in H. destruct H as (fd & Hf & H). apply in_flat_map. exists fd. split; [exact Hf|apply map_owner, H].
Qed.
Lemma in_struct_func g : In (DFunc g) P -> exists m, has_message f m /\ In (DFunc g) (struct_decls v2 m).
Proof.
  rewrite P_units. intros [H|H]; [discriminate H|]. apply in_flat_map in H. destruct H as ([e|k] & Hu & H); [|exists k; split; [apply units_msg, Hu|exact H]].
  exfalso. cbn [either] in H. unfold enum_decls in H. destruct H as [H|H]; [discriminate H|]. apply List.in_map_iff in H. destruct H as (iv & H & _). discriminate H.
Qed.
Lemma units_once : NoDup (flat_map (fun u => flat_map decl_name (either enum_decls (struct_decls v2) u)) (units f)).
Proof. pose proof names_once as H. rewrite P_units in H. cbn [flat_map] in H. apply nodup_app_r in H. rewrite flat_flat in H. exact H. Qed.
Lemma func_unique g g' : In (DFunc g) P -> In (DFunc g') P -> fn_recv g = fn_recv g' -> fn_name g = fn_name g' -> g = g'.
Proof.
  intros Hg Hg' Er En. apply in_struct_func in Hg. apply in_struct_func in Hg'.
  destruct Hg as (m & Hm & Hg), Hg' as (m' & Hm' & Hg').
  assert (Eo : owner g = owner g') by (unfold owner; rewrite Er, En; reflexivity).
  assert (Em : @inr enumd msgd m = inr m').
  { apply (flat_unique _ _ units_once _ _ (owner g)); [apply units_msg, Hm|apply units_msg, Hm'|apply struct_owner, Hg|rewrite Eo; apply struct_owner, Hg']. }
  injection Em as <-. clear Hm'.
  assert (N : NoDup (flat_map decl_name (struct_decls v2 m))).
  { apply (nodup_piece _ _ (inr m) units_once). apply units_msg, Hm. }
  change (struct_decls v2 m) with (flat_map map_decls (m_fields m) ++ own_decls m) in Hg, Hg', N. rewrite flat_map_app in N.
  rewrite in_app_iff in Hg, Hg'.
  assert (K : forall k, In (DFunc k) (flat_map map_decls (m_fields m)) -> exists fd, In fd (m_fields m) /\ In (DFunc k) (map_decls fd) /\ In (owner k) (flat_map decl_name (flat_map map_decls (m_fields m)))).
  { intros k H. apply in_flat_map in H. destruct H as (fd & Hf & H). exists fd. split; [exact Hf|]. split; [exact H|]. rewrite flat_flat. apply in_flat_map. exists fd. split; [exact Hf|apply map_owner, H]. }
  destruct Hg as [Hg|Hg], Hg' as [Hg'|Hg'].
  - apply K in Hg. apply K in Hg'. destruct Hg as (fd & Hf & Hg & _), Hg' as (fd' & Hf' & Hg' & _).
    apply nodup_app_l in N. rewrite flat_flat in N.
    assert (fd = fd') by (apply (flat_unique _ _ N _ _ (owner g)); [exact Hf|exact Hf'|apply map_owner, Hg|rewrite Eo; apply map_owner, Hg']).
    subst fd'. unfold map_decls in Hg, Hg'. destruct (f_typ fd) as [| | |k v]; [destruct Hg|destruct Hg|destruct Hg|].
    destruct Hg as [E|Hg]; [discriminate E|]. destruct Hg' as [E|Hg']; [discriminate E|].
    destruct Hg as [E|[E|[E|[]]]]; injection E as <-; destruct Hg' as [E|[E|[E|[]]]]; injection E as <-; first [reflexivity|discriminate Er|discriminate En].
  - exfalso. apply K in Hg. destruct Hg as (_ & _ & _ & Hg). apply (nodup_app_not _ _ _ N Hg). rewrite Eo. apply own_owner, Hg'.
  - exfalso. apply K in Hg'. destruct Hg' as (_ & _ & _ & Hg'). apply (nodup_app_not _ _ _ N Hg'). rewrite <- Eo. apply own_owner, Hg.
  - destruct Hg as [E|Hg]; [discriminate E|]. destruct Hg' as [E|Hg']; [discriminate E|].
    destruct Hg as [E|[E|[E|[E|[E|[]]]]]]; injection E as <-; destruct Hg' as [E|[E|[E|[E|[E|[]]]]]]; injection E as <-; first [reflexivity|discriminate Er|discriminate En].
Qed.
Lemma find_func_in g : In (DFunc g) P -> find_func (fn_recv g) (fn_name g) P = Some g.
Proof.
  intros H. destruct (find_func_exists g P H) as (k & Ek). rewrite Ek. apply find_func_some in Ek. destruct Ek as (Hk & Er & En).
  f_equal. apply func_unique; auto.
Qed.
End Link.
