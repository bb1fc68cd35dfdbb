(** Types of the emitted Go: what names, fields and calls stand for. *)
From Coq Require Import String.
From Verif Require Import Base Spec GenTables GenModel NameModel NameSpec EmitModel EmitSpec EmitThms PkgThms GoAst GoEmit GoRunSpec GoLink GoScope GoSlices GoMsgs GoMaps GoDecode GoTypes.
Local Open Scope list_scope.

Section Types.
Variables (v2 : bool) (f : filed).
Hypothesis NA : names_apart v2 f.
Notation P := (go_program v2 f).
Notation names := (go_names (go_file v2 f)).
Notation ETY := (ety v2 P).

Definition predeclared : list bytes := map (fun p => text (fst p)) GenTables.go_types ++ [text "error"; n_len].
(** no name of the package and no predeclared name is hidden *)
Definition clear (G : GoTypes.scope) : Prop := forall n, In n names \/ In n predeclared -> local G n = false.
Lemma clear_nil : clear []. Proof using Type. intros n _. reflexivity. Qed.
Lemma not_ident n : match n with c :: _ => is_lower c = true \/ ~ (letter c \/ c = 95) | [] => True end -> ~ In n names.
Proof using NA.
  intros H K. destruct n as [|c t].
  - destruct (na_ident _ _ NA _ K) as (c & t & E & _). discriminate E.
  - destruct H as [H|H].
    + rewrite (names_no_lower v2 f _ K c t eq_refl) in H. discriminate H.
    + destruct (na_ident _ _ NA _ K) as (c' & t' & E & L & _). injection E as <- <-. exact (H L).
Qed.
Lemma bracket c : c = 91 \/ c = 42 -> ~ (letter c \/ c = 95).
Proof. unfold letter, lower, upper. lia. Qed.
Lemma predeclared_not n : In n predeclared -> ~ In n names.
Proof using NA.
  intros H. apply not_ident. unfold predeclared in H. cbn in H.
  repeat (destruct H as [<-|H]; [first [left; reflexivity|right; apply bracket; auto]|]). destruct H.
Qed.
Lemma find_type_name n t l : find_type l n = Some t -> In (DType n t) l.
Proof using Type.
  clear. induction l as [|d l IH]; [discriminate|]. destruct d as [k|k u|k u z|g]; unfold find_type in *; cbn [flat_map app find_name]; try (intros H; right; exact (IH H)).
  destruct (same n k) eqn:E; [|intros H; right; exact (IH H)]. intros H. injection H as <-. apply same_true in E. subst k. left. reflexivity.
Qed.
Lemma not_declared n : ~ In n names -> find_type P n = None /\ declared P n = false /\ find_func None n P = None.
Proof using Type.
  clear NA. intros H. rewrite <- program_names in H. assert (H' : forall d, In d P -> ~ In n (decl_name d)) by (intros d Hd K; apply H, in_flat_map; eauto).
  split; [|split].
  - destruct (find_type P n) as [t|] eqn:E; [|reflexivity]. apply find_type_name in E. destruct (H' _ E). left. reflexivity.
  - unfold declared. destruct (existsb (decl_of n) P) eqn:E; [|reflexivity]. apply existsb_exists in E. destruct E as (d & Hd & E). destruct (H' _ Hd).
    destruct d as [k|k u|k u z|g]; cbn [decl_of decl_name] in *; try (apply same_true in E; left; congruence).
    destruct (fn_recv g); [discriminate E|]. apply same_true in E. left. congruence.
  - destruct (find_func None n P) as [g|] eqn:E; [|reflexivity]. apply find_func_some in E. destruct E as (E & E1 & E2). destruct (H' _ E). cbn [decl_name]. rewrite E1. left. exact E2.
Qed.

(** ---- types ---- *)
Definition tyof (t : ftyp) : ty :=
  match t with
  | TScalar k => match scalar_type k with Some q => Basic q | None => NilT end
  | TEnum s => EnumT (camel s) | TMsg s => PtrT (camel s) | TMap _ _ => NilT
  end.
Definition fty (fd : fieldd) : ty :=
  match f_typ fd with TMap _ _ => MapN (map_name fd) | t => if f_many fd then SliceT (tyof t) else tyof t end.
Lemma base_named G n q : clear G -> In n predeclared -> same n (text "error") = false -> base_type n = Some q -> type_named P G n = Some (Basic q).
Proof using NA.
  intros C H E B. unfold type_named. rewrite (C n (or_intror H)). destruct (not_declared n (predeclared_not n H)) as (-> & -> & _). rewrite E, B. reflexivity.
Qed.
Lemma error_named G : clear G -> type_of P G (text "error") = Some ErrT.
Proof using NA.
  intros C. assert (H : In (text "error") predeclared) by (unfold predeclared; apply in_or_app; right; left; reflexivity).
  unfold type_of, type_elem. change (strip (text "*") (text "error")) with (@None bytes). unfold type_named. rewrite (C _ (or_intror H)).
  destruct (not_declared _ (predeclared_not _ H)) as (-> & -> & _). reflexivity.
Qed.
Lemma base_elem G s q : clear G -> In (s, q) GenTables.go_types -> type_elem P G (text s) = Some (Basic q).
Proof using NA.
  intros C H. cbn in H.
  repeat (destruct H as [H|H]; [injection H as <- <-; unfold type_elem; cbn [strip]; apply base_named; [exact C|vm_compute; auto 20|reflexivity|reflexivity]|]). destruct H.
Qed.
Lemma base_of G s q : clear G -> In (s, q) GenTables.go_types -> type_of P G (text s) = Some (Basic q).
Proof using NA. intros C H. unfold type_of. rewrite (base_elem G s q C H). reflexivity. Qed.
Lemma u32_of G : clear G -> type_of P G n_u32 = Some (Basic RU32).
Proof using NA. intros C. apply (base_of G "uint32" RU32 C). cbn. auto 10. Qed.
Lemma bytes_of G : clear G -> type_of P G (text "[]byte") = Some (Basic RBytes).
Proof using NA. intros C. apply (base_of G "[]byte" RBytes C). cbn. auto 10. Qed.
(** what is no name and no predeclared type *)
Lemma no_elem G n : ~ In n names -> base_type n = None -> n <> text "error" -> strip (text "*") n = None -> type_elem P G n = None.
Proof using Type.
  intros H B E S. unfold type_elem. rewrite S. unfold type_named. destruct (local G n); [reflexivity|]. destruct (not_declared n H) as (-> & -> & _).
  rewrite (same_false _ _ E), B. reflexivity.
Qed.
Lemma scalar_go k q : scalar_type k = Some q -> k <> KEnum -> exists s, go_typeLUT k = Some s /\ In (s, q) GenTables.go_types.
Proof using Type. clear. destruct k; intros E N; try discriminate E; try congruence; injection E as <-; eexists; (split; [reflexivity|cbn; auto 20]). Qed.
Lemma message_elem G s : clear G -> known_type f (TMsg s) -> type_elem P G (text "*" ++ camel s) = Some (PtrT (camel s)).
Proof using NA.
  intros C (m & Hm & <-). destruct (msg_names v2 f NA m Hm) as (M1 & M2 & _). unfold type_elem. rewrite strip_app. unfold struct_named. rewrite (C _ (or_introl M1)), M2. reflexivity.
Qed.
Lemma star_of G s : clear G -> known_type f (TMsg s) -> type_of P G (text "*" ++ camel s) = Some (PtrT (camel s)).
Proof using NA. intros C H. unfold type_of. rewrite (message_elem G s C H). reflexivity. Qed.
Lemma known_star m : has_message f m -> known_type f (TMsg (m_full m)). Proof using Type. intros H. exists m. auto. Qed.
Lemma enum_elem G s : clear G -> known_type f (TEnum s) -> type_elem P G (camel s) = Some (EnumT (camel s)).
Proof using NA.
  intros C H. destruct (enum_type v2 f NA s H) as (M1 & M2). destruct (name_base v2 f NA _ M1) as (_ & _ & E & _). unfold type_elem. rewrite E. unfold type_named.
  rewrite (C _ (or_introl M1)), M2. reflexivity.
Qed.
(** a field that is not repeated *)
Lemma one_elem G fd : clear G -> f_many fd = false -> known_type f (f_typ fd) -> f_typ fd <> TScalar KGroup -> type_elem P G (type_text fd) = Some (tyof (f_typ fd)).
Proof using NA.
  intros C M K N. unfold type_text, FindValue. destruct (f_typ fd) as [k|s|s|? ?] eqn:E; try rewrite M; [| | |destruct K].
  - destruct K as (K1 & K2). destruct (scalar_type k) as [q|] eqn:Q; [|destruct (scalar_none k Q); congruence]. destruct (scalar_go k q Q K1) as (t & T1 & T2). rewrite T1.
    cbn [tyof]. rewrite Q. apply base_elem; assumption.
  - rewrite camel_ok. apply enum_elem; assumption.
  - rewrite camel_ok. cbn [bind]. rewrite append2. apply message_elem; assumption.
Qed.
Lemma one_of G fd : clear G -> f_many fd = false -> known_type f (f_typ fd) -> f_typ fd <> TScalar KGroup -> type_of P G (type_text fd) = Some (tyof (f_typ fd)).
Proof using NA. intros C M K N. unfold type_of. rewrite (one_elem G fd C M K N). reflexivity. Qed.
Lemma bracket_of G t u : clear G -> type_elem P G t = Some u -> base_type (text "[]" ++ t) = None -> type_of P G (text "[]" ++ t) = Some (SliceT u).
Proof using NA.
  intros C E B. unfold type_of. rewrite no_elem; [|apply not_ident; right; apply bracket; auto|exact B|discriminate|reflexivity]. rewrite strip_app, E. reflexivity.
Qed.
Lemma many_of G fd : clear G -> f_many fd = true -> known_type f (f_typ fd) -> f_typ fd <> TScalar KGroup -> (forall s, f_typ fd <> TEnum s) -> type_of P G (type_text fd) = Some (SliceT (tyof (f_typ fd))).
Proof using NA.
  intros C M K N Ne. unfold type_text, FindValue. destruct (f_typ fd) as [k|s|s|? ?] eqn:E; try rewrite M; [| | |destruct K].
  - destruct K as (K1 & K2). destruct (scalar_type k) as [q|] eqn:Q; [|destruct (scalar_none k Q); congruence]. destruct (scalar_go k q Q K1) as (t & T1 & T2). rewrite T1.
    cbn [tyof]. rewrite Q. apply bracket_of; [exact C|apply base_elem; assumption|]. destruct k; try discriminate Q; try discriminate T1; cbv in T1; inversion T1; subst t; reflexivity.
  - destruct (Ne s eq_refl).
  - rewrite camel_ok. cbn [bind]. rewrite append3. apply bracket_of; [exact C|apply message_elem; assumption|].
    unfold base_type. cbn [map GenTables.go_types fst snd find_name]. repeat (rewrite same_false by (intros X; vm_compute in X; discriminate X)). reflexivity.
Qed.
Lemma map_type m fd kt vt : has_message f m -> In fd (m_fields m) -> f_typ fd = TMap kt vt ->
  In (map_name fd) names /\ find_type P (map_name fd) = Some (TyMap (type_text (map_key fd kt)) (type_text (map_value fd vt))) /\
  In (new_name (map_name fd)) names /\ find_type P (new_name (map_name fd)) = None.
Proof using NA.
  intros Hm Hf E. assert (K : forall d, In d (map_decls fd) -> In d P) by (intros d; apply (in_P_map v2 f m fd); assumption).
  unfold map_decls in K. rewrite E in K.
  assert (K1 := K _ (or_introl eq_refl)). assert (K2 := K _ (or_intror (or_introl eq_refl))).
  split; [rewrite <- program_names; apply in_flat_map; eexists; split; [exact K1|left; reflexivity]|]. split; [apply find_type_in; [exact (na_once _ _ NA)|exact K1]|].
  split; [rewrite <- program_names; apply in_flat_map; eexists; split; [exact K2|left; reflexivity]|].
  apply (find_type_none v2 f (na_once _ _ NA) _ _ K2); [left; reflexivity|discriminate].
Qed.
Lemma map_of G m fd kt vt : clear G -> has_message f m -> In fd (m_fields m) -> f_typ fd = TMap kt vt -> type_of P G (map_name fd) = Some (MapN (map_name fd)) /\ type_text fd = map_name fd.
Proof using NA.
  intros C Hm Hf E. destruct (map_type m fd kt vt Hm Hf E) as (M1 & M2 & _). split.
  - unfold type_of, type_elem. destruct (name_base v2 f NA _ M1) as (_ & _ & E' & _). rewrite E'. unfold type_named. rewrite (C _ (or_introl M1)), M2. reflexivity.
  - unfold type_text, FindValue. rewrite E, append2, camel_ok. apply camel_map.
Qed.
(** the fields of structs *)
Definition good (fd : fieldd) : Prop := match f_typ fd with TMap kt vt => kt <> TScalar KGroup /\ vt <> TScalar KGroup | TEnum _ => f_many fd = false | t => t <> TScalar KGroup end.
Lemma field_of_ty G m fd : clear G -> has_message f m -> In fd (m_fields m) -> good fd -> type_of P G (type_text fd) = Some (fty fd).
Proof using NA.
  intros C Hm Hf Gd. pose proof (na_known _ _ NA m fd Hm Hf) as K. unfold field_known in K. unfold good in Gd. unfold fty. destruct (f_typ fd) as [k|s|s|kt vt] eqn:E.
  4: { destruct (map_of G m fd kt vt C Hm Hf E) as (A & B). rewrite B. exact A. }
  all: rewrite <- E in *; destruct (f_many fd) eqn:M; [apply many_of|apply one_of]; auto; try (rewrite E; try discriminate; intros; discriminate).
Qed.
Lemma field_text m fd : has_message f m -> In fd (m_fields m) -> find_name (goname fd) (map (fun fd => (goname fd, type_text fd)) (m_fields m)) = Some (type_text fd).
Proof using NA.
  intros Hm. pose proof (na_fields _ _ NA m Hm) as N. induction (m_fields m) as [|g l IH]; [contradiction|]. cbn [map] in N. inversion N as [|? ? N1 N2]; subst. cbn [map find_name].
  intros [->|H]; [rewrite same_refl; reflexivity|]. rewrite same_false; [auto|]. intros E. apply N1. apply List.in_map_iff. exists fd. auto.
Qed.
Lemma my_ty G m fd : find_name n_x G = Some (PtrT (camel (m_full m))) -> has_message f m -> In fd (m_fields m) -> good fd -> ETY G (my fd) = Some [fty fd].
Proof using NA.
  intros X Hm Hf Gd. destruct (msg_names v2 f NA m Hm) as (M1 & M2 & _). unfold my. cbn [ety]. unfold ty1. cbn [ety]. rewrite X, M2, (field_text m fd Hm Hf), (field_of_ty [] m fd clear_nil Hm Hf Gd). reflexivity.
Qed.
End Types.
