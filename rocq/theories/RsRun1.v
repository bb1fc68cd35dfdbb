(** Which item a name of the generated Rust program stands for. *)
From Coq Require Import String.
From Verif Require Import Base Spec RustModel GenTables NameModel NameSpec EmitModel EmitSpec EmitThms EmitThms2 PkgThms GoAst GoEmit GoRunSpec GoLink GoSlices GoDecode RsGenModel RsAst RsEmit RsRunSpec.
From Verif Require GenModel.
Local Open Scope list_scope.

Section Link.
Variables (f : filed) (p : bytes) (d : deps).
Hypothesis NA : rs_names_apart f.
Let P := rs_program p d f.

Definition unit_name (u : enumd + msgd) : list bytes := [match u with inl e => camel (e_full e) | inr m => camel (m_full m) end].
Lemma types_units : flat_map rs_type (rs_file f) = flat_map unit_name (units f).
Proof using Type.
  assert (E : flat_map rs_type (rs_file f) = body (fun e => [camel (e_full e)]) (fun m => [camel (m_full m)]) f).
  { unfold rs_file, body. rewrite !flat_map_app. cbn [flat_map rs_type app]. unfold messages. f_equal.
    - rewrite flat_flat. apply flat_ext. reflexivity.
    - rewrite flat_flat. apply flat_ext. intros m. rewrite flat_map_app. f_equal; [rewrite flat_flat; apply flat_ext; reflexivity|].
      rewrite (structs_flat rs_struct_decls m), (structs_flat (fun m => [camel (m_full m)]) m), flat_flat. apply flat_ext. reflexivity. }
  rewrite E, body_units. apply flat_ext. intros [e|m]; reflexivity.
Qed.
Lemma unit_same u v : In u (units f) -> In v (units f) -> unit_name u = unit_name v -> u = v.
Proof.
  intros Hu Hv E. pose proof (ra_once f NA) as N. rewrite types_units in N. eapply (flat_unique unit_name (units f) N u v _ Hu Hv); [left; reflexivity|]. rewrite <- E. left. reflexivity.
Qed.
Lemma in_program x : In x P <-> In x (rs_imports d) \/ x = DTrait false \/ x = DTrait true \/
  (exists e, shallow_enum f e /\ In x (rs_enum_decl e)) \/ (exists m, has_message f m /\ In x (rs_structs_decl p m)).
Proof using Type.
  unfold P, rs_program. rewrite !in_app_iff, in_flat_map, messages_in. cbn [In]. unfold shallow_enum, has_message. split.
  - intros [H|[(e & He & Hd)|[[<-|[<-|[]]]|[(t & e & Ht & He & Hd)|(t & k & Ht & Hk & Hd)]]]]; auto.
    + right. right. right. left. exists e. auto.
    + right. right. right. left. exists e. split; [right; exists t; auto|exact Hd].
    + right. right. right. right. exists k. split; [exists t; auto|exact Hd].
  - intros [H|[->|[->|[(e & [He|(t & Ht & He)] & Hd)|(k & (t & Ht & Hk) & Hd)]]]]; auto 10.
    + right. left. exists e. auto.
    + right. right. right. left. exists t, e. auto.
    + right. right. right. right. exists t, k. auto.
Qed.
Lemma no_imports x : In x (rs_imports d) -> exists a b, x = DUse a b.
Proof using Type. unfold rs_imports. destruct (Enums d), (Maps d); cbn; intuition (subst; eauto). Qed.
Ltac items := intros H; apply in_program in H;
  destruct H as [H|[H|[H|[(e & He & [H|[]])|(m & Hm & [H|[H|[H|[]]]])]]]];
  [destruct (no_imports _ H) as (? & ? & K); discriminate K|discriminate H|discriminate H| | | | ]; try discriminate H; injection H as <- <-; eauto.
Lemma in_enum n vs : In (DEnum n vs) P -> exists e, shallow_enum f e /\ n = camel (e_full e) /\ vs = map (fun iv => (v_name (snd iv), fst iv)) (numbered 0 (e_values e)).
Proof using Type. items. Qed.
Lemma in_struct n fs : In (DStruct n fs) P -> exists m, has_message f m /\ n = camel (m_full m) /\ fs = map (fun fd => (privacy p, rsname fd, rs_type_of_field fd)) (m_fields m).
Proof using Type. items. Qed.
Lemma in_encode n a : In (DEncode n a) P -> exists m, has_message f m /\ n = camel (m_full m) /\ a = rs_encode_body m.
Proof using Type. items. Qed.
Lemma in_decode n a : In (DDecode n a) P -> exists m, has_message f m /\ n = camel (m_full m) /\ a = rs_decode_body m.
Proof using Type. items. Qed.
(** the first of that name *)
Lemma find_enum_in Q n vs : find_enum Q n = Some vs -> In (DEnum n vs) Q.
Proof using Type. induction Q as [|x Q IH]; [discriminate|]. destruct x; cbn [find_enum]; try (intros H; right; auto; fail). destruct (same n n0) eqn:E; [|intros H; right; auto]. apply same_true in E. subst n0. intros H. injection H as ->. left. reflexivity. Qed.
Lemma find_enum_some Q n vs : In (DEnum n vs) Q -> find_enum Q n <> None.
Proof using Type. induction Q as [|x Q IH]; [contradiction|]. intros [->|H]; [cbn; rewrite same_refl; discriminate|]. destruct x; cbn [find_enum]; auto. destruct (same n n0); [discriminate|auto]. Qed.
Lemma find_struct_in Q n ns : find_struct Q n = Some ns -> exists fs, In (DStruct n fs) Q /\ ns = map (fun f => snd (fst f)) fs.
Proof using Type. induction Q as [|x Q IH]; [discriminate|]. destruct x; cbn [find_struct]; try (intros H; destruct (IH H) as (fs0 & A & B); exists fs0; split; [right|]; auto; fail). destruct (same n n0) eqn:E; [|intros H; destruct (IH H) as (fs0 & A & B); exists fs0; split; [right|]; auto]. apply same_true in E. subst n0. intros H. injection H as <-. eexists. split; [left; reflexivity|reflexivity]. Qed.
Lemma find_struct_some Q n fs : In (DStruct n fs) Q -> find_struct Q n <> None.
Proof using Type. induction Q as [|x Q IH]; [contradiction|]. intros [->|H]; [cbn; rewrite same_refl; discriminate|]. destruct x; cbn [find_struct]; auto. destruct (same n n0); [discriminate|auto]. Qed.
Lemma find_encode_in Q n vs : find_encode Q n = Some vs -> In (DEncode n vs) Q.
Proof using Type. induction Q as [|x Q IH]; [discriminate|]. destruct x; cbn [find_encode]; try (intros H; right; auto; fail). destruct (same n n0) eqn:E; [|intros H; right; auto]. apply same_true in E. subst n0. intros H. injection H as ->. left. reflexivity. Qed.
Lemma find_encode_some Q n vs : In (DEncode n vs) Q -> find_encode Q n <> None.
Proof using Type. induction Q as [|x Q IH]; [contradiction|]. intros [->|H]; [cbn; rewrite same_refl; discriminate|]. destruct x; cbn [find_encode]; auto. destruct (same n n0); [discriminate|auto]. Qed.
Lemma find_decode_in Q n vs : find_decode Q n = Some vs -> In (DDecode n vs) Q.
Proof using Type. induction Q as [|x Q IH]; [discriminate|]. destruct x; cbn [find_decode]; try (intros H; right; auto; fail). destruct (same n n0) eqn:E; [|intros H; right; auto]. apply same_true in E. subst n0. intros H. injection H as ->. left. reflexivity. Qed.
Lemma find_decode_some Q n vs : In (DDecode n vs) Q -> find_decode Q n <> None.
Proof using Type. induction Q as [|x Q IH]; [contradiction|]. intros [->|H]; [cbn; rewrite same_refl; discriminate|]. destruct x; cbn [find_decode]; auto. destruct (same n n0); [discriminate|auto]. Qed.

Lemma same_msg m m' : has_message f m -> has_message f m' -> camel (m_full m) = camel (m_full m') -> m = m'.
Proof. intros H H' E. assert (K : @inr enumd msgd m = inr m') by (apply unit_same; [apply units_msg; exact H|apply units_msg; exact H'|unfold unit_name; rewrite E; reflexivity]). congruence. Qed.
Lemma same_enum e e' : shallow_enum f e -> shallow_enum f e' -> camel (e_full e) = camel (e_full e') -> e = e'.
Proof. intros H H' E. assert (K : @inl enumd msgd e = inl e') by (apply unit_same; [apply units_enum; exact H|apply units_enum; exact H'|unfold unit_name; rewrite E; reflexivity]). congruence. Qed.
Theorem decode_of m : has_message f m -> find_decode P (camel (m_full m)) = Some (rs_decode_body m).
Proof.
  intros H. destruct (find_decode P (camel (m_full m))) as [a|] eqn:E.
  - apply find_decode_in, in_decode in E. destruct E as (m' & H' & En & ->). rewrite (same_msg _ _ H H' En). reflexivity.
  - exfalso. eapply find_decode_some; [|exact E]. apply in_program. right. right. right. right. exists m. split; [exact H|]. cbn. auto.
Qed.
Theorem encode_of m : has_message f m -> find_encode P (camel (m_full m)) = Some (rs_encode_body m).
Proof.
  intros H. destruct (find_encode P (camel (m_full m))) as [a|] eqn:E.
  - apply find_encode_in, in_encode in E. destruct E as (m' & H' & En & ->). rewrite (same_msg _ _ H H' En). reflexivity.
  - exfalso. eapply find_encode_some; [|exact E]. apply in_program. right. right. right. right. exists m. split; [exact H|]. cbn. auto.
Qed.
Theorem struct_of m : has_message f m -> find_struct P (camel (m_full m)) = Some (map rsname (m_fields m)).
Proof.
  intros H. destruct (find_struct P (camel (m_full m))) as [a|] eqn:E.
  - apply find_struct_in in E. destruct E as (fs & E & ->). apply in_struct in E. destruct E as (m' & H' & En & ->). rewrite (same_msg _ _ H H' En). rewrite map_map. reflexivity.
  - exfalso. eapply find_struct_some; [|exact E]. apply in_program. right. right. right. right. exists m. split; [exact H|]. left. reflexivity.
Qed.
Theorem enum_of e : shallow_enum f e -> find_enum P (camel (e_full e)) = Some (map (fun iv => (v_name (snd iv), fst iv)) (numbered 0 (e_values e))).
Proof.
  intros H. destruct (find_enum P (camel (e_full e))) as [a|] eqn:E.
  - apply find_enum_in, in_enum in E. destruct E as (e' & H' & En & ->). rewrite (same_enum _ _ H H' En). reflexivity.
  - exfalso. eapply find_enum_some; [|exact E]. apply in_program. right. right. right. left. exists e. split; [exact H|]. left. reflexivity.
Qed.
Lemma own_msg m : has_message f m -> own_type P (camel (m_full m)) = true.
Proof. intros H. unfold own_type. rewrite (struct_of m H). destruct (find_enum P (camel (m_full m))); reflexivity. Qed.
Lemma own_enum e : shallow_enum f e -> own_type P (camel (e_full e)) = true.
Proof. intros H. unfold own_type. rewrite (enum_of e H). reflexivity. Qed.
Lemma not_own n : In n prelude -> own_type P n = false.
Proof.
  intros H. assert (K : ~ In n (flat_map rs_type (rs_file f))) by (intros K; exact (ra_prelude f NA n K H)). unfold own_type.
  destruct (find_enum P n) as [vs|] eqn:E.
  - exfalso. apply K. apply find_enum_in, in_enum in E. destruct E as (e & He & -> & _). rewrite types_units. apply in_flat_map. exists (inl e). split; [apply units_enum; exact He|left; reflexivity].
  - destruct (find_struct P n) as [fs|] eqn:E'; [|reflexivity].
    exfalso. apply K. apply find_struct_in in E'. destruct E' as (x & E' & _). apply in_struct in E'. destruct E' as (m & Hm & -> & _). rewrite types_units. apply in_flat_map. exists (inr m). split; [apply units_msg; exact Hm|left; reflexivity].
Qed.
(** the size of an enum *)
Lemma in_enums e : In e (enums_of f) <-> shallow_enum f e.
Proof using Type. unfold enums_of, shallow_enum. rewrite in_app_iff, in_flat_map. tauto. Qed.
Lemma size_of_enum e : shallow_enum f e -> enum_size (e_full e) (enums_of f) = zlen (e_values e).
Proof.
  intros H. assert (A : forall e', In e' (enums_of f) -> shallow_enum f e') by (intros; apply in_enums; assumption). apply in_enums in H as Hi. revert Hi A. generalize (enums_of f). intros l.
  induction l as [|e' l IH]; [contradiction|]. intros Hi A. cbn [enum_size]. destruct (same (e_full e) (e_full e')) eqn:E.
  - apply same_true in E. rewrite (same_enum e e'); [reflexivity|exact H|apply A; left; reflexivity|rewrite E; reflexivity].
  - destruct Hi as [->|Hi]; [rewrite same_refl in E; discriminate E|]. apply IH; [exact Hi|]. intros k Hk. apply A. right. exact Hk.
Qed.
Lemma variant_in (l : list evald) i n : existsb (fun x => snd x =? n) (map (fun iv => (v_name (snd iv), fst iv)) (numbered i l)) = (i <=? n) && (n <? i + zlen l).
Proof using Type.
  revert i. induction l as [|v l IH]; intros i; cbn [numbered map existsb fst snd].
  - unfold zlen. cbn. destruct (Z.leb_spec i n), (Z.ltb_spec n (i + 0)); cbn; lia.
  - rewrite IH. unfold zlen. cbn [length]. destruct (Z.eqb_spec i n), (Z.leb_spec i n), (Z.ltb_spec n (i + Z.of_nat (S (length l)))), (Z.leb_spec (i + 1) n), (Z.ltb_spec n (i + 1 + Z.of_nat (length l))); cbn; lia.
Qed.
(** messages *)
Lemma rms_has m : In m (messages_of f) <-> has_message f m.
Proof using Type. exact (all_messages_in f m). Qed.
Lemma rmsg_known s : known_type f (TMsg s) -> exists m, nth_error (messages_of f) (position s (messages_of f)) = Some m /\ m_full m = s /\ has_message f m.
Proof using Type.
  intros (m & Hm & E). destruct (position_nth s (messages_of f)) as (k & Hk & Ek & Hi); [exists m; split; [apply rms_has, Hm|exact E]|]. exists k. rewrite <- rms_has. auto.
Qed.
(** fields *)
Lemma forget_type t : (match t with TMap _ _ => False | _ => True end) -> forget_t (rtype_of f t) = ftype_of (messages_of f) t.
Proof using Type. destruct t; cbn; intuition. Qed.
Lemma forget_field fd : field_known f fd -> forget_f (rfield_of f fd) = field_of (messages_of f) fd.
Proof using Type.
  unfold field_known, rfield_of, field_of. destruct (f_typ fd) as [k|s|s|k v]; intros H; try (destruct (f_many fd); reflexivity).
  cbn [forget_f]. f_equal. apply forget_type. destruct H as (_ & _ & H). destruct v; auto.
Qed.
Lemma nth_schema i m : nth_error (messages_of f) i = Some m -> nth_error (rschema_of f) i = Some (map (rfield_of f) (m_fields m)).
Proof using Type. intros H. unfold rschema_of. rewrite nth_error_map, H. reflexivity. Qed.
End Link.
