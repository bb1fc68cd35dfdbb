(** Which generated programs pass the type checker. *)
From Coq Require Import String.
From Verif Require Import Base Spec GenTables GenModel NameModel NameSpec NameThms EmitModel EmitSpec EmitThms PkgThms CompSpec GoAst GoEmit GoRunSpec GoLink GoScope GoSlices GoMsgs GoMaps GoDecode GoTypes GoTypes2 GoTypes3 GoTypes4 GoTypes5 GoTypes6 GoTypes7 GoTypesSpec.
Local Open Scope list_scope.

(** ---- names of repeated enums ---- *)
Lemma word_never_lower s : forall prev, starts_word prev = true -> forall c t, camel_from prev s = c :: t -> is_lower c = false.
Proof.
  induction s as [|a s IH]; intros prev W c t E; [discriminate E|]. cbn [camel_from] in E. unfold camel_piece in E. destruct (a =? 46) eqn:D.
  { apply Z.eqb_eq in D. subst a. cbn [app] in E. exact (IH (Some 46) eq_refl c t E). }
  destruct (a =? 95) eqn:U.
  { apply Z.eqb_eq in U. subst a. assert (K : camel_from (Some 95) s = c :: t -> is_lower c = false) by (apply IH; reflexivity).
    destruct prev; [|exact (K E)]. destruct (hd_error s) as [n|]; [destruct (is_lower n); [exact (K E)|]|]; injection E as <- _; reflexivity. }
  rewrite W, andb_true_r in E. destruct (is_lower a) eqn:L; injection E as <- _; [|exact L]. unfold is_lower in *. lia.
Qed.
Lemma many_enum_text s t : camel (text "[]" ++ s) = text "[]" ++ t -> t = text "uint32" -> camel s = text "Uint32".
Proof.
  unfold camel. rewrite !camel_exact. intros E ->. unfold camel_spec in *. change (text "[]") with [91; 93] in E. cbn [app camel_from] in E. change (camel_piece None 91 (hd_error (93 :: s))) with [91] in E.
  assert (E93 : camel_piece (Some 91) 93 (hd_error s) = [93]) by reflexivity. rewrite E93 in E. cbn [app] in E. injection E as E.
  destruct s as [|c s]; [discriminate E|]. cbn [camel_from] in *. unfold camel_piece in *. destruct (c =? 46) eqn:D.
  { apply Z.eqb_eq in D. subst c. cbn [app] in E. assert (X := word_never_lower s (Some 46) eq_refl _ _ E). discriminate X. }
  destruct (c =? 95) eqn:U.
  { apply Z.eqb_eq in U. subst c. destruct (hd_error s) as [n|]; [destruct (is_lower n)|]; try discriminate E. cbn [app] in E. assert (X := word_never_lower s (Some 95) eq_refl _ _ E). discriminate X. }
  change (starts_word (Some 93)) with false in E. rewrite andb_false_r in E. injection E as -> E. change (is_lower 117 && starts_word None) with true. cbv iota. rewrite E. reflexivity.
Qed.

(** ---- what passes has passed in every part ---- *)
Section Parts.
Variables (v2 : bool) (P : list decl).
Notation CK := (GoTypes.check v2 P).
Lemma check_names R c G vs : CK R c G = Some vs -> forall n, In n (map fst vs) -> declares n c = true.
Proof.
  intros H n Hn. destruct c as [e|k t|ks e|ls e|c a b|i k b|k w e b|es|e]; cbn [GoTypes.check] in H.
  - destruct (ety v2 P G e); [|discriminate H]. unfold when in H. destruct (is_call e); [|discriminate H]. injection H as <-. destruct Hn.
  - destruct (type_of P G t); [|discriminate H]. injection H as <-. destruct Hn as [<-|[]]. apply same_refl.
  - destruct (ety v2 P G e) as [ts|]; [|discriminate H]. unfold when in H. destruct (Nat.eqb _ _); [|discriminate H]. injection H as <-. cbn [declares]. apply existsb_exists. exists n. split; [|apply same_refl].
    apply List.in_map_iff in Hn. destruct Hn as ((n', t) & <- & Hn). exact (in_combine_l _ _ _ _ Hn).
  - destruct (all_types _); [|discriminate H]. destruct (ety v2 P G e); [|discriminate H]. unfold when in H. destruct (assign_all _ _ _); [|discriminate H]. injection H as <-. destruct Hn.
  - destruct (ety v2 P G c) as [[|[[]| | | | | | | | | | | | |] [|]]|]; try discriminate H. unfold when in H. destruct (_ && _); [|discriminate H]. injection H as <-. destruct Hn.
  - destruct (ety v2 P G k) as [[|[[]| | | | | | | | | | | | |] [|]]|]; try discriminate H. unfold when in H. destruct (check_block _ _ _ _); [|discriminate H]. injection H as <-. destruct Hn.
  - destruct (ety v2 P G e) as [[|[q| | | | | | |n0|n0|t|n0|k1 v1| |] [|]]|]; try discriminate H.
    + unfold when in H. destruct (_ && _); [|discriminate H]. injection H as <-. destruct Hn.
    + destruct (find_type P n0) as [[|kt vt|?]|]; try discriminate H. destruct (type_of P [] kt); [|discriminate H]. destruct (type_of P [] vt); [|discriminate H]. unfold when in H. destruct (_ && _); [|discriminate H]. injection H as <-. destruct Hn.
  - destruct (tys _ es); [|discriminate H]. unfold when in H. destruct (assign_all _ _ _); [|discriminate H]. injection H as <-. destruct Hn.
  - destruct (ety v2 P G e); [|discriminate H]. unfold when in H. destruct (is_call e); [|discriminate H]. injection H as <-. destruct Hn.
Qed.
Lemma block_in R l : forall here G c, check_block (CK R) l here G = true -> In c l ->
  exists vs vs', CK R c (vs ++ G) = Some vs' /\ forall n, In n (map fst vs) -> existsb (declares n) l = true.
Proof.
  induction l as [|d l IH]; intros here G c H Hc; [contradiction|]. cbn [check_block] in H. destruct (CK R d G) as [ws|] eqn:E; [|discriminate H]. apply andb_true_iff in H. destruct H as (_ & H).
  destruct Hc as [->|Hc].
  - exists [], ws. split; [exact E|intros n []].
  - destruct (IH _ _ c H Hc) as (vs & vs' & A & B). exists (vs ++ ws), vs'. split; [rewrite <- app_assoc; exact A|]. intros n Hn. cbn [existsb]. rewrite map_app in Hn. apply in_app_or in Hn. destruct Hn as [Hn|Hn].
    + rewrite (B n Hn). apply orb_true_r.
    + rewrite (check_names R d G ws E n Hn). reflexivity.
Qed.
Lemma find_skip (vs : GoTypes.scope) G n t : ~ In n (map fst vs) -> find_name n G = Some t -> find_name n (vs ++ G) = Some t.
Proof.
  induction vs as [|(k, u) vs IH]; intros N H; [exact H|]. cbn [app find_name map fst] in *. rewrite same_false by (intros ->; apply N; left; reflexivity). apply IH; [intros K; apply N; right; exact K|exact H].
Qed.
End Parts.

Section Whole.
Variables (v2 : bool) (f : filed).
Hypothesis NA : names_apart v2 f.
Notation P := (go_program v2 f).
Notation names := (go_names (go_file v2 f)).
Notation ETY := (ety v2 P).
Notation CK := (GoTypes.check v2 P).
Notation C0 := (clear_nil v2 f).
Ltac own := unfold own_var; cbn [In]; auto 10.

(** ---- compiling schemas give checking programs ---- *)
Lemma numbered_bound {A} (l : list A) : forall i j x, In (j, x) (numbered i l) -> i <= j < i + zlen l.
Proof.
  induction l as [|a l IH]; intros i j x H; [contradiction|]. cbn [numbered] in H. unfold zlen in *. cbn [length]. destruct H as [H|H]; [injection H as <- _; lia|]. specialize (IH _ _ _ H). lia.
Qed.
Lemma not_all_maps m : compiles (schema_of f) = true -> has_message f m -> m_fields m = [] \/ exists fd, In fd (m_fields m) /\ is_map fd = false.
Proof.
  intros C HM. unfold compiles in C. rewrite forallb_forall in C.
  assert (K : In (map (field_of (messages_of f)) (m_fields m)) (schema_of f)) by (unfold schema_of; apply List.in_map_iff; exists m; split; [reflexivity|apply ms_has, HM]).
  specialize (C _ K). unfold message_compiles in C. apply andb_true_iff in C. destruct C as (_ & C). destruct (m_fields m) as [|g l]; [left; reflexivity|]. right. cbn [map] in C. apply negb_true_iff in C.
  change (field_of (messages_of f) g :: map (field_of (messages_of f)) l) with (map (field_of (messages_of f)) (g :: l)) in C. clear K.
  assert (E : forallb (fun fd => IsMap (field_of (messages_of f) fd)) (g :: l) = false) by (rewrite <- C; generalize (g :: l); intros l0; induction l0 as [|x l0 IH]; [reflexivity|cbn [forallb map]; rewrite IH; reflexivity]).
  assert (X : exists fd, In fd (g :: l) /\ IsMap (field_of (messages_of f) fd) = false).
  { clear -E. induction (g :: l) as [|x l0 IH]; [discriminate E|]. cbn [forallb] in E. destruct (IsMap (field_of (messages_of f) x)) eqn:X; [|exists x; split; [left; reflexivity|exact X]]. destruct (IH E) as (fd & A & B). exists fd. split; [right; exact A|exact B]. }
  destruct X as (fd & A & B). exists fd. split; [exact A|]. unfold is_map, field_of in *. destruct (f_typ fd); [reflexivity|reflexivity|reflexivity|discriminate B].
Qed.
Theorem compiles_checks : enums_fit f -> compiles (schema_of f) = true -> type_checks v2 P = true.
Proof.
  intros EF C. unfold type_checks. apply forallb_forall. intros d Hd. rewrite P_units in Hd. destruct Hd as [<-|Hd]; [reflexivity|]. apply in_flat_map in Hd. destruct Hd as ([e|m] & Hu & Hd).
  - apply units_enum in Hu. cbn [either] in Hd. destruct Hd as [<-|Hd]; [reflexivity|]. apply List.in_map_iff in Hd. destruct Hd as ((i, v) & <- & Hi). cbn [check_decl fst snd].
    assert (K : known_type f (TEnum (e_full e))) by (exists e; auto). unfold type_of. rewrite (enum_elem v2 f NA [] _ C0 K). apply numbered_bound in Hi. specialize (EF e Hu). apply andb_true_iff. split; [apply Z.leb_le|apply Z.ltb_lt]; lia.
  - apply units_msg in Hu. cbn [either] in Hd. pose proof (fun fd => sort_of v2 f m fd NA C Hu) as SO. unfold struct_decls in Hd. apply in_app_or in Hd. destruct Hd as [Hd|Hd].
    + apply in_flat_map in Hd. destruct Hd as (fd & Hf & Hd). unfold map_decls in Hd. destruct (SO fd Hf) as [M I K Q Kn|k q M E Q K1 K2 K3|s M E Kn|s M E Kn|kt vt M E Kk Kv Kd N1 N2]; try (rewrite E in Hd; contradiction).
      * unfold is_map in I. destruct (f_typ fd); contradiction.
      * rewrite E in Hd. destruct Hd as [<-|[<-|[<-|[<-|[]]]]]; cbn [check_decl].
        -- exact (maptype_checks v2 f NA m fd kt vt Hu Hf E Kd N1).
        -- exact (newmap_checks v2 f NA m fd kt vt Hu Hf E Kd N1).
        -- exact (encode_map_checks v2 f NA m fd kt vt Hu Hf E Kd N1).
        -- exact (decode_map_checks v2 f NA m fd kt vt Hu Hf E Kd N1 N2).
    + destruct Hd as [<-|[<-|[<-|[<-|[<-|[<-|[]]]]]]]; cbn [check_decl].
      * apply forallb_forall. intros x Hx. apply List.in_map_iff in Hx. destruct Hx as (fd & <- & Hf). cbn [snd]. rewrite (field_of_ty v2 f NA [] m fd C0 Hu Hf (sort_good f fd (SO fd Hf))). reflexivity.
      * exact (new_checks v2 f NA m Hu SO).
      * exact (error_checks v2 f NA m Hu).
      * exact (encode_checks v2 f NA m Hu SO).
      * exact (outer_checks v2 f NA m Hu).
      * exact (decode_checks v2 f NA m Hu SO (not_all_maps m C Hu)).
Qed.

(** ---- checking programs come from compiling schemas ---- *)
Hypothesis TC : type_checks v2 P = true.
Lemma decl_ok d : In d P -> check_decl v2 P d = true.
Proof. exact (proj1 (forallb_forall _ _) TC d). Qed.
Lemma func_ok m g : has_message f m -> In (DFunc g) (struct_decls v2 m) -> check_func v2 P g = true.
Proof. intros Hm Hg. exact (decl_ok (DFunc g) (in_P_msg v2 f m _ Hm Hg)). Qed.
Lemma empty_type G : type_of P G [] = None.
Proof using NA.
  clear TC. unfold type_of. rewrite (no_elem v2 f G []); [reflexivity|apply (not_ident v2 f NA); exact I|reflexivity|discriminate|reflexivity].
Qed.
Lemma group_text fd : f_typ fd = TScalar KGroup -> type_text fd = [].
Proof using Type. clear. intros E. unfold type_text, FindValue. rewrite E. reflexivity. Qed.
Section Msg.
Variable m : msgd.
Hypothesis HM : has_message f m.
Lemma field_typed fd : In fd (m_fields m) -> exists t, type_of P [] (type_text fd) = Some t.
Proof.
  intros Hf. assert (K := decl_ok (DType (camel (m_full m)) (TyStruct (map (fun fd => (goname fd, type_text fd)) (m_fields m)))) (in_P_msg v2 f m _ HM ltac:(unfold struct_decls; apply in_or_app; right; left; reflexivity))).
  cbn [check_decl] in K. rewrite forallb_forall in K. specialize (K (goname fd, type_text fd) ltac:(apply List.in_map_iff; eauto)). cbn [snd] in K. destruct (type_of P [] (type_text fd)) as [t|]; [eauto|discriminate K].
Qed.
Lemma no_group fd : In fd (m_fields m) -> f_typ fd <> TScalar KGroup.
Proof. intros Hf E. destruct (field_typed fd Hf) as (t & T). rewrite (group_text fd E), empty_type in T. discriminate T. Qed.
(** the body of the decode function *)
Lemma decode_body c : In c (fn_body (decode_func v2 m)) -> exists G vs, CK [ErrT] c G = Some vs /\ find_name n_d G = Some DecT.
Proof.
  intros Hc. assert (K := func_ok m (decode_func v2 m) HM ltac:(unfold struct_decls; apply in_or_app; right; cbn [In]; auto 8)). unfold check_func in K.
  cbn [decode_func fn_types fn_result fn_params map type_written] in K. rewrite (star_of v2 f NA [] (m_full m) C0 (known_star f m HM)), (error_named v2 f NA [] C0) in K. cbn [all_types option_map length Nat.eqb combine] in K.
  apply andb_true_iff in K. destruct K as (K & _). apply andb_true_iff in K. destruct K as (_ & K). apply (block_in v2 P _ _ _ _ c) in K; [|exact Hc]. destruct K as (vs & vs' & A & B).
  exists (vs ++ [(n_x, PtrT (camel (m_full m))); (n_d, DecT)]), vs'. split; [exact A|]. apply find_skip; [|reflexivity]. intros X. apply B in X.
  clear -X. assert (E : existsb (declares n_d) (fn_body (decode_func v2 m)) = false); [|congruence]. unfold decode_func. cbn [fn_body]. set (g := get_fields go_decodeLUT (m_fields m)). rewrite !existsb_app.
  rewrite (declares_flat n_d (decode_other v2)) by (intros; apply other_declares; own). rewrite (declares_flat n_d decode_slice) by (intros; apply slice_declares). rewrite (declares_flat n_d (decode_message v2)) by (intros; apply message_declares).
  destruct (m_fields m), (g_slices g); reflexivity.
Qed.
Lemma bytes_call G args : find_name n_d G = Some DecT -> args = [] -> ETY G (Met (Var n_d) ".Bytes" args) = None.
Proof using Type. clear. intros D ->. rewrite (met0 v2 f G _ DecT _ (var_ty v2 f _ _ _ D)). reflexivity. Qed.
Lemma no_many_bytes fd : In fd (m_fields m) -> f_many fd = true -> f_typ fd <> TScalar KBytes.
Proof.
  intros Hf M E.
  assert (Hs : In fd (g_slices (get_fields go_decodeLUT (m_fields m)))).
  { destruct (groups_cover go_decodeLUT (m_fields m) fd Hf) as [K|[K|K]]; [| exact K|]; apply groups_in in K; destruct K as (_ & K & _); unfold is_map in K; rewrite E, M in K; discriminate K. }
  destruct (decode_body (Count n_i (Var n_slice) (decode_element fd))) as (G & vs & A & D).
  { unfold decode_func. cbn [fn_body]. apply in_or_app. right. apply in_or_app. right. apply in_or_app. right. apply in_or_app. right. apply in_or_app. left. apply in_flat_map. exists fd. split; [exact Hs|]. unfold decode_slice. cbn [In]. auto. }
  unfold decode_element in A. rewrite E in A. cbn [kind_of] in A. change (is_kind KBytes KMessage) with false in A. cbv iota in A.
  set (c := Assign [Idx (my fd) (Var n_i); Var n_err] (Met (Var n_d) (entry (go_decodeLUT KBytes)) [])) in A. cbn [app] in A.
  assert (B : check_block (CK [ErrT]) [c; GoEmit.check] [] ((n_i, Basic RU32) :: G) = true).
  { cbn [GoTypes.check] in A. destruct (ETY G (Var n_slice)) as [[|[[]| | | | | | | | | | | | |] [|]]|]; try discriminate A. unfold when in A. destruct (check_block (CK [ErrT]) [c; GoEmit.check] [] _); [reflexivity|discriminate A]. }
  apply (block_in v2 P _ _ _ _ c) in B; [|left; reflexivity]. destruct B as (ws & ws' & B1 & B2).
  assert (D' : find_name n_d (ws ++ (n_i, Basic RU32) :: G) = Some DecT).
  { apply find_skip; [|cbn [find_name]; rewrite same_false by ne; exact D]. intros X. apply B2 in X. discriminate X. }
  unfold c in B1. cbn [GoTypes.check] in B1. change (entry (go_decodeLUT KBytes)) with ".Bytes"%string in B1. rewrite (bytes_call _ [] D' eq_refl) in B1. destruct (all_types _); discriminate B1.
Qed.
Lemma encode_body c : In c (match fn_body (encode_func m) with [If _ _ b] => b | _ => [] end) -> exists vs, CK [] c [(n_x, PtrT (camel (m_full m))); (n_b, BufT)] = Some vs.
Proof.
  intros Hc. assert (K := func_ok m (encode_func m) HM ltac:(unfold struct_decls; apply in_or_app; right; cbn [In]; auto 8)). unfold check_func in K. set (body := match fn_body (encode_func m) with [If _ _ b] => b | _ => [] end) in *.
  assert (Eb : fn_body (encode_func m) = [If (Eq (Var n_x) NilLit) [Do (Met encoder ".Nil" [])] body]) by reflexivity. rewrite Eb in K.
  cbn [encode_func fn_types fn_result fn_params map type_written] in K. rewrite (star_of v2 f NA [] (m_full m) C0 (known_star f m HM)) in K. cbn [all_types option_map length Nat.eqb combine] in K.
  apply andb_true_iff in K. destruct K as (K & _). apply andb_true_iff in K. destruct K as (_ & K). set (G := [(n_x, PtrT (camel (m_full m))); (n_b, BufT)]) in *.
  cbn [check_block] in K. destruct (CK [] (If (Eq (Var n_x) NilLit) [Do (Met encoder ".Nil" [])] body) G) as [ws|] eqn:E; [|discriminate K]. clear K.
  assert (B : check_block (CK []) body [] G = true).
  { cbn [GoTypes.check] in E. destruct (ETY G (Eq (Var n_x) NilLit)) as [[|[[]| | | | | | | | | | | | |] [|]]|]; try discriminate E. unfold when in E. destruct (check_block (CK []) [Do (Met encoder ".Nil" [])] [] G); [|discriminate E]. destruct (check_block (CK []) body [] G); [reflexivity|discriminate E]. }
  apply (block_in v2 P _ _ _ _ c) in B; [|exact Hc]. destruct B as (vs & vs' & B1 & B2). exists vs'.
  assert (Z : vs = []); [|subst vs; exact B1]. destruct vs as [|(n, t) vs]; [reflexivity|]. exfalso. specialize (B2 n (or_introl eq_refl)).
  assert (E0 : existsb (declares n) body = false); [|congruence]. unfold body, encode_func. cbn [fn_body]. rewrite !existsb_app, !declares_flat.
  - destruct (g_values _); reflexivity.
  - intros x _. reflexivity.
  - intros x _. unfold encode_slice. destruct (_ && _); reflexivity.
Qed.
Lemma base_u32 r : base_type r = Some RU32 -> r = text "uint32".
Proof using Type.
  clear. unfold base_type. cbn [map GenTables.go_types fst snd find_name]. intros E.
  repeat match type of E with context [same r ?t] => let X := fresh in destruct (same r t) eqn:X; [first [discriminate E|apply same_true in X; exact X]|] end. discriminate E.
Qed.
Lemma elem_u32 G r : type_elem P G r = Some (Basic RU32) -> r = text "uint32".
Proof using Type.
  clear. unfold type_elem. destruct (strip (text "*") r) as [n|]; [destruct (struct_named P G n); (let X := fresh in intros X; discriminate X)|]. unfold type_named. destruct (local G r); [(let X := fresh in intros X; discriminate X)|]. destruct (find_type P r) as [[|? ?|?]|]; try (let X := fresh in intros X; discriminate X).
  destruct (declared P r); [(let X := fresh in intros X; discriminate X)|]. destruct (same r (text "error")); [(let X := fresh in intros X; discriminate X)|]. destruct (base_type r) as [q|] eqn:B; [|discriminate].
  cbn [option_map]. intros E. injection E as ->. exact (base_u32 r B).
Qed.
Lemma elem_not_num G r : type_elem P G r <> Some NumT.
Proof using Type.
  clear. unfold type_elem. destruct (strip (text "*") r) as [n|]; [destruct (struct_named P G n); (let X := fresh in intros X; discriminate X)|]. unfold type_named. destruct (local G r); [(let X := fresh in intros X; discriminate X)|]. destruct (find_type P r) as [[|? ?|?]|]; try (let X := fresh in intros X; discriminate X).
  destruct (declared P r); [(let X := fresh in intros X; discriminate X)|]. destruct (same r (text "error")); [(let X := fresh in intros X; discriminate X)|]. destruct (base_type r); (let X := fresh in intros X; discriminate X).
Qed.
Lemma no_many_enum fd s : In fd (m_fields m) -> f_many fd = true -> f_typ fd = TEnum s -> camel s = text "Uint32".
Proof.
  intros Hf M E.
  assert (Hs : In fd (g_slices (get_fields go_encodeLUT (m_fields m)))).
  { destruct (groups_cover go_encodeLUT (m_fields m) fd Hf) as [K|[K|K]]; [| exact K|]; apply groups_in in K; destruct K as (_ & K & _); unfold is_map in K; rewrite E, M in K; discriminate K. }
  set (c := Range (text "_") n_v (my fd) [Do (Met encoder ".Uint32" [Var n_v])]). destruct (encode_body c) as (vs & A).
  { unfold encode_func. cbn [fn_body]. apply in_or_app. right. apply in_or_app. left. apply in_flat_map. exists fd. split; [exact Hs|]. unfold encode_slice. rewrite E. right. left. reflexivity. }
  set (G := [(n_x, PtrT (camel (m_full m))); (n_b, BufT)]) in *. destruct (field_typed fd Hf) as (t & T). destruct (msg_names v2 f NA m HM) as (_ & M2 & _).
  assert (My : ETY G (my fd) = Some [t]).
  { unfold my. cbn [ety]. unfold ty1. cbn [ety]. change (find_name n_x G) with (Some (PtrT (camel (m_full m)))). cbv iota. rewrite M2, (field_text v2 f NA m fd HM Hf), T. reflexivity. }
  assert (TT : exists r, type_text fd = text "[]" ++ r /\ camel (text "[]" ++ s) = text "[]" ++ r).
  { unfold type_text, FindValue. rewrite E, M, append2, camel_ok. exists (camel_from (Some 93) s). assert (X : camel (text "[]" ++ s) = text "[]" ++ camel_from (Some 93) s) by (unfold camel; rewrite camel_exact; reflexivity). auto. }
  destruct TT as (r & T1 & T2).
  assert (TE : t = ErrT \/ (exists u, t = SliceT u /\ type_elem P [] r = Some u) \/ base_type (text "[]" ++ r) <> None).
  { unfold type_of in T. rewrite T1 in T. destruct (base_type (text "[]" ++ r)) eqn:Bt; [right; right; discriminate|]. rewrite (no_elem v2 f [] (text "[]" ++ r)) in T; [|apply (not_ident v2 f NA); right; apply bracket; auto|exact Bt|discriminate|reflexivity].
    rewrite strip_app in T. destruct (type_elem P [] r) as [u|]; [|discriminate T]. injection T as <-. right. left. eauto. }
  unfold c in A. cbn [GoTypes.check] in A. rewrite My in A.
  destruct TE as [->|[(u & -> & TE)|Bt]]; [discriminate A| |].
  - unfold when in A. change (named (text "_") IntT) with (@nil (bytes * ty)) in A. change (named n_v u) with [(n_v, u)] in A. cbn [app] in A.
    destruct (forallb _ _); [|discriminate A]. cbn [andb] in A. set (G1 := (n_v, u) :: G) in A.
    assert (Fv : find_name n_v G1 = Some u) by (cbn [G1 find_name]; rewrite same_refl; reflexivity). assert (Fb : find_name n_b G1 = Some BufT) by reflexivity.
    cbn [check_block GoTypes.check] in A. rewrite (met1 v2 f G1 _ EncT _ _ u (encoder_ty v2 f G1 Fb) (var_ty v2 f _ _ _ Fv)) in A. unfold method_sig, encoder_sig in A. cbn [String.eqb Ascii.eqb Bool.eqb andb assoc go_encoder_methods] in A.
    destruct (assign_all P [u] [Basic RU32]) eqn:U; [|discriminate A].
    cbn [assign_all] in U. rewrite andb_true_r in U. unfold assignable in U. apply orb_true_iff in U. destruct U as [U|U].
    + unfold is_ty in U. destruct (ty_eq_dec u (Basic RU32)) as [->|]; [|discriminate U]. apply elem_u32 in TE. exact (many_enum_text s r T2 TE).
    + destruct u; try discriminate U. destruct (elem_not_num [] r TE).
  - (* "[]byte" *)
    assert (Er : r = text "byte").
    { unfold base_type in Bt. cbn [map GenTables.go_types fst snd find_name] in Bt.
      repeat match type of Bt with context [same (text "[]" ++ r) ?t] => let X := fresh in destruct (same (text "[]" ++ r) t) eqn:X; [apply same_true in X; vm_compute in X; first [discriminate X|injection X as ->; reflexivity]|] end. congruence. }
    exfalso. subst r. rewrite T1 in T. change (text "[]" ++ text "byte") with (text "[]byte") in T. rewrite (bytes_of v2 f NA [] C0) in T. injection T as <-. discriminate A.
Qed.
Lemma map_parts fd kt vt : In fd (m_fields m) -> f_typ fd = TMap kt vt -> legal_key (kind_of kt) -> vt <> TScalar KGroup /\ vt <> TScalar KBytes.
Proof.
  intros Hf E L. assert (KP : forall d, In d (map_decls fd) -> check_decl v2 P d = true) by (intros d Hd; apply decl_ok; exact (in_P_map v2 f m fd d HM Hf Hd)).
  unfold map_decls in KP. rewrite E in KP.
  assert (NG : vt <> TScalar KGroup).
  { intros ->. specialize (KP _ (or_introl eq_refl)). cbn [check_decl] in KP. rewrite (group_text (map_value fd (TScalar KGroup)) eq_refl), empty_type in KP. destruct (type_of P [] (type_text (map_key fd kt))); discriminate KP. }
  split; [exact NG|]. intros ->. assert (K := KP _ (or_intror (or_intror (or_intror (or_introl eq_refl))))). cbn [check_decl] in K. unfold check_func in K.
  cbn [decode_map_func fn_types fn_result fn_params map type_written] in K. rewrite (mapn_of v2 f NA m fd kt _ HM Hf E [] C0), (u32_of v2 f NA [] C0), (error_named v2 f NA [] C0) in K. cbn [all_types option_map length Nat.eqb combine] in K.
  apply andb_true_iff in K. destruct K as (K & _). apply andb_true_iff in K. destruct K as (_ & K).
  set (body := decode_item n_k (map_key fd kt) ++ decode_item n_v (map_value fd (TScalar KBytes)) ++ [Assign [Idx (Var n_x) (Var n_k)] (Var n_v)]).
  assert (EK : is_kind (kind_of kt) KEnum = false) by (unfold legal_key in L; cbn [In] in L; repeat (destruct L as [L|L]; [rewrite <- L; reflexivity|]); destruct L).
  apply (block_in v2 P _ _ _ _ (Count n_i (Var n_size) body)) in K.
  2: { unfold decode_map_func. cbn [fn_body]. apply in_or_app. right. apply in_or_app. right. apply in_or_app. right. right. left. reflexivity. }
  destruct K as (vs & vs' & K1 & K2). set (G := [(n_x, MapN (map_name fd)); (n_d, DecT); (n_size, Basic RU32)]) in *.
  assert (D : find_name n_d (vs ++ G) = Some DecT).
  { apply find_skip; [|reflexivity]. intros X. apply K2 in X. unfold decode_map_func in X. cbn [fn_body] in X. unfold declare_item in X. cbn [map_key map_value f_typ] in X. rewrite EK in X. discriminate X. }
  assert (B : check_block (CK [ErrT]) body [] ((n_i, Basic RU32) :: vs ++ G) = true).
  { cbn [GoTypes.check] in K1. destruct (ETY (vs ++ G) (Var n_size)) as [[|[[]| | | | | | | | | | | | |] [|]]|]; try discriminate K1. unfold when in K1. destruct (check_block (CK [ErrT]) body [] _); [reflexivity|discriminate K1]. }
  apply (block_in v2 P _ _ _ _ (Assign [Var n_v; Var n_err] (Met (Var n_d) ".Bytes" []))) in B.
  2: { unfold body. apply in_or_app. right. apply in_or_app. left. left. reflexivity. }
  destruct B as (ws & ws' & B1 & B2).
  assert (D' : find_name n_d (ws ++ (n_i, Basic RU32) :: vs ++ G) = Some DecT).
  { apply find_skip; [|cbn [find_name]; rewrite same_false by ne; exact D]. intros X. apply B2 in X. unfold body in X. rewrite !existsb_app, !item_declares in X. discriminate X. }
  cbn [GoTypes.check] in B1. rewrite (bytes_call _ [] D' eq_refl) in B1. destruct (all_types _); discriminate B1.
Qed.
Lemma some_used : m_fields m <> [] -> exists fd, In fd (m_fields m) /\ is_map fd = false.
Proof.
  intros Ne. destruct (forallb is_map (m_fields m)) eqn:A.
  - exfalso. rewrite forallb_forall in A.
    assert (VS : g_values (get_fields go_decodeLUT (m_fields m)) = [] /\ g_slices (get_fields go_decodeLUT (m_fields m)) = []).
    { clear -A. induction (m_fields m) as [|fd l IH]; [split; reflexivity|]. assert (Am := A fd (or_introl eq_refl)). destruct (IH (fun x Hx => A x (or_intror Hx))) as (I1 & I2). cbn [get_fields].
      rewrite Am, andb_false_r. unfold is_map in Am. destruct (f_typ fd); try discriminate Am. cbn [kind_of go_decodeLUT g_values g_slices]. auto. }
    destruct VS as (V1 & V2). assert (K := func_ok m (decode_func v2 m) HM ltac:(unfold struct_decls; apply in_or_app; right; cbn [In]; auto 8)). unfold check_func in K.
    cbn [decode_func fn_types fn_result fn_params fn_body map type_written] in K. rewrite V1, V2 in K. rewrite (star_of v2 f NA [] (m_full m) C0 (known_star f m HM)), (error_named v2 f NA [] C0) in K. cbn [all_types option_map length Nat.eqb combine] in K.
    apply andb_true_iff in K. destruct K as (K & _). apply andb_true_iff in K. destruct K as (_ & K). cbn [flat_map app] in K. set (G := [(n_x, PtrT (camel (m_full m))); (n_d, DecT)]) in *.
    assert (B0 : CK [ErrT] (If (Met (Var n_d) ".Nil" []) [Return [NilLit]] []) G = Some []) by reflexivity. cbn [check_block] in K. rewrite B0 in K. cbn [forallb map app andb] in K.
    set (tail := flat_map (decode_message v2) (g_messages (get_fields go_decodeLUT (m_fields m))) ++ [Return [NilLit]]) in *.
    assert (K' : check_block (CK [ErrT]) (Let n_err (text "error") :: tail) [n_x; n_d] G = true) by (destruct (m_fields m); [congruence|exact K]). clear K.
    cbn [check_block GoTypes.check] in K'. destruct (type_of P G (text "error")) as [t|]; [|discriminate K']. cbn [option_map forallb] in K'. unfold fresh_use in K'. cbn [fst] in K'. change (same n_err (text "_")) with false in K'. cbn [orb] in K'.
    assert (U : uses_in n_err tail = false); [|rewrite U, andb_false_r in K'; discriminate K'].
    assert (UM : forall l, (forall fd, In fd l -> is_map fd = true) -> uses_in n_err (flat_map (decode_message v2) l) = false).
    { clear. induction l as [|fd l IH]; intros H; [reflexivity|]. cbn [flat_map]. rewrite uses_app, (IH (fun x Hx => H x (or_intror Hx))), andb_false_r, orb_false_r.
      specialize (H fd (or_introl eq_refl)). unfold is_map in H. unfold decode_message. destruct (f_typ fd) as [| | |k v]; try discriminate H. rewrite uses_cons. cbn [uses uses_e existsb orb uses_b declares negb andb]. rewrite same_refl.
      cbn [orb negb andb]. rewrite ?orb_false_r, ?andb_false_r, ?orb_true_r. reflexivity. }
    unfold tail. rewrite uses_app, UM; [apply andb_false_r|]. intros fd Hfd. apply A. apply groups_in in Hfd. apply Hfd.
  - clear -A. induction (m_fields m) as [|fd l IH]; [discriminate A|]. cbn [forallb] in A. destruct (is_map fd) eqn:E; [|exists fd; split; [left; reflexivity|exact E]]. destruct (IH A) as (g & G1 & G2). exists g. split; [right; exact G1|exact G2].
Qed.
End Msg.
Theorem checks_compiles : keys_legal f -> no_uint32 f -> compiles (schema_of f) = true.
Proof.
  intros KL NU. unfold compiles. apply forallb_forall. intros fs Hfs. unfold schema_of in Hfs. apply List.in_map_iff in Hfs. destruct Hfs as (m & <- & Hm). assert (HM : has_message f m) by (apply ms_has; exact Hm).
  assert (LT : forall s, known_type f (TMsg s) -> Nat.ltb (position s (messages_of f)) (length (schema_of f)) = true).
  { intros s K. destruct (msg_known f s K) as (k & K1 & _). apply Nat.ltb_lt. unfold schema_of. rewrite map_length. apply nth_error_Some. congruence. }
  unfold message_compiles. apply andb_true_iff. split.
  - apply forallb_forall. intros x Hx. apply List.in_map_iff in Hx. destruct Hx as (fd & <- & Hf). pose proof (na_known _ _ NA m fd HM Hf) as Kn. pose proof (no_group m HM fd Hf) as NG. unfold field_known in Kn. unfold field_of.
    destruct (f_typ fd) as [k|s|s|kt vt] eqn:E; cbn [ftype_of].
    + destruct Kn as (K1 & K2). destruct (f_many fd) eqn:M; cbn [field_compiles].
      * pose proof (no_many_bytes m HM fd Hf M) as NB. rewrite E in NB. destruct k; try reflexivity; congruence.
      * destruct k; try reflexivity; congruence.
    + destruct (f_many fd) eqn:M; [|reflexivity]. exfalso. exact (NU m fd s HM Hf M E (no_many_enum m HM fd s Hf M E)).
    + destruct (f_many fd); cbn [field_compiles]; apply LT, Kn.
    + destruct Kn as (_ & Kk & Kv). pose proof (KL m fd kt vt HM Hf E) as L. destruct (map_parts m HM fd kt vt Hf E L) as (V1 & V2). cbn [field_compiles].
      assert (KK : key_kind (kind_of kt) && call_compiles true false (kind_of kt) = true) by (unfold legal_key in L; cbn [In] in L; repeat (destruct L as [L|L]; [rewrite <- L; reflexivity|]); destruct L).
      rewrite KK. cbn [andb]. destruct vt as [k|s|s|? ?]; cbn [ftype_of]; [|reflexivity|apply LT, Kv|destruct Kv]. destruct Kv as (K1 & K2). destruct k; try reflexivity; congruence.
  - destruct (m_fields m) as [|g l] eqn:E; [reflexivity|]. cbn [map]. destruct (some_used m HM) as (fd & F1 & F2); [rewrite E; discriminate|]. rewrite E in F1.
    change (field_of (messages_of f) g :: map (field_of (messages_of f)) l) with (map (field_of (messages_of f)) (g :: l)).
    destruct (forallb IsMap (map (field_of (messages_of f)) (g :: l))) eqn:X; [|reflexivity]. exfalso. rewrite forallb_forall in X. specialize (X (field_of (messages_of f) fd) (List.in_map _ _ _ F1)).
    unfold is_map in F2. unfold field_of in X. destruct (f_typ fd); try discriminate F2; destruct (f_many fd); discriminate X.
Qed.
End Whole.
