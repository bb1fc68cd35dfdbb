(** Property C94: which generated Go files the Go compiler accepts. *)
From Coq Require Import String.
From Verif Require Import Base Spec BufSpec GenTables GenModel GenSpec TraceSpec NameModel NameSpec EmitModel EmitSpec CompSpec PkgThms GoAst GoEmit GoRunSpec GoCallSpec GoLink GoSlices GoDecode GoTypes GoTypesSpec GoTypes4 GoTypes8 PropGoRun.
From Verif Require PkgThms3.
Local Open Scope list_scope.

Lemma supported_compiles v2 f : names_apart v2 f -> keys_legal f -> (supported f <-> compiles (schema_of f) = true).
Proof.
  intros NA KL. split.
  - intros SU. unfold compiles. apply forallb_forall. intros fs Hfs. unfold schema_of in Hfs. apply List.in_map_iff in Hfs. destruct Hfs as (m & <- & Hm). assert (HM : has_message f m) by (apply ms_has; exact Hm).
    assert (LT : forall s, known_type f (TMsg s) -> Nat.ltb (position s (messages_of f)) (length (schema_of f)) = true).
    { intros s K. destruct (msg_known f s K) as (k & K1 & _). apply Nat.ltb_lt. unfold schema_of. rewrite map_length. apply nth_error_Some. congruence. }
    destruct (SU m HM) as (SF & SM). unfold message_compiles. apply andb_true_iff. split.
    + apply forallb_forall. intros x Hx. apply List.in_map_iff in Hx. destruct Hx as (fd & <- & Hf). pose proof (na_known _ _ NA m fd HM Hf) as Kn. specialize (SF fd Hf). unfold supported_field in SF. unfold field_known in Kn. unfold field_of.
      destruct (f_typ fd) as [k|s|s|kt vt] eqn:E; cbn [ftype_of].
      * destruct Kn as (K1 & K2), SF as (S1 & S2). destruct (f_many fd); cbn [field_compiles]; [specialize (S2 eq_refl)|]; destruct k; try reflexivity; congruence.
      * rewrite SF. reflexivity.
      * destruct (f_many fd); cbn [field_compiles]; apply LT, Kn.
      * destruct Kn as (_ & Kk & Kv), SF as (V1 & V2). pose proof (KL m fd kt vt HM Hf E) as L. cbn [field_compiles].
        assert (KK : key_kind (kind_of kt) && call_compiles true false (kind_of kt) = true) by (unfold legal_key in L; cbn [In] in L; repeat (destruct L as [L|L]; [rewrite <- L; reflexivity|]); destruct L).
        rewrite KK. cbn [andb]. destruct vt as [k|s|s|? ?]; cbn [ftype_of]; [|reflexivity|apply LT, Kv|destruct Kv]. destruct Kv as (K1 & K2). destruct k; try reflexivity; congruence.
    + destruct SM as [->|(fd & F1 & F2)]; [reflexivity|]. destruct (map (field_of (messages_of f)) (m_fields m)) as [|g l] eqn:El; [reflexivity|]. rewrite <- El.
      destruct (forallb IsMap (map (field_of (messages_of f)) (m_fields m))) eqn:X; [|reflexivity]. exfalso. rewrite forallb_forall in X. specialize (X (field_of (messages_of f) fd) (List.in_map _ _ _ F1)).
      unfold no_map in F2. unfold field_of in X. destruct (f_typ fd) as [k|s|s|kt vt]; [| | |destruct (F2 kt vt eq_refl)]; destruct (f_many fd); discriminate X.
  - intros C m HM. split.
    + intros fd Hf. pose proof (sort_of v2 f m fd NA C HM Hf) as SO. unfold supported_field. destruct SO as [M I K (q & Q) Kn|k q M E Q K1 K2 K3|s M E Kn|s M E Kn|kt vt M E Kk Kv Kd N1 N2]; try rewrite E; auto.
      * rewrite M. destruct (f_typ fd) as [k|s|s|? ?]; auto; try (destruct Kn; fail). split; [|discriminate]. intros ->. discriminate Q.
      * split; [|auto]. intros ->. discriminate Q.
    + destruct (not_all_maps f m C HM) as [Z|(fd & F1 & F2)]; [left; exact Z|right]. exists fd. split; [exact F1|]. intros k v E. unfold is_map in F2. rewrite E in F2. discriminate F2.
Qed.

(** C94: for every file whose names do not clash, the generated program passes Go's type checker exactly if the file has no
    groups, no repeated bytes or enums, no maps to bytes, and no message which consists of map fields only. *)
Theorem c94_type_checks : forall v2 f, names_apart v2 f -> keys_legal f -> enums_fit f -> no_uint32 f ->
  (type_checks v2 (go_program v2 f) = true <-> supported f).
Proof.
  intros v2 f NA KL EF NU. rewrite (supported_compiles v2 f NA KL). split.
  - intros TC. apply (checks_compiles v2 f NA TC KL NU).
  - apply (compiles_checks v2 f NA EF).
Qed.
Print Assumptions c94_type_checks.
(** A generated program which passes the type checker never gets stuck: Decode returns or panics (where the library does) on
    every input, for every struct of its message (version 2). *)
Theorem c94_v2_safe : forall W f, names_apart true f -> keys_legal f -> no_uint32 f -> type_checks true (go_program true f) = true ->
  (forall m, (m < length (schema_of f))%nat -> well_founded_at true (schema_of f) m) ->
  exists R, forall m mi a xs fp b n s, nth_error (messages_of f) mi = Some m -> struct_at (messages_of f) (heap s) a m xs fp ->
    struct_type (schema_of f) xs mi -> bytes_ok b -> int_ok W b -> ((length b + 1) * R <= n)%nat ->
    go2 W f unlimited (S n) (Some (gotype m)) ".Decode" [GoPtr (gotype m) (Some a); GoBase (VBytes b)] s = Panics \/
    exists v s', go2 W f unlimited (S n) (Some (gotype m)) ".Decode" [GoPtr (gotype m) (Some a); GoBase (VBytes b)] s = Fine ([v], s') /\
      (v = GoNil \/ exists e, v = GoError (Some e)).
Proof.
  intros W f NA KL NU TC WF. destruct (c92_v2_returns W f NA (checks_compiles true f NA TC KL NU) WF) as (R & HR). exists R. intros m mi a xs fp b n s H1 H2 H3 H4 H5 H6.
  destruct (HR m mi a xs fp b n s H1 H2 H3 H4 H5 H6) as [K|(v & ys & fp' & s' & K1 & K2 & _)]; [left; exact K|right; eauto].
Qed.
Print Assumptions c94_v2_safe.
(** and so in version 1 *)
Theorem c94_v1_safe : forall W f, names_apart false f -> keys_legal f -> no_uint32 f -> type_checks false (go_program false f) = true ->
  (forall m, (m < length (schema_of f))%nat -> Acc (fun b a => creates (schema_of f) a b) m) ->
  exists R K, forall m mi a xs fp b n s, nth_error (messages_of f) mi = Some m -> struct_at (messages_of f) (heap s) a m xs fp ->
    struct_type (schema_of f) xs mi -> bytes_ok b -> int_ok W b -> ((length b + 1) * R + K <= n)%nat ->
    go1 W f unlimited (S n) (Some (gotype m)) ".Decode" [GoPtr (gotype m) (Some a); GoBase (VBytes b)] s = Panics \/
    exists v s', go1 W f unlimited (S n) (Some (gotype m)) ".Decode" [GoPtr (gotype m) (Some a); GoBase (VBytes b)] s = Fine ([v], s') /\
      (v = GoNil \/ exists e, v = GoError (Some e)).
Proof.
  intros W f NA KL NU TC WF. destruct (c92_v1_returns W f NA (checks_compiles false f NA TC KL NU) WF) as (R & K & HR). exists R, K. intros m mi a xs fp b n s H1 H2 H3 H4 H5 H6.
  destruct (HR m mi a xs fp b n s H1 H2 H3 H4 H5 H6) as [K0|(v & ys & fp' & s' & K1 & K2 & _)]; [left; exact K0|right; eauto].
Qed.
Print Assumptions c94_v1_safe.

(** A file that meets the hypotheses, with every sort of field, and passes *)
Example c94_example : forall v2, names_apart v2 go_ex /\ keys_legal go_ex /\ enums_fit go_ex /\ no_uint32 go_ex /\ type_checks v2 (go_program v2 go_ex) = true.
Proof.
  intros v2. split; [apply c92_example|]. split; [|split; [|split; [|destruct v2; vm_compute; reflexivity]]].
  - intros m fd kt vt Hm Hf E. apply ms_has in Hm. cbn in Hm. destruct Hm as [<-|[<-|[]]]; cbn in Hf; repeat (destruct Hf as [<-|Hf]; [cbn in E; try discriminate E; injection E as <- _; unfold legal_key; cbn; auto 20|]); destruct Hf.
  - intros e [He|(m & Hm & He)].
    + destruct He as [<-|[]]. vm_compute. discriminate.
    + cbn in Hm. destruct Hm as [<-|[<-|[]]]; cbn in He; contradiction.
  - intros m fd s Hm Hf M E. apply ms_has in Hm. cbn in Hm. destruct Hm as [<-|[<-|[]]]; cbn in Hf; repeat (destruct Hf as [<-|Hf]; [cbn in E, M; discriminate|]); destruct Hf.
Qed.

(** Refuted: that names which are legal and distinct are enough.  The variable ETemp hides the type ETemp. *)
Theorem c94_shadowed_type_refuted : forall v2, NoDup (go_names (go_file v2 shadow)) /\ (forall n, In n (go_names (go_file v2 shadow)) -> identifier n) /\
  supported shadow /\ type_checks v2 (go_program v2 shadow) = false.
Proof.
  intros v2. destruct (c92_shadowed_type_refuted v2) as (A & B & _ & _). split; [exact A|]. split; [exact B|]. split; [|destruct v2; vm_compute; reflexivity].
  intros m Hm. apply ms_has in Hm. cbn in Hm. destruct Hm as [<-|[]]. split; [intros fd [<-|[]]; reflexivity|]. right. eexists. split; [left; reflexivity|]. intros k v E. discriminate E.
Qed.
Print Assumptions c94_shadowed_type_refuted.
(** Refuted: that every protobuf file gives Go code that compiles.  message M { map<int32, int32> a = 1; }: the variable err of
    decode is declared and not used. *)
Definition only_map_m : msgd := mkmsg (text "M") false [mkfield (text "a") (text "M.a") true (TMap (TScalar KInt32) (TScalar KInt32))] [] [].
Definition only_map : filed := mkfiled [] [only_map_m].
Theorem c94_only_maps_refuted : forall v2, names_apart v2 only_map /\ keys_legal only_map /\ enums_fit only_map /\ no_uint32 only_map /\
  type_checks v2 (go_program v2 only_map) = false.
Proof.
  assert (HM : forall m, has_message only_map m -> m = only_map_m) by (intros m Hm; apply ms_has in Hm; cbn in Hm; destruct Hm as [<-|[]]; reflexivity).
  intros v2. split; [|split; [|split; [|split; [|destruct v2; vm_compute; reflexivity]]]].
  - split.
    + intros n H. apply PkgThms3.identb_ok. revert H. destruct v2; vm_compute; intros H; repeat (destruct H as [<-|H]; [reflexivity|]); destruct H.
    + destruct v2; vm_compute; repeat (constructor; [cbn; intuition discriminate|]); constructor.
    + intros m Hm. rewrite (HM m Hm). repeat constructor. intros [].
    + intros m fd Hm Hf (s & E). rewrite (HM m Hm) in Hf. destruct Hf as [<-|[]]. discriminate E.
    + intros m fd k s Hm Hf E. rewrite (HM m Hm) in Hf. destruct Hf as [<-|[]]. discriminate E.
    + intros m fd Hm Hf. rewrite (HM m Hm) in Hf. destruct Hf as [<-|[]]. vm_compute. repeat (split; [discriminate|] || split); try discriminate; reflexivity.
  - intros m fd kt vt Hm Hf E. rewrite (HM m Hm) in Hf. destruct Hf as [<-|[]]. injection E as <- _. unfold legal_key. cbn. auto 20.
  - intros e [[]|(m & Hm & He)]. destruct Hm as [<-|[]]. destruct He.
  - intros m fd s Hm Hf M E. rewrite (HM m Hm) in Hf. destruct Hf as [<-|[]]. discriminate E.
Qed.
Print Assumptions c94_only_maps_refuted.
(** Refuted: that the generator never supports repeated enums.  enum uint32 { X = 0; } message M { repeated uint32 e = 1; } (the
    enum, written .uint32): the type of the field is []uint32, a slice of numbers, and not of the enum, which is Uint32. *)
Definition uint32_m : msgd := mkmsg (text "M") false [mkfield (text "e") (text "M.e") true (TEnum (text "uint32"))] [] [].
Definition uint32_f : filed := mkfiled [mkenum (text "uint32") [mkval (text "X") (text "X") 0]] [uint32_m].
Theorem c94_enum_named_uint32_refuted : forall v2, names_apart v2 uint32_f /\ keys_legal uint32_f /\ enums_fit uint32_f /\ ~ supported uint32_f /\
  type_checks v2 (go_program v2 uint32_f) = true.
Proof.
  assert (HM : forall m, has_message uint32_f m -> m = uint32_m) by (intros m Hm; apply ms_has in Hm; cbn in Hm; destruct Hm as [<-|[]]; reflexivity).
  intros v2. split; [|split; [|split; [|split; [|destruct v2; vm_compute; reflexivity]]]].
  - split.
    + intros n H. apply PkgThms3.identb_ok. revert H. destruct v2; vm_compute; intros H; repeat (destruct H as [<-|H]; [reflexivity|]); destruct H.
    + destruct v2; vm_compute; repeat (constructor; [cbn; intuition discriminate|]); constructor.
    + intros m Hm. rewrite (HM m Hm). repeat constructor. intros [].
    + intros m fd Hm Hf (s & E) M. rewrite (HM m Hm) in Hf. destruct Hf as [<-|[]]. discriminate M.
    + intros m fd k s Hm Hf E. rewrite (HM m Hm) in Hf. destruct Hf as [<-|[]]. discriminate E.
    + intros m fd Hm Hf. rewrite (HM m Hm) in Hf. destruct Hf as [<-|[]]. exists (mkenum (text "uint32") [mkval (text "X") (text "X") 0]). split; [left; left; reflexivity|reflexivity].
  - intros m fd kt vt Hm Hf E. rewrite (HM m Hm) in Hf. destruct Hf as [<-|[]]. discriminate E.
  - intros e [[<-|[]]|(m & [<-|[]] & [])]. vm_compute. discriminate.
  - intros SU. assert (K : has_message uint32_f uint32_m) by (apply ms_has; left; reflexivity). destruct (SU _ K) as (K1 & _). specialize (K1 _ (or_introl eq_refl)). discriminate K1.
Qed.
Print Assumptions c94_enum_named_uint32_refuted.

(** What the type checker rejects, on programs the generator does not write (each differs from [fine] in one place). *)
Definition one_func (R : option tyx) (l : list stmt) : list decl := [DFunc (mkfunc None (text "F") [] [] R l false)].
Definition n_a : bytes := text "a".
Definition u32 : option tyx := Some (XText n_u32).
Example checker_fine : type_checks true (one_func u32 [Let n_a n_u32; Assign [Var n_a] (Num 1); Return [Var n_a]]) = true.
Proof. reflexivity. Qed.
Example checker_assigned_is_not_used : type_checks true (one_func u32 [Let n_a n_u32; Assign [Var n_a] (Num 1); Return [Num 0]]) = false.
Proof. reflexivity. Qed.
Example checker_missing_return : type_checks true (one_func u32 [Let n_a n_u32; Assign [Var n_a] (Num 1); If (Eq (Var n_a) (Num 1)) [Return [Var n_a]] []]) = false.
Proof. reflexivity. Qed.
Example checker_undeclared : type_checks true (one_func u32 [Return [Var n_a]]) = false.
Proof. reflexivity. Qed.
Example checker_twice : type_checks true (one_func u32 [Let n_a n_u32; Let n_a n_u32; Return [Var n_a]]) = false.
Proof. reflexivity. Qed.
Example checker_wrong_type : type_checks true (one_func u32 [Let n_a (text "string"); Return [Var n_a]]) = false.
Proof. reflexivity. Qed.
