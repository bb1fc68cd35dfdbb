(** Property C68: map entries that repeat a key.  Go and Rust maps cannot be encoded with a repeated key,
    but an input can contain one.  Specification: GenSpec.v ([sent_struct], [last_wins], [collapse]),
    RsGenSpec.v. *)
From Coq Require Import String.
From Verif Require Import Base Spec SpecProofs Utf8 GoSpec BufSpec RustModel RustSpec GenTables RsGenModel RsGenSpec.
From Verif Require Import GenLemmas GenThms GenThms2 RsGenLemmas RsGenRound RsGenAny RsGenThms.
From Verif Require V1Model V2Model.
From Verif Require Import GenModel GenSpec.
Import RustModel RsGenModel RsGenSpec.

(** What [collapse] does to a map: every key that was sent is there once, with the value that was sent
    last; and it does nothing else. *)
Theorem c68_last_wins : forall (l : list (value * gval)),
  NoDup (map fst (last_wins l)) /\
  (forall k v, In (k, v) (last_wins l) <-> exists pre post, l = pre ++ (k, v) :: post /\ ~ In k (map fst post)) /\
  (forall k, In k (map fst (last_wins l)) <-> In k (map fst l)).
Proof.
  intros l. split; [apply last_wins_nodup|]. split; [apply last_wins_in|]. intros k. split; [apply last_wins_fst|].
  induction l as [|[k' v'] l IH]; cbn; [auto|]. destruct (value_eq_dec k' k) as [->|H]; [auto|]. intros [E|Hk]; [contradiction|right].
  specialize (IH Hk). apply in_map_iff in IH. destruct IH as (e & <- & He). apply List.in_map. apply filter_In. split; [exact He|].
  destruct (value_eq_dec k' (fst e)); [contradiction|reflexivity].
Qed.
Print Assumptions c68_last_wins.
(** The collapsed value is a proper struct value, and proper values are left alone. *)
Theorem c68_collapsed : forall S xs m, sent_struct S xs m -> struct_type S (map collapse xs) m.
Proof. intros S xs m H. exact (collapse_type S (GMsg (Some xs)) (One (Msg m)) H). Qed.
Print Assumptions c68_collapsed.
Theorem c68_collapsed_same : forall S xs m, struct_type S xs m -> map collapse xs = xs.
Proof. intros S xs m H. apply collapse_id in H. cbn [collapse] in H. congruence. Qed.
Print Assumptions c68_collapsed_same.

(** The three decoders agree: in every map, at any depth, the last entry for a key wins. *)
Theorem c68_go_v2 : forall W S m xs old r fuel, compiles S = true ->
  sent_struct S xs m -> readable S (GMsg (Some xs)) (One (Msg m)) -> no_nil (GMsg (Some xs)) -> struct_type S old m ->
  bytes_ok r -> int_ok W (layout S (GMsg (Some xs)) (One (Msg m)) ++ r) -> (depth (GMsg (Some xs)) <= fuel)%nat ->
  Decode2 W S fuel m (Some old) (layout S (GMsg (Some xs)) (One (Msg m)) ++ r) = Some (GDone r (map collapse xs)).
Proof. exact decode2_last. Qed.
Print Assumptions c68_go_v2.
Theorem c68_go_v1 : forall W S K m xs old r fuel, compiles S = true -> new_ok S K ->
  sent_struct S xs m -> readable S (GMsg (Some xs)) (One (Msg m)) -> no_nil (GMsg (Some xs)) -> struct_type S old m ->
  bytes_ok r -> int_ok W (layout S (GMsg (Some xs)) (One (Msg m)) ++ r) -> (depth (GMsg (Some xs)) + K <= fuel)%nat ->
  Decode1 W S fuel m (Some old) (layout S (GMsg (Some xs)) (One (Msg m)) ++ r) = Some (GDone r (map collapse xs)).
Proof. exact decode1_last. Qed.
Print Assumptions c68_go_v1.
Theorem c68_rust : forall rt alloc S c m xs r fuel, rs_compiles S -> sent_struct (forget S) xs m ->
  ready S (GMsg (Some xs)) (ROne (RMsg m)) -> no_nil (GMsg (Some xs)) ->
  affordable alloc S (GMsg (Some xs)) (ROne (RMsg m)) -> anchored_all S m xs \/ quiet r ->
  cursor_ok rt c -> rest c = bytes_of S m xs ++ r -> (depth (GMsg (Some xs)) <= fuel)%nat ->
  rs_decode rt alloc S fuel m c = RGOk (Some (map collapse xs)) (at_rest c r).
Proof. exact rs_last. Qed.
Print Assumptions c68_rust.
(** With nil messages and nil maps in between, the Go decoders' exact result is that of C46 for the
    collapsed value. *)
Theorem c68_go_v2_exact : forall W S m xs old r fuel, compiles S = true ->
  sent_struct S xs m -> readable S (GMsg (Some xs)) (One (Msg m)) -> struct_type S old m ->
  bytes_ok r -> int_ok W (layout S (GMsg (Some xs)) (One (Msg m)) ++ r) -> (depth (GMsg (Some xs)) <= fuel)%nat ->
  exists y, Decode2 W S fuel m (Some old) (layout S (GMsg (Some xs)) (One (Msg m)) ++ r) = Some (GDone r y) /\
    GMsg (Some y) = overlay true S (zero_struct S) false (collapse (GMsg (Some xs))) (One (Msg m)) (GMsg (Some old)).
Proof. intros W S m xs old r fuel HC HT HR HO. apply decode2_sent; auto. apply ht_st. exact HO. Qed.
Print Assumptions c68_go_v2_exact.
Theorem c68_go_v1_exact : forall W S K m xs old r fuel, compiles S = true -> new_ok S K ->
  sent_struct S xs m -> readable S (GMsg (Some xs)) (One (Msg m)) -> struct_type S old m ->
  bytes_ok r -> int_ok W (layout S (GMsg (Some xs)) (One (Msg m)) ++ r) -> (depth (GMsg (Some xs)) + K <= fuel)%nat ->
  exists y, Decode1 W S fuel m (Some old) (layout S (GMsg (Some xs)) (One (Msg m)) ++ r) = Some (GDone r y) /\
    GMsg (Some y) = overlay false S (blank1 S K) false (collapse (GMsg (Some xs))) (One (Msg m)) (GMsg (Some old)).
Proof. intros W S K m xs old r fuel HC HN HT HR HO. apply decode1_sent; auto. apply ht_st. exact HO. Qed.
Print Assumptions c68_go_v1_exact.

(** message 0 { bool; map<string, message1> }, message 1 { map<string, int32>; bool }: keys repeated on
    both levels. *)
Definition dup_schema : rschema :=
  [[ROne (RScalar GenTables.KBool); RMapOf GenTables.KString (RMsg 1)];
   [RMapOf GenTables.KString (RScalar GenTables.KInt32); ROne (RScalar GenTables.KBool)]].
Definition dup_inner (a b : Z) : gval :=
  GMsg (Some [GMap (Some [(VString [65], GPrim (VI32 a)); (VString [65], GPrim (VI32 b))]); GPrim (VBool true)]).
Definition dup_value : list gval :=
  [GPrim (VBool true); GMap (Some [(VString [66], dup_inner 1 2); (VString [67], dup_inner 3 4); (VString [66], dup_inner 5 6)])].
Definition one_inner (b : Z) : gval := GMsg (Some [GMap (Some [(VString [65], GPrim (VI32 b))]); GPrim (VBool true)]).
Example c68_example :
  compiles (forget dup_schema) = true /\ rs_compiles dup_schema /\ new_ok (forget dup_schema) 2 /\
  sent_struct (forget dup_schema) dup_value 0 /\ ~ struct_type (forget dup_schema) dup_value 0 /\
  ready dup_schema (GMsg (Some dup_value)) (ROne (RMsg 0)) /\ no_nil (GMsg (Some dup_value)) /\ anchored_all dup_schema 0 dup_value /\
  map collapse dup_value = [GPrim (VBool true); GMap (Some [(VString [66], one_inner 6); (VString [67], one_inner 4)])].
Proof.
  split; [reflexivity|]. split.
  { split; [reflexivity|]. intros m. constructor. intros b Hb. unfold embeds in Hb. destruct m as [|[|[|m]]]; cbn in Hb; repeat (destruct Hb as [Hb|Hb]; [discriminate Hb|]); destruct Hb. }
  split. { intros [|[|m]] H; [| |cbn in H; lia]; do 2 eexists; reflexivity. }
  split; [vm_compute; repeat split; repeat constructor; discriminate|]. split.
  { intros H. apply ht_msg in H. destruct H as [_ H]. inversion H as [|? ? ? ? _ H2]; subst. inversion H2 as [|? ? ? ? H3 _]; subst.
    cbn in H3. destruct H3 as (_ & ND & _). inversion ND as [|? ? N _]; subst. apply N. cbn. auto. }
  assert (U : utf8 [65] /\ utf8 [66] /\ utf8 [67]) by (repeat split; apply from_utf8_iff; reflexivity).
  split. { cbn. repeat split; repeat (apply Forall_cons; [|]); try apply Forall_nil; try exact I; apply U. }
  split; [vm_compute; tauto|]. split; [|vm_compute; reflexivity].
  vm_compute. auto 12.
Qed.
