(** Round trip, reuse and injectivity of the generated Go code. *)
From Coq Require Import String.
From Verif Require Import Base Spec SpecProofs GoIdeal GoProps GoThms BufSpec GenTables GenModel GenSpec GenLemmas GenFields GenDec.
From Verif Require V1Model V2Model.

Lemma zero_type S f : field_compiles S f = true -> has_type S (zero f) f.
Proof.
  destruct f as [[k|m]|t|k t]; intros H.
  - cbn [field_compiles] in H. destruct k; try discriminate H; cbn; repeat split; cbn; auto; try lia; constructor.
  - cbn in *. apply Nat.ltb_lt in H. exact H.
  - cbn. split; [lia|exact I].
  - exact I.
Qed.
Lemma zero_struct_type S m : compiles S = true -> (m < length S)%nat -> struct_type S (zero_struct S m) m.
Proof.
  intros HC L. apply ht_msg. split; [exact L|]. unfold zero_struct.
  pose proof (compiles_msg S m HC L) as C. revert C. induction (fields_of S m) as [|f fs IH]; intros C; constructor.
  - apply zero_type. apply andb_prop in C. apply C.
  - apply IH. apply andb_prop in C. apply C.
Qed.
Lemma New_v2 S fuel m : (m < length S)%nat -> New true S fuel m = GDone [] (zero_struct S m).
Proof. intros L. destruct fuel; cbn [New]; rewrite (fields_nth S m L); reflexivity. Qed.

(** ** New, version 1 *)
Definition new_fields (S : schema) (fuel : nat) := fix each (fs : list field) : gres (list gval) :=
  match fs with
  | [] => GDone [] []
  | f :: fs => gbind (match f with
       | One (Msg m) => gbind (New false S fuel m) (fun _ x => GDone [] (GMsg (Some x)))
       | _ => GDone [] (zero f) end)
     (fun _ x => gbind (each fs) (fun _ xs => GDone [] (x :: xs)))
  end.
Lemma New_v1 S fuel m : (m < length S)%nat -> New false S (Datatypes.S fuel) m = new_fields S fuel (fields_of S m).
Proof. intros L. cbn [New]. rewrite (fields_nth S m L). reflexivity. Qed.
Lemma New_v1_range S fuel m q s : New false S fuel m = GDone q s -> (m < length S)%nat.
Proof.
  intros H. destruct (Nat.lt_ge_cases m (length S)) as [L|L]; [exact L|].
  apply nth_error_None in L. destruct fuel; cbn [New] in H; rewrite L in H; discriminate.
Qed.
Lemma gbind_done {A B} (x : gres A) (k : bytes -> A -> gres B) r y : gbind x k = GDone r y ->
  exists q a, x = GDone q a /\ k q a = GDone r y.
Proof. destruct x; cbn; try discriminate. eauto. Qed.
Lemma New_v1_ok S : compiles S = true -> forall fuel m q s, New false S fuel m = GDone q s ->
  struct_type S s m /\ forall fuel', (fuel <= fuel')%nat -> New false S fuel' m = GDone q s.
Proof.
  intros HC. induction fuel as [|fuel IH]; intros m q s H.
  - pose proof (New_v1_range _ _ _ _ _ H) as L. cbn [New] in H. rewrite (fields_nth S m L) in H. discriminate.
  - pose proof (New_v1_range _ _ _ _ _ H) as L. rewrite New_v1 in H by exact L.
    assert (G : forall fs, forallb (field_compiles S) fs = true -> forall q s, new_fields S fuel fs = GDone q s ->
              Forall2 (has_type S) s fs /\ forall fuel', (fuel <= fuel')%nat -> new_fields S fuel' fs = GDone q s).
    { clear H q s m L. induction fs as [|f fs IHf]; intros C q s H.
      - injection H as <- <-. split; [constructor|]. reflexivity.
      - cbn [forallb] in C. apply andb_prop in C. destruct C as [Cf C].
        cbn [new_fields] in H. apply gbind_done in H. destruct H as (q1 & x & Hx & H).
        apply gbind_done in H. destruct H as (q2 & xs & Hxs & H). injection H as <- <-.
        destruct (IHf C _ _ Hxs) as [HT HM].
        assert (HXf : has_type S x f /\ forall fuel', (fuel <= fuel')%nat -> match f with
            | One (Msg m) => gbind (New false S fuel' m) (fun _ x => GDone [] (GMsg (Some x)))
            | _ => GDone [] (zero f) end = GDone q1 x).
        { pose proof (zero_type S f Cf) as ZT.
          destruct f as [[k|m]|t|k t]; try (injection Hx as <- <-; split; [exact ZT|reflexivity]).
          apply gbind_done in Hx. destruct Hx as (q3 & y & Hy & Hx). injection Hx as <- <-.
          destruct (IH _ _ _ Hy) as [HTy HMy]. split; [exact HTy|]. intros f' Hf'. rewrite HMy by exact Hf'. reflexivity. }
        destruct HXf as [HX1 HX2]. split; [constructor; assumption|]. intros f' Hf'.
        cbn [new_fields]. rewrite HX2 by exact Hf'. cbn [gbind]. fold (new_fields S f'). rewrite HM by exact Hf'. reflexivity. }
    destruct (G _ (compiles_msg S m HC L) _ _ H) as [HT HM]. split.
    + apply ht_msg. auto.
    + intros [|f'] Hf'; [lia|]. rewrite New_v1 by exact L. apply HM. lia.
Qed.

(** ** The two primitive decoders *)
Definition prim1 (W : Z) : option bytes -> request -> bytes -> outcome := V1Model.decode W.
Definition prim2 (W : Z) : option bytes -> request -> bytes -> outcome :=
  fun dst => V2Model.decode W (V1Model.oget dst).
Lemma nil1 W dst b : (forall r, b <> 0 :: r) -> V1Model.decode W dst RNil b = Fail b ENotNil.
Proof.
  intros H. destruct b as [|c b]; [reflexivity|]. cbn [V1Model.decode]. unfold V1Model.decodeNil.
  rewrite zlen_cons. destruct (Z.gtb_spec (1 + zlen b) 0) as [G|G]; [|pose proof (zlen_nonneg b); lia].
  destruct (Z.eqb_spec c 0) as [->|N]; [congruence|]. apply Z.eqb_neq in N.
  change (index (c :: b) 0) with (Ok c). change (index V1Model.NilKind 0) with (Ok 0). cbn [bind].
  rewrite N. reflexivity.
Qed.
Lemma nil2 W ret b : (forall r, b <> 0 :: r) -> V2Model.decode W ret RNil b = Fail b ENotNil.
Proof.
  intros H. destruct b as [|c b]; [reflexivity|]. cbn [V2Model.decode]. unfold V2Model.decodeNil.
  rewrite zlen_cons. destruct (Z.gtb_spec (1 + zlen b) 0) as [G|G]; [|pose proof (zlen_nonneg b); lia].
  destruct (Z.eqb_spec c 0) as [->|N]; [congruence|]. apply Z.eqb_neq in N.
  change (index (c :: b) 0) with (Ok c). change V2Model.NilRawKind with 0. cbn [bind].
  rewrite N. reflexivity.
Qed.

(** ** Exact results *)
Lemma v2_exact W S m xs old vs r fuel : compiles S = true ->
  sent_struct S xs m -> readable S (GMsg (Some xs)) (One (Msg m)) -> sent_struct S old m ->
  calls S (GMsg (Some xs)) (One (Msg m)) = Some vs -> bytes_ok r -> int_ok W (wires vs ++ r) ->
  (depth (GMsg (Some xs)) <= fuel)%nat ->
  exists y, decode true (prim2 W) S fuel m old (wires vs ++ r) = GDone r y /\
    GMsg (Some y) = overlay true S (zero_struct S) false (collapse (GMsg (Some xs))) (One (Msg m)) (GMsg (Some old)).
Proof.
  intros HC HT HR HO E Hr HW HF.
  assert (L : (m < length S)%nat) by (apply st_msg in HT; apply HT).
  destruct (decode_exact true (prim2 W) S W 0 (zero_struct S) HC) with (x := GMsg (Some xs)) as [HA _].
  - intros dst v r' _ Hv Hr' HW'. apply dec2_wire; assumption.
  - intros b. apply nil2.
  - intros k f Lk _. exists []. apply New_v2. exact Lk.
  - intros k Lk. apply ht_st, zero_struct_type; assumption.
  - specialize (HA (Msg m) (GMsg (Some old)) vs r fuel HT HR HO).
    assert (FC : field_compiles S (One (Msg m)) = true) by (cbn; apply Nat.ltb_lt; exact L).
    assert (HF' : (depth (GMsg (Some xs)) + 0 <= fuel)%nat) by lia.
    specialize (HA FC E Hr HW HF'). cbn [elem or_new gbind] in HA.
    apply gbind_done in HA. destruct HA as (q & a & Ha & HA).
    exists a. assert (q = r) as -> by (injection HA; auto). split; [exact Ha|].
    assert (INJ : forall a b (x y : gval), GDone a x = GDone b y -> x = y) by (intros a' b' x' y' E'; injection E'; auto).
    exact (INJ _ _ _ _ HA).
Qed.
Lemma v1_exact W S K m xs old vs r fuel : compiles S = true -> new_ok S K ->
  sent_struct S xs m -> readable S (GMsg (Some xs)) (One (Msg m)) -> sent_struct S old m ->
  calls S (GMsg (Some xs)) (One (Msg m)) = Some vs -> bytes_ok r -> int_ok W (wires vs ++ r) ->
  (depth (GMsg (Some xs)) + K <= fuel)%nat ->
  exists y, decode false (prim1 W) S fuel m old (wires vs ++ r) = GDone r y /\
    GMsg (Some y) = overlay false S (blank1 S K) false (collapse (GMsg (Some xs))) (One (Msg m)) (GMsg (Some old)).
Proof.
  intros HC HN HT HR HO E Hr HW HF.
  assert (L : (m < length S)%nat) by (apply st_msg in HT; apply HT).
  destruct (decode_exact false (prim1 W) S W K (blank1 S K) HC) with (x := GMsg (Some xs)) as [HA _].
  - intros dst v r' Hd Hv Hr' HW'. rewrite Hd by reflexivity. apply dec1_wire; assumption.
  - intros b. apply nil1.
  - intros k f Lk Hf. destruct (HN k Lk) as (q & s & Es). exists q. unfold blank1. rewrite Es.
    apply (New_v1_ok S HC _ _ _ _ Es). exact Hf.
  - intros k Lk. destruct (HN k Lk) as (q & s & Es). unfold blank1. rewrite Es. apply ht_st, (New_v1_ok S HC _ _ _ _ Es).
  - specialize (HA (Msg m) (GMsg (Some old)) vs r fuel HT HR HO).
    assert (FC : field_compiles S (One (Msg m)) = true) by (cbn; apply Nat.ltb_lt; exact L).
    specialize (HA FC E Hr HW HF). cbn [elem or_new gbind] in HA.
    apply gbind_done in HA. destruct HA as (q & a & Ha & HA).
    exists a. assert (q = r) as -> by (injection HA; auto). split; [exact Ha|].
    assert (INJ : forall a b (x y : gval), GDone a x = GDone b y -> x = y) by (intros a' b' x' y' E'; injection E'; auto).
    exact (INJ _ _ _ _ HA).
Qed.

(** ** Simple special cases of [overlay] *)
Lemma zw3_id {A B C} (g : A -> B -> C -> A) xs fs os :
  length xs = length fs -> length os = length fs ->
  (forall i x f o, nth_error xs i = Some x -> nth_error fs i = Some f -> nth_error os i = Some o -> g x f o = x) ->
  zw3 g xs fs os = xs.
Proof.
  intros L1 L2 H. apply nth_error_ext. intros i. rewrite nth_error_zw3.
  destruct (nth_error xs i) as [x|] eqn:Ex; [|reflexivity].
  assert (i < length xs)%nat as Hi by (apply nth_error_Some; congruence).
  destruct (nth_error_ex fs i) as [f Ef]; [lia|]. destruct (nth_error_ex os i) as [o Eo]; [lia|].
  rewrite Ef, Eo. f_equal. eapply H; eassumption.
Qed.
Lemma zw_id {A B} (g : A -> B -> A) xs fs :
  length fs = length xs -> (forall i x f, nth_error xs i = Some x -> nth_error fs i = Some f -> g x f = x) ->
  zw g xs fs = xs.
Proof.
  intros L H. apply nth_error_ext. intros i. rewrite nth_error_zw.
  destruct (nth_error xs i) as [x|] eqn:Ex; [|reflexivity].
  assert (i < length xs)%nat as Hi by (apply nth_error_Some; congruence).
  destruct (nth_error_ex fs i) as [f Ef]; [lia|]. rewrite Ef. f_equal. eapply H; eassumption.
Qed.
Lemma map_repeat {A B} (z : B) (xs : list A) : map (fun _ => z) xs = repeat z (length xs).
Proof. induction xs as [|x xs IH]; [reflexivity|]. cbn [map repeat length]. rewrite IH. reflexivity. Qed.
Lemma overlay_no_nil v2 S blank : (forall m, (m < length S)%nat -> length (blank m) = length (fields_of S m)) ->
  (forall m, (m < length S)%nat -> struct_type S (blank m) m) ->
  forall x f keep old, has_type S x f -> no_nil x -> has_type S old f \/ old = GMsg None ->
  field_compiles S f = true -> compiles S = true ->
  overlay v2 S blank keep x f old = x.
Proof.
  intros HB HBT. induction x using gval_ind'; intros f keep old HT HN HO FC HC.
  - destruct f as [[k|m]|t|k t]; try contradiction HT. reflexivity.
  - destruct f as [[k|m]|t|k t]; try contradiction HT.
    assert (FCt : field_compiles S (One t) = true).
    { destruct t as [k|m]; [|exact FC]. cbn [field_compiles] in *. apply andb_prop in FC. destruct FC as [FC _]. destruct k; try discriminate FC; reflexivity. }
    apply ht_many in HT. destruct HT as [HL HT]. apply nn_list in HN.
    rewrite Forall_forall in H, HT, HN.
    assert (FRESH : forall i x o, nth_error xs i = Some x -> nth_error (repeat (zero (One t)) (length xs)) i = Some o -> overlay v2 S blank false x (One t) o = x).
    { intros i x o Ex Eo. apply nth_error_In in Ex. apply nth_error_In, repeat_spec in Eo. subst o. apply H; auto. left. apply zero_type. exact FCt. }
    destruct old as [v|ys|y|y].
    + destruct HO as [[]|HO]; discriminate HO.
    + destruct HO as [HO|HO]; [|discriminate HO]. apply ht_many in HO. destruct HO as [_ HO]. rewrite overlay_many. f_equal.
      destruct (Nat.eqb_spec (length ys) (length xs)) as [El|El].
      * apply zw_id; [lia|]. intros i x o Ex Eo. apply nth_error_In in Ex, Eo. rewrite Forall_forall in HO. apply H; auto.
      * apply zw_id; [apply repeat_length|exact FRESH].
    + destruct HO as [HO|HO]; [destruct y; contradiction HO|discriminate HO].
    + destruct HO as [HO|HO]; [destruct y; contradiction HO|].
      replace (overlay v2 S blank keep (GList xs) (Many t) (GMsg y)) with (overlay v2 S blank keep (GList xs) (Many t) (GList (repeat (zero (One t)) (length xs)))).
      * rewrite overlay_many. f_equal. rewrite repeat_length, Nat.eqb_refl. apply zw_id; [apply repeat_length|exact FRESH].
      * replace (repeat (zero (One t)) (length xs)) with (map (fun _ => zero (One t)) xs) by apply map_repeat.
        cbn [overlay]. rewrite map_length, Nat.eqb_refl. reflexivity.
  - contradiction HN.
  - destruct f as [[k|m]|t|k t]; try contradiction HT. apply ht_map in HT. destruct HT as (_ & _ & HT). apply nn_map in HN.
    cbn [overlay]. do 2 f_equal. rewrite Forall_forall in H, HT, HN.
    rewrite <- (map_id l) at 2. apply map_ext_in. intros [k0 x] Hx. cbn [fst snd]. f_equal.
    destruct (HT _ Hx) as [_ Hx2]. apply (H _ Hx); auto; try exact (HN _ Hx).
    cbn [field_compiles] in FC. apply andb_prop in FC. destruct FC as [_ FC]. destruct t as [k2|m]; [|exact FC]. destruct k2; try discriminate FC; reflexivity.
  - contradiction HN.
  - destruct f as [[k|m]|t|k t]; try contradiction HT. apply ht_msg in HT. destruct HT as [L HT]. apply nn_msg in HN.
    pose proof (Forall2_length _ _ _ HT) as Len. rewrite overlay_msg. do 2 f_equal.
    assert (BT : struct_type S (if keep then blank m else base blank m old) m).
    { destruct keep; [apply HBT; exact L|]. destruct HO as [HO| ->]; [|apply HBT; exact L].
      destruct old as [| |[|]|[|]]; try contradiction HO; cbn [base]; [exact HO|apply HBT; exact L]. }
    apply ht_msg in BT. destruct BT as [_ BT]. pose proof (Forall2_length _ _ _ BT) as Len2.
    rewrite Forall_forall in H, HN.
    apply zw3_id; try congruence. intros i x f o Ex Ef Eo. apply H; try (eapply nth_error_In; eassumption).
    + exact (Forall2_nth _ _ _ _ _ _ HT Ex Ef).
    + apply HN. eapply nth_error_In; eassumption.
    + left. exact (Forall2_nth _ _ _ _ _ _ BT Eo Ef).
    + eapply compiles_field; eassumption.
    + exact HC.
Qed.
Lemma overlay_tidy S : compiles S = true -> forall x f (e : bool) old, has_type S x f -> tidy e x ->
  old = zero f \/ (e = true /\ old = GMsg None) -> field_compiles S f = true ->
  overlay true S (zero_struct S) (negb e) x f old = x.
Proof.
  intros HC. induction x using gval_ind'; intros f e old HT HN HO FC.
  - destruct f as [[k|m]|t|k t]; try contradiction HT. reflexivity.
  - destruct f as [[k|m]|t|k t]; try contradiction HT.
    assert (FCt : field_compiles S (One t) = true).
    { destruct t as [k|m]; [|exact FC]. cbn [field_compiles] in *. apply andb_prop in FC. destruct FC as [FC _]. destruct k; try discriminate FC; reflexivity. }
    apply ht_many in HT. destruct HT as [HL HT]. apply ti_list in HN. rewrite Forall_forall in H, HT, HN.
    assert (EQ : overlay true S (zero_struct S) (negb e) (GList xs) (Many t) old = overlay true S (zero_struct S) (negb e) (GList xs) (Many t) (GList (repeat (zero (One t)) (length xs)))).
    { rewrite overlay_many. rewrite repeat_length, Nat.eqb_refl.
      destruct HO as [->|[_ ->]].
      - cbn [zero]. rewrite overlay_many. f_equal. destruct xs; reflexivity.
      - rewrite <- (repeat_length (zero (One t)) (length xs)) at 1. cbn [overlay]. f_equal. clear.
        replace (map (fun _ => zero (One t)) xs) with (repeat (zero (One t)) (length xs)) by (symmetry; apply map_repeat).
        rewrite ?repeat_length. generalize (repeat (zero (One t)) (length xs)) as os. induction xs as [|x xs IH]; intros [|o os]; cbn; try reflexivity. f_equal. apply IH. }
    rewrite EQ, overlay_many, repeat_length, Nat.eqb_refl. f_equal. apply zw_id; [apply repeat_length|].
    intros i x o Ex Eo. apply nth_error_In in Ex. apply nth_error_In, repeat_spec in Eo. subst o.
    change false with (negb true). apply H; auto.
  - contradiction HN.
  - destruct f as [[k|m]|t|k t]; try contradiction HT. apply ht_map in HT. destruct HT as (_ & _ & HT). apply ti_map in HN.
    cbn [overlay]. do 2 f_equal. rewrite Forall_forall in H, HT, HN.
    rewrite <- (map_id l) at 2. apply map_ext_in. intros [k0 x] Hx. cbn [fst snd]. f_equal.
    destruct (HT _ Hx) as [_ Hx2]. change false with (negb true). apply (H _ Hx); auto; try exact (HN _ Hx).
    cbn [field_compiles] in FC. apply andb_prop in FC. destruct FC as [_ FC]. destruct t as [k2|m]; [|exact FC]. destruct k2; try discriminate FC; reflexivity.
  - destruct f as [[k|m]|t|k t]; try contradiction HT. cbn [tidy] in HN. subst e. cbn.
    destruct HO as [->|[? _]]; [reflexivity|discriminate].
  - destruct f as [[k|m]|t|k t]; try contradiction HT. apply ht_msg in HT. destruct HT as [L HT]. apply ti_msg in HN.
    pose proof (Forall2_length _ _ _ HT) as Len. rewrite overlay_msg. do 2 f_equal.
    assert (BT : (if negb e then zero_struct S m else base (zero_struct S) m old) = zero_struct S m).
    { destruct e; [|reflexivity]. cbn [negb]. destruct HO as [->|[_ ->]]; reflexivity. }
    rewrite BT. rewrite Forall_forall in H, HN. unfold zero_struct at 2.
    apply zw3_id; [congruence|apply map_length|]. intros i x f o Ex Ef Eo.
    rewrite nth_error_map, Ef in Eo. injection Eo as <-. change true with (negb false).
    apply H; auto.
    + eapply nth_error_In; eassumption.
    + exact (Forall2_nth _ _ _ _ _ _ HT Ex Ef).
    + apply HN. eapply nth_error_In; eassumption.
    + eapply compiles_field; eassumption.
Qed.
Lemma overlay_root S m xs : compiles S = true -> struct_type S xs m -> tidy false (GMsg (Some xs)) ->
  overlay true S (zero_struct S) false (GMsg (Some xs)) (One (Msg m)) (GMsg (Some (zero_struct S m))) = GMsg (Some xs).
Proof.
  intros HC HT HN. assert (L : (m < length S)%nat) by (apply ht_msg in HT; apply HT).
  etransitivity; [|apply (overlay_tidy S HC (GMsg (Some xs)) (One (Msg m)) false (GMsg None)); auto].
  - rewrite !overlay_msg. reflexivity.
  - cbn. apply Nat.ltb_lt. exact L.
Qed.

(** ** Byte strings in the calls *)
Lemma calls_bytes S : forall x f vs p, calls S x f = Some vs -> In (VBytes p) vs -> In (VBytes p) (prims x).
Proof.
  assert (AS : forall (l : list (option (list value))) vs v, all_some l = Some vs -> In v vs -> exists ws, In (Some ws) l /\ In v ws).
  { induction l as [|o l IH]; intros vs v E Hv.
    - injection E as <-. destruct Hv.
    - apply all_some_cons in E. destruct E as (a & b & -> & Eb & ->). apply in_app_iff in Hv. destruct Hv as [Hv|Hv].
      + exists a. split; [left; reflexivity|exact Hv].
      + destruct (IH _ _ Eb Hv) as (ws & H1 & H2). exists ws. split; [right; exact H1|exact H2]. }
  induction x using gval_ind'; intros f vs p E HI.
  - destruct f as [[k|m]|t|k t]; try discriminate E. cbn [calls] in E. unfold enc_call in E.
    destruct (go_encodeLUT k); [|discriminate]. destruct (assoc s go_encoder_methods); [|discriminate].
    destruct (request_eq_dec r (want v)); [|discriminate]. injection E as <-. exact HI.
  - destruct f as [[k|m]|t|k t]; try discriminate E. cbn [calls] in E.
    destruct (match t with Scalar k => _ | Msg _ => _ end); [|discriminate].
    destruct (AS _ _ _ E HI) as (ws & [H1|H1] & H2).
    + injection H1 as <-. destruct H2 as [H2|[]]; discriminate.
    + apply in_map_iff in H1. destruct H1 as (x & Ex & Hx). rewrite Forall_forall in H.
      cbn [prims]. apply in_flat_map. exists x. split; [exact Hx|]. eapply H; eassumption.
  - destruct f as [[k|m]|t|k t]; try discriminate E. cbn [calls] in E.
    destruct (kind_number (go_GetKind k)), (kind_number (go_GetKind (tkind t))); try discriminate.
    injection E as <-. destruct HI as [HI|[]]; discriminate.
  - destruct f as [[k|m]|t|k t]; try discriminate E. cbn [calls] in E.
    destruct (kind_number (go_GetKind k)), (kind_number (go_GetKind (tkind t))); try discriminate.
    destruct (AS _ _ _ E HI) as (ws & [H1|H1] & H2).
    + injection H1 as <-. destruct H2 as [H2|[]]; discriminate.
    + apply in_map_iff in H1. destruct H1 as ([k0 x] & Ex & Hx). rewrite Forall_forall in H.
      cbn [prims]. apply in_flat_map. exists (k0, x). split; [exact Hx|]. cbn [fst snd].
      destruct (enc_call k k0) as [k1|] eqn:E1; [|discriminate]. destruct (calls S x (One t)) as [vx|] eqn:E2; [|discriminate].
      injection Ex as <-. destruct H2 as [H2|H2].
      * left. unfold enc_call in E1. destruct (go_encodeLUT k); [|discriminate]. destruct (assoc s go_encoder_methods); [|discriminate].
        destruct (request_eq_dec r (want k0)); [|discriminate]. injection E1 as <-. exact H2.
      * right. eapply (H _ Hx); eassumption.
  - destruct f as [[k|m]|t|k t]; try discriminate E. injection E as <-. destruct HI as [HI|[]]; discriminate.
  - destruct f as [[k|m]|t|k t]; try discriminate E.
    destruct (Nat.lt_ge_cases m (length S)) as [L|L].
    2: { cbn [calls] in E. apply nth_error_None in L. rewrite L in E. discriminate. }
    rewrite calls_msg in E by exact L. destruct (getFields go_encodeLUT (fields_of S m) 0) as [[[a b] c]|]; [|discriminate].
    destruct (AS _ _ _ E HI) as (ws & H1 & H2). apply in_map_iff in H1. destruct H1 as (i & Ei & _).
    destruct (nth_error (zw (calls S) xs (fields_of S m)) i) as [o|] eqn:En.
    2: { apply nth_error_None in En. rewrite nth_overflow in Ei by exact En. discriminate. }
    rewrite (nth_error_nth _ _ _ En) in Ei. subst o. rewrite nth_error_zw in En.
    destruct (nth_error xs i) as [x|] eqn:Ex; [|discriminate]. destruct (nth_error (fields_of S m) i) as [f|]; [|discriminate].
    injection En as En. cbn [prims]. apply in_flat_map. exists x. split; [eapply nth_error_In; exact Ex|].
    rewrite Forall_forall in H. eapply H; [eapply nth_error_In; exact Ex|exact En|exact H2].
Qed.
Lemma calls_small S x f vs : calls S x f = Some vs -> small_bytes (prims x) -> small_bytes vs.
Proof. intros E H p Hp. apply H. eapply calls_bytes; eassumption. Qed.
