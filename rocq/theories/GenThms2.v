(** Layout, round trip and reuse of generated Go messages, through the library's buffers. *)
From Coq Require Import String.
From Verif Require Import Base Spec SpecProofs GoIdeal GoProps GoThms GoThms2 BufSpec GenTables GenModel GenSpec GenLemmas GenFields GenDec GenThms.
From Verif Require V1Model V2Model.

(** ** The bytes *)
Lemma layout_msg S xs m : layout S (GMsg (Some xs)) (One (Msg m)) =
  let l := zw (fun x f => (f, layout S x f)) xs (fields_of S m) in
  group is_scalar l ++ group is_repeated l ++ group is_message l.
Proof.
  cbn [layout]. cbv zeta. assert (E : forall fs, (fix each (xs : list gval) (fs : list field) : list (field * bytes) :=
                  match xs, fs with
                  | x :: xs, f :: fs => (f, layout S x f) :: each xs fs
                  | _, _ => []
                  end) xs fs = zw (fun x f => (f, layout S x f)) xs fs).
  { induction xs as [|x xs IH]; intros [|f fs]; try reflexivity. cbn [zw]. rewrite IH. reflexivity. }
  rewrite E. reflexivity.
Qed.
Lemma announced_call conv arg k : call_compiles conv arg k = true ->
  kind_number (go_GetKind k) = Some (announced (Scalar k)) /\ kind_number (go_kindLUT k) = Some (announced (Scalar k)).
Proof. destruct k; try discriminate; intros _; split; reflexivity. Qed.

Lemma group_sel S p : forall xs fs i pre vs, length xs = length fs -> length pre = i ->
  (forall j x f ws, nth_error xs j = Some x -> nth_error fs j = Some f -> calls S x f = Some ws -> wires ws = layout S x f) ->
  all_some (map (fun j => nth j (pre ++ zw (calls S) xs fs) None) (sel p fs i)) = Some vs ->
  wires vs = group p (zw (fun x f => (f, layout S x f)) xs fs).
Proof.
  induction xs as [|x xs IH]; intros [|f fs] i pre vs L LP H E; try discriminate L.
  - injection E as <-. reflexivity.
  - injection L as L. cbn [sel zw] in *.
    assert (E' : pre ++ calls S x f :: zw (calls S) xs fs = (pre ++ [calls S x f]) ++ zw (calls S) xs fs)
      by (rewrite <- app_assoc; reflexivity).
    assert (LP' : length (pre ++ [calls S x f]) = Datatypes.S i) by (rewrite app_length; cbn; lia).
    assert (H' : forall j x f ws, nth_error xs j = Some x -> nth_error fs j = Some f -> calls S x f = Some ws -> wires ws = layout S x f)
      by (intros j; apply (H (Datatypes.S j))).
    unfold group. cbn [filter fst]. destruct (p f).
    + cbn [map] in E. apply all_some_cons in E. destruct E as (a & b & Ea & Eb & ->).
      rewrite app_nth2 in Ea by lia. rewrite LP, Nat.sub_diag in Ea. cbn [nth] in Ea.
      rewrite wires_app. cbn [map concat snd]. rewrite (H 0%nat x f a eq_refl eq_refl Ea). f_equal.
      rewrite E' in Eb. exact (IH fs _ _ _ L LP' H' Eb).
    + rewrite E' in E. exact (IH fs _ _ _ L LP' H' E).
Qed.
Lemma all_some_flat {A} (g : A -> option (list value)) (h : A -> bytes) l vs :
  (forall a ws, In a l -> g a = Some ws -> wires ws = h a) ->
  all_some (map g l) = Some vs -> wires vs = flat_map h l.
Proof.
  revert vs. induction l as [|a l IH]; intros vs H E.
  - injection E as <-. reflexivity.
  - cbn [map] in E. apply all_some_cons in E. destruct E as (w & ws & Ea & Eb & ->).
    rewrite wires_app. cbn [flat_map]. rewrite (H a w (or_introl eq_refl) Ea). f_equal. apply IH; auto.
    intros b wb Hb. apply H. right; exact Hb.
Qed.
Lemma all_some_app_inv {A} (a b : list (option (list A))) vs : all_some (a ++ b) = Some vs ->
  exists x y, all_some a = Some x /\ all_some b = Some y /\ vs = x ++ y.
Proof.
  rewrite all_some_app. destruct (all_some a), (all_some b); try discriminate. intros H. injection H as <-. eauto.
Qed.
Lemma u32_small n : 0 <= n < 2 ^ 32 -> u32 n = n.
Proof. intros H. unfold u32. apply Z.mod_small. exact H. Qed.

Lemma calls_layout S : compiles S = true -> forall x f vs, sent_type S x f -> field_compiles S f = true ->
  calls S x f = Some vs -> wires vs = layout S x f.
Proof.
  intros HC. induction x using gval_ind'; intros f vs HT FC E.
  - destruct f as [[k|m]|t|k t]; try contradiction HT. cbn [calls] in E.
    rewrite (enc_call_holds _ _ HT) in E. injection E as <-. apply wires_one.
  - destruct f as [[k|m]|t|k t]; try contradiction HT.
    assert (FCt : field_compiles S (One t) = true).
    { destruct t as [k|m]; [|exact FC]. cbn [field_compiles] in *. apply andb_prop in FC. destruct FC as [FC _]. destruct k; try discriminate FC; reflexivity. }
    apply st_many in HT. destruct HT as [HL HT]. rewrite Forall_forall in H, HT.
    assert (K : match t with Msg _ => kind_number (Some "polyglot.AnyKind"%string) | Scalar k => kind_number (go_kindLUT k) end = Some (announced t)).
    { destruct t as [k|m]; [|reflexivity]. cbn [field_compiles] in FC. apply andb_prop in FC. destruct FC as [FC _]. apply (announced_call _ _ _ FC). }
    cbn [calls] in E. rewrite K in E. apply all_some_cons in E. destruct E as (a & b & Ea & Eb & ->). injection Ea as <-.
    rewrite wires_app, wires_one. cbn [layout]. rewrite u32_small by (split; [apply zlen_nonneg|exact HL]). f_equal.
    eapply all_some_flat; [|exact Eb]. intros x ws Hx Ex. apply H; auto.
  - destruct f as [[k|m]|t|k t]; try contradiction HT.
    cbn [field_compiles] in FC. apply andb_prop in FC. destruct FC as [FC FCt]. apply andb_prop in FC. destruct FC as [_ FCk].
    cbn [calls] in E. destruct (announced_call _ _ _ FCk) as [K1 _]. rewrite K1 in E.
    assert (K2 : kind_number (go_GetKind (tkind t)) = Some (announced t)).
    { destruct t as [k2|m]; [|reflexivity]. apply (announced_call _ _ _ FCt). }
    rewrite K2 in E. injection E as <-. rewrite wires_one. reflexivity.
  - destruct f as [[k|m]|t|k t]; try contradiction HT. apply st_map in HT. destruct HT as (HL & HT).
    assert (FCo : field_compiles S (One t) = true).
    { cbn [field_compiles] in FC. apply andb_prop in FC. destruct FC as [_ FC]. destruct t as [k2|m]; [|exact FC]. destruct k2; try discriminate FC; reflexivity. }
    cbn [field_compiles] in FC. apply andb_prop in FC. destruct FC as [FC FCt]. apply andb_prop in FC. destruct FC as [_ FCk].
    cbn [calls] in E. destruct (announced_call _ _ _ FCk) as [K1 _]. rewrite K1 in E.
    assert (K2 : kind_number (go_GetKind (tkind t)) = Some (announced t)).
    { destruct t as [k2|m]; [|reflexivity]. apply (announced_call _ _ _ FCt). }
    rewrite K2 in E. apply all_some_cons in E. destruct E as (a & b & Ea & Eb & ->). injection Ea as <-.
    rewrite wires_app, wires_one. cbn [layout]. rewrite u32_small by (split; [apply zlen_nonneg|exact HL]). f_equal.
    rewrite Forall_forall in H, HT.
    eapply all_some_flat; [|exact Eb]. intros [k0 x] ws Hx Ex. cbn [fst snd].
    destruct (HT _ Hx) as [Hk0 Hx0]. cbn [fst snd] in *. rewrite (enc_call_holds _ _ Hk0) in Ex.
    destruct (calls S x (One t)) as [vx|] eqn:Ev; [|discriminate]. injection Ex as <-.
    change (k0 :: vx) with ([k0] ++ vx). rewrite wires_app, wires_one. f_equal. apply (H _ Hx); auto.
  - destruct f as [[k|m]|t|k t]; try contradiction HT. injection E as <-. reflexivity.
  - destruct f as [[k|m]|t|k t]; try contradiction HT. apply st_msg in HT. destruct HT as [L HT].
    pose proof (Forall2_length _ _ _ HT) as Len. rewrite calls_order in E by assumption. rewrite layout_msg. cbv zeta.
    unfold order in E. rewrite !map_app in E. apply all_some_app_inv in E. destruct E as (va & vb & Ea & Eb & ->).
    apply all_some_app_inv in Eb. destruct Eb as (vc & vd & Ec & Ed & ->). rewrite !wires_app.
    assert (G : forall j x f ws, nth_error xs j = Some x -> nth_error (fields_of S m) j = Some f -> calls S x f = Some ws -> wires ws = layout S x f).
    { intros j x f ws Ex Ef Ew. rewrite Forall_forall in H. apply H; auto.
      - eapply nth_error_In; exact Ex.
      - exact (Forall2_nth _ _ _ _ _ _ HT Ex Ef).
      - eapply compiles_field; eassumption. }
    rewrite (group_sel S p_val xs (fields_of S m) 0 [] va), (group_sel S p_slice xs (fields_of S m) 0 [] vc), (group_sel S p_msg xs (fields_of S m) 0 [] vd); auto.
Qed.

(** ** Through the buffers *)
Lemma sent_calls S m xs : compiles S = true -> sent_struct S xs m ->
  exists vs, calls S (GMsg (Some xs)) (One (Msg m)) = Some vs /\ Forall valid vs /\
    wires vs = layout S (GMsg (Some xs)) (One (Msg m)).
Proof.
  intros HC HT. assert (L : (m < length S)%nat) by (apply st_msg in HT; apply HT).
  assert (FC : field_compiles S (One (Msg m)) = true) by (cbn; apply Nat.ltb_lt; exact L).
  destruct (calls_sent S HC _ _ HT FC) as (vs & E & V). exists vs. split; [exact E|]. split; [exact V|].
  apply (calls_layout S HC _ _ _ HT FC E).
Qed.
Lemma struct_calls S m xs : compiles S = true -> struct_type S xs m ->
  exists vs, calls S (GMsg (Some xs)) (One (Msg m)) = Some vs /\ Forall valid vs /\
    wires vs = layout S (GMsg (Some xs)) (One (Msg m)).
Proof. intros HC HT. apply sent_calls; [exact HC|]. apply ht_st. exact HT. Qed.
Theorem encode1_layout g S b m xs : compiles S = true -> struct_type S xs m -> V1Model.wf b ->
  exists b', Encode1 g S b m (Some xs) = Some (Ok b') /\ V1Model.wf b' /\
    V1Model.Bytes b' = V1Model.Bytes b ++ layout S (GMsg (Some xs)) (One (Msg m)).
Proof.
  intros HC HT WF. destruct (struct_calls S m xs HC HT) as (vs & E & V & <-).
  destruct (enc1 g b vs WF V) as (b' & E' & WF' & B & _). exists b'. unfold Encode1. rewrite E. cbn [option_map].
  rewrite E'. auto.
Qed.
Theorem encode2_layout g S b m xs : compiles S = true -> struct_type S xs m -> V2Model.wf b ->
  small_bytes (prims (GMsg (Some xs))) ->
  exists b' l, V2Model.Bytes b = Ok l /\ Encode2 g S b m (Some xs) = Some (Ok b') /\ V2Model.wf b' /\
    V2Model.Bytes b' = Ok (l ++ layout S (GMsg (Some xs)) (One (Msg m))).
Proof.
  intros HC HT WF SB. destruct (struct_calls S m xs HC HT) as (vs & E & V & <-).
  destruct (enc2 g b vs WF V) as (b' & l & Bl & E' & WF' & B & _).
  { eapply calls_small; eassumption. }
  exists b', l. unfold Encode2. rewrite E. cbn [option_map]. rewrite E'. auto.
Qed.
Theorem encode_nil g1 g2 S b1 b2 m : V1Model.wf b1 -> V2Model.wf b2 ->
  exists b1' b2' l, Encode1 g1 S b1 m None = Some (Ok b1') /\ V1Model.Bytes b1' = V1Model.Bytes b1 ++ [0] /\
    V2Model.Bytes b2 = Ok l /\ Encode2 g2 S b2 m None = Some (Ok b2') /\ V2Model.Bytes b2' = Ok (l ++ [0]).
Proof.
  intros W1 W2. destruct (enc1 g1 b1 [VNil] W1) as (b1' & E1 & _ & B1 & _); [repeat constructor|].
  destruct (enc2 g2 b2 [VNil] W2) as (b2' & l & Bl & E2 & _ & B2 & _); [repeat constructor|intros p [H|[]]; discriminate|].
  exists b1', b2', l. unfold Encode1, Encode2. cbn [calls option_map]. rewrite E1, E2. auto.
Qed.

Theorem decode2_sent W S m xs old r fuel : compiles S = true ->
  sent_struct S xs m -> readable S (GMsg (Some xs)) (One (Msg m)) -> sent_struct S old m ->
  bytes_ok r -> int_ok W (layout S (GMsg (Some xs)) (One (Msg m)) ++ r) ->
  (depth (GMsg (Some xs)) <= fuel)%nat ->
  exists y, Decode2 W S fuel m (Some old) (layout S (GMsg (Some xs)) (One (Msg m)) ++ r) = Some (GDone r y) /\
    GMsg (Some y) = overlay true S (zero_struct S) false (collapse (GMsg (Some xs))) (One (Msg m)) (GMsg (Some old)).
Proof.
  intros HC HT HR HO Hr HW HF. destruct (sent_calls S m xs HC HT) as (vs & E & V & Ly). rewrite <- Ly in *.
  destruct (v2_exact W S m xs old vs r fuel HC HT HR HO E Hr HW HF) as (y & Ey & Hy).
  exists y. split; [|exact Hy]. unfold Decode2. cbn [option_map]. f_equal. exact Ey.
Qed.
Theorem decode1_sent W S K m xs old r fuel : compiles S = true -> new_ok S K ->
  sent_struct S xs m -> readable S (GMsg (Some xs)) (One (Msg m)) -> sent_struct S old m ->
  bytes_ok r -> int_ok W (layout S (GMsg (Some xs)) (One (Msg m)) ++ r) ->
  (depth (GMsg (Some xs)) + K <= fuel)%nat ->
  exists y, Decode1 W S fuel m (Some old) (layout S (GMsg (Some xs)) (One (Msg m)) ++ r) = Some (GDone r y) /\
    GMsg (Some y) = overlay false S (blank1 S K) false (collapse (GMsg (Some xs))) (One (Msg m)) (GMsg (Some old)).
Proof.
  intros HC HN HT HR HO Hr HW HF. destruct (sent_calls S m xs HC HT) as (vs & E & V & Ly). rewrite <- Ly in *.
  destruct (v1_exact W S K m xs old vs r fuel HC HN HT HR HO E Hr HW HF) as (y & Ey & Hy).
  exists y. split; [|exact Hy]. unfold Decode1. cbn [option_map]. f_equal. exact Ey.
Qed.

Theorem decode2_exact W S m xs old r fuel : compiles S = true ->
  struct_type S xs m -> readable S (GMsg (Some xs)) (One (Msg m)) -> struct_type S old m ->
  bytes_ok r -> int_ok W (layout S (GMsg (Some xs)) (One (Msg m)) ++ r) ->
  (depth (GMsg (Some xs)) <= fuel)%nat ->
  exists y, Decode2 W S fuel m (Some old) (layout S (GMsg (Some xs)) (One (Msg m)) ++ r) = Some (GDone r y) /\
    GMsg (Some y) = overlay true S (zero_struct S) false (GMsg (Some xs)) (One (Msg m)) (GMsg (Some old)).
Proof.
  intros HC HT HR HO Hr HW HF.
  destruct (decode2_sent W S m xs old r fuel HC (ht_st _ _ _ HT) HR (ht_st _ _ _ HO) Hr HW HF) as (y & Ey & Hy).
  rewrite (collapse_id S _ _ HT) in Hy. exists y. auto.
Qed.
Theorem decode1_exact W S K m xs old r fuel : compiles S = true -> new_ok S K ->
  struct_type S xs m -> readable S (GMsg (Some xs)) (One (Msg m)) -> struct_type S old m ->
  bytes_ok r -> int_ok W (layout S (GMsg (Some xs)) (One (Msg m)) ++ r) ->
  (depth (GMsg (Some xs)) + K <= fuel)%nat ->
  exists y, Decode1 W S fuel m (Some old) (layout S (GMsg (Some xs)) (One (Msg m)) ++ r) = Some (GDone r y) /\
    GMsg (Some y) = overlay false S (blank1 S K) false (GMsg (Some xs)) (One (Msg m)) (GMsg (Some old)).
Proof.
  intros HC HN HT HR HO Hr HW HF.
  destruct (decode1_sent W S K m xs old r fuel HC HN (ht_st _ _ _ HT) HR (ht_st _ _ _ HO) Hr HW HF) as (y & Ey & Hy).
  rewrite (collapse_id S _ _ HT) in Hy. exists y. auto.
Qed.

Theorem decode2_fresh W S m xs r fuel : compiles S = true ->
  struct_type S xs m -> readable S (GMsg (Some xs)) (One (Msg m)) -> tidy false (GMsg (Some xs)) ->
  bytes_ok r -> int_ok W (layout S (GMsg (Some xs)) (One (Msg m)) ++ r) ->
  (depth (GMsg (Some xs)) <= fuel)%nat ->
  exists s, New true S fuel m = GDone [] s /\
    Decode2 W S fuel m (Some s) (layout S (GMsg (Some xs)) (One (Msg m)) ++ r) = Some (GDone r xs).
Proof.
  intros HC HT HR HTi Hr HW HF. assert (L : (m < length S)%nat) by (apply ht_msg in HT; apply HT).
  exists (zero_struct S m). split; [apply New_v2; exact L|].
  destruct (decode2_exact W S m xs (zero_struct S m) r fuel HC HT HR) as (y & Ey & Hy); auto.
  { apply zero_struct_type; assumption. }
  rewrite overlay_root in Hy by assumption. injection Hy as ->. exact Ey.
Qed.
Theorem decode2_reuse W S m xs old r fuel : compiles S = true ->
  struct_type S xs m -> readable S (GMsg (Some xs)) (One (Msg m)) -> no_nil (GMsg (Some xs)) -> struct_type S old m ->
  bytes_ok r -> int_ok W (layout S (GMsg (Some xs)) (One (Msg m)) ++ r) ->
  (depth (GMsg (Some xs)) <= fuel)%nat ->
  Decode2 W S fuel m (Some old) (layout S (GMsg (Some xs)) (One (Msg m)) ++ r) = Some (GDone r xs).
Proof.
  intros HC HT HR HN HO Hr HW HF. assert (L : (m < length S)%nat) by (apply ht_msg in HT; apply HT).
  destruct (decode2_exact W S m xs old r fuel HC HT HR HO Hr HW HF) as (y & Ey & Hy).
  rewrite overlay_no_nil in Hy; auto.
  - injection Hy as ->. exact Ey.
  - intros k Hk. unfold zero_struct. apply map_length.
  - intros k Hk. apply zero_struct_type; assumption.
  - cbn. apply Nat.ltb_lt. exact L.
Qed.
Theorem decode1_reuse W S K m xs old r fuel : compiles S = true -> new_ok S K ->
  struct_type S xs m -> readable S (GMsg (Some xs)) (One (Msg m)) -> no_nil (GMsg (Some xs)) -> struct_type S old m ->
  bytes_ok r -> int_ok W (layout S (GMsg (Some xs)) (One (Msg m)) ++ r) ->
  (depth (GMsg (Some xs)) + K <= fuel)%nat ->
  Decode1 W S fuel m (Some old) (layout S (GMsg (Some xs)) (One (Msg m)) ++ r) = Some (GDone r xs).
Proof.
  intros HC HN1 HT HR HN HO Hr HW HF. assert (L : (m < length S)%nat) by (apply ht_msg in HT; apply HT).
  destruct (decode1_exact W S K m xs old r fuel HC HN1 HT HR HO Hr HW HF) as (y & Ey & Hy).
  assert (BT : forall k, (k < length S)%nat -> struct_type S (blank1 S K k) k).
  { intros k Hk. destruct (HN1 k Hk) as (q & s & Es). unfold blank1. rewrite Es. apply (New_v1_ok S HC _ _ _ _ Es). }
  rewrite overlay_no_nil in Hy; auto.
  - injection Hy as ->. exact Ey.
  - intros k Hk. specialize (BT k Hk). apply ht_msg in BT. destruct BT as [_ BT]. exact (Forall2_length _ _ _ BT).
  - cbn. apply Nat.ltb_lt. exact L.
Qed.

(** ** Repeated keys *)
Lemma collapse_type S x : forall f, sent_type S x f -> has_type S (collapse x) f.
Proof.
  induction x using gval_ind'; intros f HT; destruct f as [[k|m]|t|k t]; try contradiction HT; cbn [collapse]; try exact HT.
  - apply st_many in HT. destruct HT as [L HT]. apply ht_many. split; [unfold zlen in *; rewrite map_length; exact L|].
    apply Forall_forall. intros y Hy. apply in_map_iff in Hy. destruct Hy as (x & <- & Hx). rewrite Forall_forall in *. auto.
  - apply st_map in HT. destruct HT as [L HT]. apply ht_map. rewrite last_wins_map.
    assert (LE : (length (last_wins l) <= length l)%nat).
    { clear. induction l as [|[k v] l IH]; cbn [last_wins length]; [lia|].
      assert (G : forall (p : value * gval -> bool) q, (length (filter p q) <= length q)%nat).
      { intros p q. induction q as [|e q IHq]; cbn [filter length]; [lia|]. destruct (p e); cbn [length]; lia. }
      specialize (G (fun e => if value_eq_dec k (fst e) then false else true) (last_wins l)). lia. }
    split; [unfold zlen in *; rewrite map_length; lia|]. split.
    + rewrite map_map. cbn [fst]. apply last_wins_nodup.
    + apply Forall_forall. intros y Hy. apply in_map_iff in Hy. destruct Hy as ([a b] & <- & Hx). cbn [fst snd].
      apply last_wins_in in Hx. destruct Hx as (pre & post & E & _).
      assert (Hx : In (a, b) l) by (rewrite E; apply in_app_iff; right; left; reflexivity).
      rewrite Forall_forall in *. destruct (HT _ Hx) as [H1 H2]. split; [exact H1|]. apply (H _ Hx). exact H2.
  - apply st_msg in HT. destruct HT as [L HT]. apply ht_msg. split; [exact L|]. clear L.
    revert HT. generalize (fields_of S m) as fs. intros fs HT. induction HT as [|x f xs fs Hx HT IH]; cbn [map]; constructor; inversion H; subst; auto.
Qed.
Lemma collapse_no_nil x : no_nil x -> no_nil (collapse x).
Proof.
  induction x using gval_ind'; intros HN; cbn [collapse]; try exact HN.
  - apply nn_list in HN. apply nn_list. apply Forall_forall. intros y Hy. apply in_map_iff in Hy. destruct Hy as (x & <- & Hx). rewrite Forall_forall in *. auto.
  - apply nn_map in HN. apply nn_map. rewrite last_wins_map. apply Forall_forall. intros y Hy. apply in_map_iff in Hy. destruct Hy as ([a b] & <- & Hx). cbn [fst snd].
    apply last_wins_in in Hx. destruct Hx as (pre & post & E & _).
    assert (Hx : In (a, b) l) by (rewrite E; apply in_app_iff; right; left; reflexivity).
    rewrite Forall_forall in *. apply (H _ Hx). apply (HN _ Hx).
  - apply nn_msg in HN. apply nn_msg. apply Forall_forall. intros y Hy. apply in_map_iff in Hy. destruct Hy as (x & <- & Hx). rewrite Forall_forall in *. auto.
Qed.
Theorem decode2_last W S m xs old r fuel : compiles S = true ->
  sent_struct S xs m -> readable S (GMsg (Some xs)) (One (Msg m)) -> no_nil (GMsg (Some xs)) -> struct_type S old m ->
  bytes_ok r -> int_ok W (layout S (GMsg (Some xs)) (One (Msg m)) ++ r) ->
  (depth (GMsg (Some xs)) <= fuel)%nat ->
  Decode2 W S fuel m (Some old) (layout S (GMsg (Some xs)) (One (Msg m)) ++ r) = Some (GDone r (map collapse xs)).
Proof.
  intros HC HT HR HN HO Hr HW HF. assert (L : (m < length S)%nat) by (apply st_msg in HT; apply HT).
  destruct (decode2_sent W S m xs old r fuel HC HT HR (ht_st _ _ _ HO) Hr HW HF) as (y & Ey & Hy).
  rewrite overlay_no_nil in Hy; auto.
  - injection Hy as ->. exact Ey.
  - intros k Hk. unfold zero_struct. apply map_length.
  - intros k Hk. apply zero_struct_type; assumption.
  - apply collapse_type. exact HT.
  - apply collapse_no_nil. exact HN.
  - cbn. apply Nat.ltb_lt. exact L.
Qed.
Theorem decode1_last W S K m xs old r fuel : compiles S = true -> new_ok S K ->
  sent_struct S xs m -> readable S (GMsg (Some xs)) (One (Msg m)) -> no_nil (GMsg (Some xs)) -> struct_type S old m ->
  bytes_ok r -> int_ok W (layout S (GMsg (Some xs)) (One (Msg m)) ++ r) ->
  (depth (GMsg (Some xs)) + K <= fuel)%nat ->
  Decode1 W S fuel m (Some old) (layout S (GMsg (Some xs)) (One (Msg m)) ++ r) = Some (GDone r (map collapse xs)).
Proof.
  intros HC HN1 HT HR HN HO Hr HW HF. assert (L : (m < length S)%nat) by (apply st_msg in HT; apply HT).
  destruct (decode1_sent W S K m xs old r fuel HC HN1 HT HR (ht_st _ _ _ HO) Hr HW HF) as (y & Ey & Hy).
  assert (BT : forall k, (k < length S)%nat -> struct_type S (blank1 S K k) k).
  { intros k Hk. destruct (HN1 k Hk) as (q & s & Es). unfold blank1. rewrite Es. apply (New_v1_ok S HC _ _ _ _ Es). }
  rewrite overlay_no_nil in Hy; auto.
  - injection Hy as ->. exact Ey.
  - intros k Hk. specialize (BT k Hk). apply ht_msg in BT. destruct BT as [_ BT]. exact (Forall2_length _ _ _ BT).
  - apply collapse_type. exact HT.
  - apply collapse_no_nil. exact HN.
  - cbn. apply Nat.ltb_lt. exact L.
Qed.

(** ** A condition on the schema alone *)
Theorem plain_readable S : (forall m fs, nth_error S m = Some fs -> existsb plain_field fs = true) ->
  forall x f, has_type S x f -> readable S x f.
Proof.
  intros HP. induction x using gval_ind'; intros f HT.
  - destruct f as [[k|m]|t|k t]; try contradiction HT. exact I.
  - destruct f as [[k|m]|t|k t]; try contradiction HT. apply ht_many in HT. destruct HT as [_ HT].
    apply ev_many. rewrite Forall_forall in *. intros x Hx. apply (H x Hx). apply HT; exact Hx.
  - destruct f as [[k|m]|t|k t]; try contradiction HT. exact I.
  - destruct f as [[k|m]|t|k t]; try contradiction HT. apply ht_map in HT. destruct HT as (_ & _ & HT).
    apply ev_map. rewrite Forall_forall in *. intros e He. apply (H e He). apply (HT e He).
  - destruct f as [[k|m]|t|k t]; try contradiction HT. exact I.
  - destruct f as [[k|m]|t|k t]; try contradiction HT. apply ht_msg in HT. destruct HT as [L HT].
    apply ev_msg; [exact (Forall2_length _ _ _ HT)|]. split.
    + left. apply (HP m). apply fields_nth. exact L.
    + clear L. revert HT. generalize (fields_of S m) as fs. intros fs HT. induction HT as [|x f xs fs Hx HT IH]; constructor; inversion H; subst; auto.
      apply H2. exact Hx.
Qed.

(** ** Injectivity *)
Lemma wire_bytes_ok vs : Forall valid vs -> bytes_ok (wires vs).
Proof. apply wires_ok. Qed.
Theorem layout_inj S m xs ys r r' : compiles S = true -> struct_type S xs m -> struct_type S ys m ->
  readable S (GMsg (Some xs)) (One (Msg m)) -> readable S (GMsg (Some ys)) (One (Msg m)) ->
  tidy false (GMsg (Some xs)) -> tidy false (GMsg (Some ys)) -> bytes_ok r -> bytes_ok r' ->
  zlen (layout S (GMsg (Some xs)) (One (Msg m)) ++ r) < 2 ^ 63 ->
  layout S (GMsg (Some xs)) (One (Msg m)) ++ r = layout S (GMsg (Some ys)) (One (Msg m)) ++ r' -> xs = ys /\ r = r'.
Proof.
  intros HC Hx Hy Rx Ry Tx Ty Hr Hr' HL E.
  assert (I : int_ok 64 (layout S (GMsg (Some xs)) (One (Msg m)) ++ r)) by (split; [left; reflexivity|exact HL]).
  set (fuel := (depth (GMsg (Some xs)) + depth (GMsg (Some ys)))%nat).
  destruct (decode2_fresh 64 S m xs r fuel) as (s & Es & Ds); auto; [unfold fuel; lia|].
  destruct (decode2_fresh 64 S m ys r' fuel) as (s' & Es' & Ds'); auto; [rewrite <- E; exact I|unfold fuel; lia|].
  rewrite E in Ds. rewrite Es in Es'. injection Es' as <-. rewrite Ds in Ds'. injection Ds' as <- <-. auto.
Qed.
