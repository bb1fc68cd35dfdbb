(** Proofs for C87. *)
From Verif Require Import Base Spec SpecProofs GoSpec GoThms2 GoThms3 AliasModel AliasSpec.
From Verif Require V1Model V2Model.

(** ** Cells *)
Definition cell (h : heap) (a : nat) (i : Z) : option Z := nth_error (array h a) (Z.to_nat i).
Lemma ne_ext {A} (l l' : list A) : (forall k, nth_error l k = nth_error l' k) -> l = l'.
Proof.
  revert l'. induction l as [|x l IH]; intros [|y l'] H; [reflexivity|specialize (H 0%nat); discriminate H|specialize (H 0%nat); discriminate H|].
  pose proof (H 0%nat) as H0. cbn in H0. injection H0 as ->. f_equal. apply IH. intros k. exact (H (S k)).
Qed.
Lemma ne_firstn {A} (l : list A) n k : nth_error (firstn n l) k = if (k <? n)%nat then nth_error l k else None.
Proof.
  revert l k. induction n as [|n IH]; intros l k; [cbn; destruct k; reflexivity|].
  destruct l as [|x l]; [cbn [firstn]; destruct (k <? S n)%nat; destruct k; reflexivity|].
  destruct k as [|k]; [reflexivity|]. cbn [firstn nth_error]. rewrite IH. reflexivity.
Qed.
Lemma ne_skipn {A} (l : list A) n k : nth_error (skipn n l) k = nth_error l (n + k).
Proof. revert l. induction n as [|n IH]; intros l; [reflexivity|]. destruct l as [|x l]; [destruct k; reflexivity|]. apply IH. Qed.
Lemma ne_content h s k : 0 <= lo s -> nth_error (content h s) k =
  if (k <? Z.to_nat (slen s))%nat then cell h (sarr s) (lo s + Z.of_nat k) else None.
Proof.
  intros H. unfold content, ztake, zdrop, cell. rewrite ne_firstn, ne_skipn. destruct (Nat.ltb_spec k (Z.to_nat (slen s))); [|reflexivity].
  f_equal. lia.
Qed.
Lemma content_same h h' s : 0 <= lo s -> (forall i, lo s <= i < lo s + slen s -> cell h' (sarr s) i = cell h (sarr s) i) ->
  content h' s = content h s.
Proof.
  intros H E. apply ne_ext. intros k. rewrite !ne_content by exact H.
  destruct (Nat.ltb_spec k (Z.to_nat (slen s))); [|reflexivity]. apply E. lia.
Qed.
Lemma content_len h s : sound h s -> zlen (content h s) = slen s.
Proof.
  intros (_ & H1 & H2 & H3). unfold content. apply zlen_ztake. rewrite zlen_zdrop by lia. lia.
Qed.
Lemma content_from h s k : 0 <= lo s -> 0 <= k <= slen s -> content h (from s k) = zdrop k (content h s).
Proof.
  intros H1 H2. apply ne_ext. intros n. rewrite ne_content by (cbn [from lo]; lia). unfold zdrop. rewrite ne_skipn, ne_content by exact H1.
  unfold from; cbn [sarr lo slen]. destruct (Nat.ltb_spec n (Z.to_nat (slen s - k))); destruct (Nat.ltb_spec (Z.to_nat k + n) (Z.to_nat (slen s))); try lia; [|reflexivity].
  f_equal. lia.
Qed.

(** ** Writing *)
Lemma put_length h a i p : length (put h a i p) = length h.
Proof. revert a. induction h as [|m h IH]; intros [|a]; cbn; auto. Qed.
Lemma put_same h a i p : (a < length h)%nat -> array (put h a i p) a = splice (array h a) i p.
Proof. unfold array. revert a. induction h as [|m h IH]; intros [|a] H; cbn in *; try lia; [reflexivity|]. apply IH. lia. Qed.
Lemma put_other h a a' i p : a <> a' -> array (put h a i p) a' = array h a'.
Proof.
  unfold array. revert a a'. induction h as [|m h IH]; intros [|a] [|a'] H; cbn; try reflexivity; try congruence. apply IH. congruence.
Qed.
Lemma splice_out (m : bytes) i p k : 0 <= i -> i + zlen p <= zlen m -> 0 <= k -> (k < i \/ i + zlen p <= k) ->
  nth_error (splice m i p) (Z.to_nat k) = nth_error m (Z.to_nat k).
Proof.
  intros H1 H2 H3 H4. unfold splice, ztake, zdrop, zlen in *. destruct H4 as [H4|H4].
  - rewrite nth_error_app1 by (rewrite firstn_length; lia). rewrite ne_firstn. destruct (Nat.ltb_spec (Z.to_nat k) (Z.to_nat i)); [reflexivity|lia].
  - rewrite nth_error_app2 by (rewrite firstn_length; lia). rewrite nth_error_app2 by (rewrite firstn_length; lia).
    rewrite ne_skipn. rewrite firstn_length. f_equal. lia.
Qed.
Lemma splice_in (m p : bytes) i n : 0 <= i -> i + zlen p <= zlen m -> n = zlen p -> ztake n (zdrop i (splice m i p)) = p.
Proof.
  intros H1 H2 ->. unfold splice, ztake, zdrop, zlen in *. rewrite skipn_app. rewrite firstn_length.
  rewrite (skipn_all2 (firstn _ _)) by (rewrite firstn_length; lia). cbn [app].
  replace (Z.to_nat i - Nat.min (Z.to_nat i) (length m))%nat with 0%nat by lia. cbn [skipn].
  rewrite firstn_app. rewrite firstn_all2 by lia. replace (_ - length p)%nat with 0%nat by lia. cbn [firstn]. apply app_nil_r.
Qed.
Lemma put_zlen h a i p a' : 0 <= i -> i + zlen p <= zlen (array h a) -> (a < length h)%nat ->
  zlen (array (put h a i p) a') = zlen (array h a').
Proof.
  intros H1 H2 H3. destruct (Nat.eq_dec a a') as [<-|N]; [|rewrite put_other by exact N; reflexivity].
  rewrite put_same by exact H3. apply zlen_splice; assumption.
Qed.
Lemma put_cell h a i p a' k : 0 <= i -> i + zlen p <= zlen (array h a) -> (a < length h)%nat -> 0 <= k ->
  ~ (a = a' /\ i <= k < i + zlen p) -> cell (put h a i p) a' k = cell h a' k.
Proof.
  intros H1 H2 H3 H4 H5. unfold cell. destruct (Nat.eq_dec a a') as [<-|N]; [|rewrite put_other by exact N; reflexivity].
  rewrite put_same by exact H3. apply splice_out; try assumption. lia.
Qed.
Lemma ext_array (h e : heap) a : (a < length h)%nat -> array (h ++ e) a = array h a.
Proof. intros H. unfold array. apply app_nth1. exact H. Qed.

(** ** One call *)
(** what a successful call does to memory; [dst] is the destination *)
Definition effect (dst : option slice) (h h' : heap) (x : hval) : Prop :=
  (length h <= length h')%nat /\
  (forall a, (a < length h)%nat -> zlen (array h' a) = zlen (array h a)) /\
  (forall a i, (a < length h)%nat -> 0 <= i -> (forall s, dst = Some s -> ~ owns s a i) -> cell h' a i = cell h a i) /\
  (forall t, x = HSlice (Some t) -> sound h' t /\
     ((length h <= sarr t)%nat \/ exists s, dst = Some s /\ sarr t = sarr s /\ lo t = lo s /\ scap t = scap s)).
Definition dst_of (c : hcall) : option slice := match c with CBytes s => s | _ => None end.
Definition step_ok (dec : option bytes -> request -> bytes -> outcome) (step : heap -> slice -> hcall -> hres)
  (h : heap) (d : slice) (c : hcall) : Prop :=
  match dec (match dst_of c with Some s => Some (content h s) | None => None end) (req c) (content h d) with
  | Crash => step h d c = HCrash
  | Fail r e => step h d c = HFail h (from d (slen d - zlen r)) e
  | Done r v => exists h' x, step h d c = HDone h' (from d (slen d - zlen r)) x /\ final h' x = v /\ effect (dst_of c) h h' x
  end.
Lemma effect_none dst h x : (forall t, x <> HSlice (Some t)) -> effect dst h h x.
Proof. intros H. split; [lia|]. split; [reflexivity|]. split; [reflexivity|]. intros t E. destruct (H t E). Qed.
Lemma effect_fresh dst h p q : effect dst h (h ++ [p ++ q]) (HSlice (Some (mkslice (length h) 0 (zlen p) (zlen p + zlen q)))).
Proof.
  split; [rewrite app_length; lia|]. split; [intros a H; rewrite ext_array by exact H; reflexivity|].
  split; [intros a i H _ _; unfold cell; rewrite ext_array by exact H; reflexivity|].
  intros t E. injection E as <-. split; [|left; cbn [sarr]; lia]. pose proof (zlen_nonneg p). pose proof (zlen_nonneg q).
  unfold sound; cbn [sarr lo slen scap]. rewrite app_length; cbn [length]. split; [lia|]. split; [lia|]. split; [lia|].
  unfold array. rewrite nth_middle. rewrite zlen_app. lia.
Qed.
Lemma fresh_final h p q : ocontent (h ++ [p ++ q]) (Some (mkslice (length h) 0 (zlen p) (zlen p + zlen q))) = p.
Proof.
  cbn [ocontent]. unfold content, array; cbn [sarr lo slen]. rewrite nth_middle. unfold zdrop; cbn [Z.to_nat skipn]. apply ztake_app_exact.
Qed.
Lemma effect_put h s p n : sound h s -> zlen p <= scap s -> 0 <= n <= scap s ->
  effect (Some s) h (put h (sarr s) (lo s) p) (HSlice (Some (mkslice (sarr s) (lo s) n (scap s)))).
Proof.
  intros (S1 & S2 & S3 & S4) H Hn. pose proof (zlen_nonneg p). split; [rewrite put_length; lia|].
  split; [intros a _; apply put_zlen; auto; lia|]. split.
  - intros a i _ Hi HN. apply put_cell; auto; [lia|]. intros [Hr1 Hr]. apply (HN s eq_refl). split; [exact Hr1|lia].
  - intros t E. injection E as <-. split; [|right; exists s; repeat split].
    unfold sound; cbn [sarr lo slen scap]. rewrite put_length, put_zlen by (auto; lia). repeat split; lia.
Qed.
Lemma put_final h s p : sound h s -> zlen p <= scap s ->
  content (put h (sarr s) (lo s) p) (mkslice (sarr s) (lo s) (zlen p) (scap s)) = p.
Proof.
  intros (S1 & S2 & S3 & S4) H. unfold content; cbn [sarr lo slen]. rewrite put_same by exact S1. apply splice_in; [lia|lia|reflexivity].
Qed.
Lemma append0_ok sp h dst p : (forall s, dst = Some s -> sound h s) ->
  let (h', v) := append0 sp h dst p in ocontent h' v = p /\ effect dst h h' (HSlice v).
Proof.
  intros Hs. unfold append0. destruct dst as [s|].
  - specialize (Hs s eq_refl). destruct (Z.leb_spec (zlen p) (scap s)).
    + split; [apply put_final; assumption|]. apply effect_put; try assumption. pose proof (zlen_nonneg p). lia.
    + split; [apply fresh_final|apply effect_fresh].
  - destruct (Z.eqb_spec (zlen p) 0) as [E|E].
    + split; [symmetry; apply zlen_0_nil; exact E|]. apply effect_none. discriminate.
    + split; [apply fresh_final|apply effect_fresh].
Qed.

(** v2 on memory and on byte strings *)
Lemma dec2_mem W sp h d ret : decodeBytes2 W sp h d ret =
  match V2Model.decodeBytes W [] (content h d) with
  | Panic => Panic
  | Ok (r, (p, _), None) => let (h, v) := append0 sp h ret p in Ok (mkhb h (zlen r) v None)
  | Ok (r, _, Some e) => Ok (mkhb h (zlen r) None (Some e))
  end.
Proof.
  assert (AT : forall p, fst (V2Model.append_to [] p) = p).
  { intros p. unfold V2Model.append_to. rewrite zlen_nil. destruct (Z.leb_spec (zlen p) 0); [|reflexivity].
    pose proof (zlen_nonneg p). rewrite (zlen_0_nil p) by lia. reflexivity. }
  unfold decodeBytes2, V2Model.decodeBytes. cbv zeta. set (b := content h d).
  destruct (zlen b >? 2); [|reflexivity]. destruct (index b 0) as [b0|]; [|reflexivity]. cbn [bind].
  destruct (b0 =? V2Model.BytesRawKind); [|reflexivity]. destruct (index b 1) as [b1|]; [|reflexivity]. cbn [bind].
  destruct (b1 =? V2Model.Uint32RawKind); [|reflexivity].
  match goal with |- bind ?x _ = match bind ?y _ with _ => _ end => change y with x; destruct x as [[size offset]|] end; [|reflexivity].
  cbn [bind]. destruct (zlen b - offset >? sw W (size - 1)); [|reflexivity].
  destruct (slice_from b (size + offset)) as [r|]; [|reflexivity]. cbn [bind].
  destruct (Base.slice b offset (size + offset)) as [p|]; [|reflexivity]. cbn [bind].
  specialize (AT p). destruct (V2Model.append_to [] p) as [q m]. cbn [fst] in AT. subst q. destruct (append0 sp h ret p); reflexivity.
Qed.
Lemma step2_ok W sp h d c : (forall s, dst_of c = Some s -> sound h s) -> bytes_ok (content h d) -> int_ok W (content h d) ->
  step_ok (fun _ => V2Model.decode W []) (step2 W sp) h d c.
Proof.
  intros Hs Hb Hi. unfold step_ok. destruct c as [dst|q]; cbn [dst_of req step2] in *.
  - rewrite dec2_mem. cbn [V2Model.decode]. destruct (V2Model.decodeBytes W [] (content h d)) as [[[r [p m]] [e|]]|]; [reflexivity| |reflexivity].
    cbn [V2Model.out fst]. pose proof (append0_ok sp h dst p Hs) as A. destruct (append0 sp h dst p) as [h' v]. destruct A as [A1 A2].
    exists h', (HSlice v). split; [reflexivity|]. split; [cbn [final]; rewrite A1; reflexivity|exact A2].
  - unfold of_pure. destruct (V2Model.decode W [] q (content h d)) as [r v|r e|]; [|reflexivity|reflexivity].
    exists h, (HValue v). split; [reflexivity|]. split; [reflexivity|]. apply effect_none. discriminate.
Qed.

(** v1 *)
Lemma step1_ok W sp h d c : (forall s, dst_of c = Some s -> sound h s) -> bytes_ok (content h d) -> int_ok W (content h d) ->
  step_ok (V1Model.decode W) (step1 W sp) h d c.
Proof.
  intros Hs Hb Hi. unfold step_ok. destruct c as [dst|q]; cbn [dst_of req step1] in *.
  2:{ unfold of_pure. destruct (V1Model.decode W None q (content h d)) as [r v|r e|]; [|reflexivity|reflexivity].
    exists h, (HValue v). split; [reflexivity|]. split; [reflexivity|]. apply effect_none. discriminate. }
  cbn [V1Model.decode]. unfold decodeBytes1, V1Model.decodeBytes. cbv zeta. set (b := content h d) in *.
  destruct (zlen b >? 0); [|reflexivity]. destruct (index b 0) as [b0|]; [|reflexivity]. cbn [bind].
  destruct (index V1Model.BytesKind 0) as [k|]; [|reflexivity]. cbn [bind]. destruct (b0 =? k); [|reflexivity].
  destruct (slice_from b 1) as [b1|] eqn:E1; [|reflexivity]. cbn [bind].
  destruct (V1Model.decodeUint32 b1) as [[[b2 size] err]|] eqn:E2; [|reflexivity]. cbn [bind].
  destruct err as [e|]; [reflexivity|].
  destruct (zlen b2 >? sw W (sw W size - 1)); [|reflexivity].
  assert (HL : forall s, dst = Some s -> zlen (content h s) = slen s) by (intros s E; apply content_len; auto).
  destruct dst as [s|].
  - rewrite (HL s eq_refl). specialize (Hs s eq_refl).
    destruct (Z.ltb_spec (slen s) (sw W size)).
    + destruct (slice_to b2 size) as [p|]; [|reflexivity]. cbn [bind]. destruct (slice_from b2 size) as [r|]; [|reflexivity]. cbn [bind].
      pose proof (append0_ok sp h (Some s) p) as A. destruct (append0 sp h (Some s) p) as [h' v]. destruct A as [A1 A2]; [intros s' E; injection E as <-; exact Hs|].
      cbn [V1Model.out V1Model.oget]. exists h', (HSlice v). split; [reflexivity|]. split; [cbn [final]; rewrite A1; reflexivity|exact A2].
    + destruct (slice_to b2 size) as [p|]; [|reflexivity]. cbn [bind]. destruct (slice_from b2 size) as [r|]; [|reflexivity]. cbn [bind].
      cbn [V1Model.out V1Model.oget]. pose proof Hs as (S1 & S2 & S3 & S4). pose proof (zlen_nonneg p).
      set (n := Z.min (slen s) (zlen p)). assert (Ln : zlen (ztake n p) = n) by (apply zlen_ztake; lia).
      exists (put h (sarr s) (lo s) (ztake n p)), (HSlice (Some s)). split; [reflexivity|]. split.
      * cbn [final ocontent]. f_equal.
        apply ne_ext. intros k0. rewrite ne_content by lia.
        destruct (Nat.ltb_spec k0 (Z.to_nat (slen s))) as [Hk|Hk].
        -- unfold cell. rewrite put_same by exact S1. destruct (Z.ltb_spec (Z.of_nat k0) n) as [Hn|Hn].
           ++ rewrite nth_error_app1 by (unfold zlen in Ln; lia). rewrite <- (splice_in (array h (sarr s)) (ztake n p) (lo s) n) at 2; [|lia|lia|lia].
              unfold ztake at 2. rewrite ne_firstn. destruct (Nat.ltb_spec k0 (Z.to_nat n)); [|lia]. unfold zdrop at 1. rewrite ne_skipn. f_equal. lia.
           ++ rewrite nth_error_app2 by (unfold zlen in Ln; lia). rewrite splice_out by lia.
              unfold zdrop. rewrite ne_skipn. rewrite ne_content by lia. unfold zlen in Ln.
              replace (Z.to_nat n + (k0 - length (ztake n p)))%nat with k0 by lia.
              destruct (Nat.ltb_spec k0 (Z.to_nat (slen s))); [reflexivity|lia].
        -- symmetry. apply nth_error_None. rewrite app_length. specialize (HL s eq_refl). unfold zdrop. rewrite skipn_length. unfold zlen in *. lia.
      * pose proof (effect_put h s (ztake n p) (slen s) Hs ltac:(lia) ltac:(lia)) as A. destruct s; exact A.
  - destruct (Z.ltb_spec 0 (sw W size)).
    + destruct (slice_to b2 size) as [p|]; [|reflexivity]. cbn [bind]. destruct (slice_from b2 size) as [r|]; [|reflexivity]. cbn [bind V1Model.out V1Model.oget].
      pose proof (effect_fresh None h p []) as A. pose proof (fresh_final h p []) as B. rewrite app_nil_r in A, B. change (zlen (@nil Z)) with 0 in A, B. rewrite Z.add_0_r in A, B.
      eexists _, (HSlice (Some _)). split; [reflexivity|]. split; [cbn [final]; f_equal; exact B|exact A].
    + destruct (slice_to b2 size) as [p|]; [|reflexivity]. cbn [bind]. destruct (slice_from b2 size) as [r|]; [|reflexivity]. cbn [bind V1Model.out V1Model.oget].
      exists h, (HSlice None). split; [reflexivity|]. split; [reflexivity|]. apply effect_none. discriminate.
Qed.
