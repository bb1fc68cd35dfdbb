(** Invariant of GenTrace.t_decode: types after an error, makes against input. *)
From Coq Require Import String.
From Verif Require Import Base Spec SpecProofs GoSpec GoIdeal GoProps GoThms GoThms2 GoThms3 BufSpec GenTables GenModel GenSpec GenLemmas GenFields GenDec GenThms GenThms2 GenThms3 GenTerm GenTerm2 GenTerm3 GenTerm4 GenTrace TraceSpec GenTraceThms.
From Verif Require V1Model V2Model.

Lemma total_app l l' : total (l ++ l') = total l + total l'.
Proof. induction l as [|m l IH]; [reflexivity|]. cbn [app total fold_right] in *. fold (total (l ++ l')) (total l). lia. Qed.
Definition ok_make (m : make) : Prop := 0 <= asked m < 2 ^ 32.

Section Inv.
Variable v2 : bool.
Variable prim : option bytes -> request -> bytes -> outcome.
Variable S : schema.
Variable W : Z.
Hypothesis HC : compiles S = true.
Hypothesis Hdone : forall dst q b r v, (v2 = false -> dst = None) -> okb W b -> prim dst q b = Done r v ->
  valid v /\ want v = q /\ sfx b r /\ (r = b -> v2 = true /\ q = RBytes).
Hypothesis Hfail : forall b r e, prim None RNil b = Fail r e -> r = b.
Hypothesis Hhead : forall q b r v, okb W b -> prim None q b = Done r v ->
  match q with RSlice _ | RMap _ _ => zlen r + 4 <= zlen b | _ => True end.

Definition gain (b : bytes) (l : list make) (r : bytes) : Prop :=
  every_element_counts v2 S -> total l + zlen r <= zlen b /\ (r <> b -> total l + zlen r < zlen b).
Definition gainc (c : Z) (b : bytes) (l : list make) (r : bytes) : Prop :=
  every_element_counts v2 S -> c + total l + zlen r <= zlen b.
Definition tf {A} (g : bytes -> list make -> bytes -> Prop) (b : bytes) (P : bytes -> A -> Prop) (Q : A -> Prop) (x : run A) : Prop :=
  Forall ok_make (fst x) /\
  match snd x with
  | TDone r y => P r y /\ sfx b r /\ 4 * zlen (fst x) + zlen r <= zlen b /\ g b (fst x) r
  | TErr _ y => Q y /\ 4 * zlen (fst x) <= zlen b
  | TPanic | TDeep => 4 * zlen (fst x) <= zlen b
  | TBroken => False
  end.
Lemma tf_bind {A B} (g g' g'' : bytes -> list make -> bytes -> Prop) b (P : bytes -> A -> Prop) Q (P' : bytes -> B -> Prop) (Q' : B -> Prop) x u k :
  tf g b P Q x -> (forall l l' r r', sfx b r -> sfx r r' -> g b l r -> g' r l' r' -> g'' b (l ++ l') r') ->
  (forall a, Q a -> Q' (u a)) -> (forall r a, P r a -> sfx b r -> tf g' r P' Q' (k r a)) -> tf g'' b P' Q' (tbind x u k).
Proof.
  intros [H1 H2] Hg HQ Hk. destruct x as [l [r a|e a| | |]]; cbn [fst snd tbind] in *; try (split; [exact H1|cbn; auto; fail]).
  - destruct H2 as (HP & HS & HL & HG). specialize (Hk r a HP HS). destruct (k r a) as [l' y] eqn:Ek. destruct Hk as [K1 K2]. cbn [fst snd] in *.
    split; [cbn [fst]; apply Forall_app; auto|]. cbn [fst snd]. destruct HS as [c ->]. pose proof (zlen_nonneg r).
    rewrite ?zlen_app in *.
    destruct y as [r' y|e y| | |]; try lia; auto.
    + destruct K2 as (K2 & K3 & K4 & K5). split; [exact K2|]. split; [destruct K3 as [d ->]; exists (c ++ d); apply app_assoc|]. split; [lia|].
      eapply Hg; [exists c; reflexivity|exact K3|exact HG|exact K5].
    + destruct K2 as [K2 K3]. split; [exact K2|lia].
  - destruct H2 as [H2 H3]. split; [exact H1|]. split; [apply HQ; exact H2|exact H3].
Qed.
Lemma tf_plain {A B} g b (P : bytes -> A -> Prop) (P' : bytes -> B -> Prop) (Q' : B -> Prop) (x : gres A) old k :
  fine P x -> Q' old -> (forall r a, P r a -> tf g b P' Q' (k r a)) -> tf g b P' Q' (plain x old k).
Proof.
  intros H HQ Hk. pose proof (zlen_nonneg b). destruct x as [r a|e| | |]; cbn [plain fine] in *; [apply Hk; exact H| | | |contradiction H];
    (split; [constructor|]); cbn; auto.
Qed.
Lemma tf_imp {A} (g g' : bytes -> list make -> bytes -> Prop) b (P P' : bytes -> A -> Prop) (Q Q' : A -> Prop) x :
  tf g b P Q x -> (forall l r, sfx b r -> g b l r -> g' b l r) -> (forall r y, P r y -> sfx b r -> P' r y) -> (forall y, Q y -> Q' y) -> tf g' b P' Q' x.
Proof.
  intros [H1 H2] HG HP HQ. split; [exact H1|]. destruct (snd x); auto.
  - destruct H2 as (A1 & A2 & A3 & A4). auto.
  - destruct H2. auto.
Qed.
Lemma tf_done {A} (g : bytes -> list make -> bytes -> Prop) b (P : bytes -> A -> Prop) (Q : A -> Prop) r y :
  P r y -> sfx b r -> g b [] r -> tf g b P Q (ret (TDone r y)).
Proof. intros H1 H2 H3. split; [constructor|]. cbn. split; [exact H1|]. split; [exact H2|]. split; [|exact H3]. destruct H2 as [c ->]. rewrite zlen_app. pose proof (zlen_nonneg c). lia. Qed.
Lemma tf_err {A} g b (P : bytes -> A -> Prop) (Q : A -> Prop) e y : Q y -> tf g b P Q (ret (TErr e y)).
Proof. intros H. split; [constructor|]. cbn. split; [exact H|apply zlen_nonneg]. Qed.
Lemma tf_panic {A} g b (P : bytes -> A -> Prop) (Q : A -> Prop) : tf g b P Q (ret TPanic).
Proof. split; [constructor|]. apply zlen_nonneg. Qed.
Lemma gain_nil b r : sfx b r -> gain b [] r.
Proof.
  intros [c ->] _. cbn [total fold_right]. rewrite zlen_app. pose proof (zlen_nonneg c). split; [lia|]. intros N.
  destruct c as [|x c]; [exfalso; apply N; reflexivity|]. rewrite zlen_cons in *. pose proof (zlen_nonneg c). lia.
Qed.
Lemma gain_gain b l l' r r' : sfx b r -> sfx r r' -> gain b l r -> gain r l' r' -> gain b (l ++ l') r'.
Proof.
  intros S1 S2 H1 H2 HL. destruct (H1 HL) as [A1 A2]. destruct (H2 HL) as [B1 B2]. rewrite total_app. split; [lia|]. intros N.
  destruct (list_eq_dec Z.eq_dec r b) as [E|E].
  - subst r. specialize (B2 N). lia.
  - specialize (A2 E). lia.
Qed.
Lemma bind0 {A B} b (P : bytes -> A -> Prop) Q (P' : bytes -> B -> Prop) (Q' : B -> Prop) x u k :
  tf gain b P Q x -> (forall a, Q a -> Q' (u a)) -> (forall r a, P r a -> sfx b r -> tf gain r P' Q' (k r a)) -> tf gain b P' Q' (tbind x u k).
Proof. intros H. apply tf_bind with (1 := H). intros; eapply gain_gain; eassumption. Qed.
Lemma tf_nil {A} b (P : bytes -> A -> Prop) Q (yes no : bytes -> run A) : okb W b ->
  (forall r, sfx b r -> r <> b -> tf gain b P Q (yes r)) -> tf gain b P Q (no b) -> tf gain b P Q (t_nil prim b yes no).
Proof.
  intros Hb Y N. unfold t_nil. destruct (prim None RNil b) as [r v|r e|] eqn:E; [| |apply tf_panic].
  - destruct (Hdone _ _ _ _ _ (fun _ => eq_refl) Hb E) as (_ & _ & H3 & H4). apply Y; [exact H3|].
    intros ->. destruct (H4 eq_refl) as [_ C]. discriminate C.
  - rewrite (Hfail _ _ _ E). exact N.
Qed.

Definition rec_tf (rec : nat -> list gval -> bytes -> run (list gval)) : Prop :=
  forall m x b, (m < length S)%nat -> struct_type S x m -> okb W b ->
  tf gain b (fun r y => struct_type S y m /\ (r = b -> vacuous v2 S m)) (fun y => struct_type S y m) (rec m x b).
Definition field_tf (f : field) (b : bytes) : run gval -> Prop :=
  tf gain b (fun r y => has_type S y f /\ (r = b -> no_move v2 S f)) (fun y => has_type S y f).
Lemma other_tf f old b : is_scalar f = true -> field_compiles S f = true -> has_type S old f -> okb W b ->
  field_tf f b (t_other v2 prim f old b).
Proof.
  intros Hf FC HT Hb. eapply tf_plain; [eapply (other_fine v2 prim S W Hdone); eassumption|apply zero_type; exact FC|].
  intros r y (H1 & H2 & H3). apply tf_done; [split; assumption|exact H1|apply gain_nil; exact H1].
Qed.

Section Frame.
Variable fuel : nat.
Variable rec : nat -> list gval -> bytes -> run (list gval).
Hypothesis HR : rec_tf rec.
Lemma msg_tf m s b : (m < length S)%nat -> okb W b -> struct_type S s m ->
  tf gain b (fun r y => has_type S y (One (Msg m)) /\ (r = b -> vacuous v2 S m)) (fun y => has_type S y (One (Msg m))) (t_msg rec m s b).
Proof.
  intros L Hb Hs. unfold t_msg. eapply bind0; [apply HR; assumption|intros a H; exact H|]. intros r a [H1 H2] Sf.
  apply tf_done; [|apply sfx_refl|apply gain_nil, sfx_refl]. split; assumption.
Qed.
Lemma elem_fresh t (b r : bytes) : (exists fs, In fs S /\ In (Many t) fs) -> every_element_counts v2 S -> (match t with Msg m => r = b -> vacuous v2 S m | Scalar k => r = b -> v2 = true /\ k = KBytes end) -> r <> b.
Proof.
  intros (fs & I1 & I2) [E1 E2] H E. destruct t as [k|m].
  - destruct (H E) as [E3 ->]. exact (E2 E3 fs I1 I2).
  - exact (E1 m (H E)).
Qed.
Lemma elems_tf t : (exists fs, In fs S /\ In (Many t) fs) -> field_compiles S (One t) = true ->
  (forall k, t = Scalar k -> exists c a, call_compiles c a k = true) ->
  forall xs b, okb W b -> Forall (fun x => has_type S x (One t)) xs ->
  tf (gainc (zlen xs)) b (fun r ys => Forall (fun x => has_type S x (One t)) ys /\ length ys = length xs)
    (fun ys => Forall (fun x => has_type S x (One t)) ys /\ length ys = length xs)
    (t_elems v2 prim S fuel rec t xs b).
Proof.
  intros Hin FC HK. induction xs as [|x xs IH]; intros b Hb HT; cbn [t_elems].
  - apply tf_done; [split; [constructor|reflexivity]|apply sfx_refl|]. intros _. cbn. lia.
  - inversion HT as [|x0 l0 Hx Hxs]; subst.
    assert (HE : tf (gainc 1) b (fun r y => has_type S y (One t)) (fun y => has_type S y (One t))
      (match t with
       | Msg m => plain (or_new v2 S fuel m x) x (fun _ s => t_msg rec m s b)
       | Scalar k => plain (dec_call prim None k b) (zero (One t)) (fun r v => ret (TDone r (GPrim v)))
       end)).
    { destruct t as [k|m].
      - destruct (HK k eq_refl) as (c & a & C). eapply tf_plain; [apply (dec_call_fine v2 prim W Hdone c a None k b C (fun _ => eq_refl) Hb)|apply zero_type; exact FC|].
        intros r v (Sf & Hh & E). apply tf_done; [exact Hh|exact Sf|]. intros HL. destruct (gain_nil b r Sf HL) as [_ G].
        specialize (G (elem_fresh _ _ _ Hin HL E)). lia.
      - assert (L : (m < length S)%nat) by (apply Nat.ltb_lt; exact FC).
        eapply tf_plain; [apply (or_new_fine v2 S HC fuel m x L Hx)|exact Hx|]. intros r9 s Hs. cbv beta in Hs.
        pose proof (msg_tf m s b L Hb Hs) as [M1 M2]. destruct (t_msg rec m s b) as [l [r y|e y| | |]]; cbn [fst snd] in *;
          (split; [exact M1|]); cbn [fst snd]; auto.
        destruct M2 as ((M2 & M3) & M4 & M5 & M6). split; [exact M2|]. split; [exact M4|]. split; [exact M5|].
        intros HL. destruct (M6 HL) as [_ G]. specialize (G (elem_fresh (Msg m) b r Hin HL M3)). lia. }
    eapply tf_bind with (1 := HE) (g' := gainc (zlen xs)).
    + intros l l' r r' _ _ G1 G2 HL. specialize (G1 HL). specialize (G2 HL). rewrite total_app, zlen_cons. lia.
    + intros a Ha. split; [constructor; assumption|reflexivity].
    + intros r y Hy Sf. eapply tf_bind with (1 := IH r (okb_sfx _ _ _ Hb Sf) Hxs) (g' := gainc 0).
      * intros l l' r1 r' _ _ G1 G2 HL. specialize (G1 HL). specialize (G2 HL). rewrite total_app. lia.
      * intros ys [H1 H2]. split; [constructor; assumption|cbn; congruence].
      * intros r' ys [H1 H2] Sf'. apply tf_done; [split; [constructor; assumption|cbn; congruence]|apply sfx_refl|]. intros _. cbn. lia.
Qed.
Lemma entries_tf kk t : field_compiles S (MapOf kk t) = true -> forall n l b, okb W b ->
  NoDup (map fst l) -> Forall (fun e => holds kk (fst e) /\ has_type S (snd e) (One t)) l ->
  let R l' := NoDup (map fst l') /\ Forall (fun e => holds kk (fst e) /\ has_type S (snd e) (One t)) l' /\ (length l' <= length l + n)%nat in
  tf (gainc (Z.of_nat n)) b (fun r => R) R (t_entries v2 prim S fuel rec kk t n l b).
Proof.
  intros FC. destruct (one_of_map _ _ _ FC) as [FO CK].
  assert (FT : match t with Scalar k => call_compiles true false k = true | Msg m => (m < length S)%nat end).
  { cbn [field_compiles] in FC. apply andb_prop in FC. destruct FC as [_ FC']. destruct t; [exact FC'|apply Nat.ltb_lt; exact FC']. }
  assert (NB : kk <> KBytes). { cbn [field_compiles] in FC. apply andb_prop in FC. destruct FC as [FC' _]. apply andb_prop in FC'. destruct FC' as [FC' _]. intros ->. discriminate FC'. }
  induction n as [|n IH]; intros l b Hb ND HT R; cbn [t_entries].
  - apply tf_done; [split; [exact ND|]; split; [exact HT|lia]|apply sfx_refl|]. intros _. cbn. lia.
  - assert (RL : R l) by (split; [exact ND|]; split; [exact HT|lia]).
    eapply tf_plain; [apply (dec_call_fine v2 prim W Hdone true false None kk b CK (fun _ => eq_refl) Hb)|exact RL|].
    intros r k (Sf & Hk & E).
    assert (HE : tf gain r (fun _ y => has_type S y (One t)) (fun _ => True)
       (match t with
        | Msg m => plain (New v2 S fuel m) (GMsg None) (fun _ s => t_msg rec m s r)
        | Scalar kt => plain (dec_call prim None kt r) (zero (One t)) (fun r v => ret (TDone r (GPrim v)))
        end)).
    { pose proof (okb_sfx _ _ _ Hb Sf) as Hr. destruct t as [k2|m].
      - eapply tf_plain; [apply (dec_call_fine v2 prim W Hdone true false None k2 r FT (fun _ => eq_refl) Hr)|exact I|].
        intros r2 v (Sf2 & Hh & _). apply tf_done; [exact Hh|exact Sf2|apply gain_nil; exact Sf2].
      - eapply tf_plain; [apply (new_fine v2 S HC fuel m FT)|exact I|]. intros r9 s Hs. cbv beta in Hs. eapply tf_imp; [apply msg_tf; eassumption|auto| |auto]. intros r0 y [H _] _. exact H. }
    assert (HB : tf (gainc (Z.of_nat n)) r (fun _ => R) R (tbind
       (match t with
        | Msg m => plain (New v2 S fuel m) (GMsg None) (fun _ s => t_msg rec m s r)
        | Scalar kt => plain (dec_call prim None kt r) (zero (One t)) (fun r v => ret (TDone r (GPrim v)))
        end) (fun _ => l) (fun r v => t_entries v2 prim S fuel rec kk t n (insert k v l) r))).
    { eapply tf_bind with (1 := HE) (g' := gainc (Z.of_nat n)).
      - intros l1 l2 r1 r2 _ _ G1 G2 HL. destruct (G1 HL) as [G _]. specialize (G2 HL). rewrite total_app. lia.
      - intros _ _. exact RL.
      - intros r2 y Hy Sf2. eapply tf_imp; [apply IH|auto| |].
        + eapply okb_sfx; [|exact Sf2]. eapply okb_sfx; eassumption.
        + apply insert_nodup. exact ND.
        + apply (insert_forall (fun e => holds kk (fst e) /\ has_type S (snd e) (One t))); auto.
        + intros r9 l' (A1 & A2 & A3) _. split; [exact A1|]. split; [exact A2|]. pose proof (insert_length k y l). lia.
        + intros l' (A1 & A2 & A3). split; [exact A1|]. split; [exact A2|]. pose proof (insert_length k y l). lia. }
    assert (Lt : zlen r + 1 <= zlen b).
    { pose proof (sfx_lt b r Sf) as Lt. unfold zlen. destruct (list_eq_dec Z.eq_dec r b) as [Er|Er]; [destruct (E Er) as [_ C]; contradiction|specialize (Lt Er); lia]. }
    destruct HB as [B1 B2]. split; [exact B1|].
    match type of B2 with match snd ?x with _ => _ end => destruct x as [l1 [r1 y1|e y1| | |]] end; cbn [fst snd] in *; auto; try lia.
    + destruct B2 as (B2 & B3 & B4 & B5). split; [exact B2|]. split; [eapply sfx_trans; eassumption|]. split; [lia|]. intros HL. specialize (B5 HL). lia.
    + destruct B2 as [B2 B3]. split; [exact B2|lia].
Qed.
Lemma slice_tf f old b : (exists fs, In fs S /\ In f fs) -> is_repeated f = true -> field_compiles S f = true -> has_type S old f -> okb W b ->
  field_tf f b (t_slice unlimited v2 prim S fuel rec f old b).
Proof.
  intros Hin Hf FC HT Hb. destruct f as [|t|]; try discriminate Hf. destruct old as [|xs|[|]|[|]]; try contradiction HT.
  pose proof HT as HT0. apply ht_many in HT. destruct HT as [HL HT]. unfold t_slice.
  assert (K : exists k, kind_number (go_GetKind (tkind t)) = Some k).
  { destruct t as [k|m]; [|eexists; reflexivity]. cbn [field_compiles] in FC. apply andb_prop in FC. destruct FC as [FC _].
    destruct (kind_call _ _ _ FC) as [(z & Ez & _) _]. eauto. }
  destruct K as [k ->]. destruct (prim None (RSlice k) b) as [r v|r e|] eqn:Ep; [|apply tf_err; exact HT0|apply tf_panic].
  destruct (Hdone _ _ _ _ _ (fun _ => eq_refl) Hb Ep) as (V & Wv & Sf & Er). pose proof (Hhead _ _ _ _ Hb Ep) as Hh. cbv beta iota in Hh.
  destruct v as [| |size ke| | | | | | | | | | | | ]; try discriminate Wv. pose proof (one_of_many _ _ FC) as FO. destruct V as [V _]. cbv zeta.
  assert (HK : forall k, t = Scalar k -> exists c a, call_compiles c a k = true).
  { intros k0 ->. cbn [field_compiles] in FC. apply andb_prop in FC. destruct FC as [FC _]. eauto. }
  pose proof (okb_sfx _ _ _ Hb Sf) as Hr.
  assert (E : forall l ys, Forall ok_make l -> zlen l <= 1 -> total l <= zlen ys -> Forall (fun x => has_type S x (One t)) ys -> zlen ys < 2 ^ 32 ->
    field_tf (Many t) b (let (l', y) := tbind (t_elems v2 prim S fuel rec t ys r) GList (fun r xs => ret (TDone r (GList xs))) in (l ++ l', y))).
  { intros l ys Hl Hl1 Hlt Hys Hyl.
    assert (B : tf (gainc (zlen ys)) r (fun _ y => has_type S y (Many t)) (fun y => has_type S y (Many t))
       (tbind (t_elems v2 prim S fuel rec t ys r) GList (fun r xs => ret (TDone r (GList xs))))).
    { eapply tf_bind with (1 := elems_tf t Hin FO HK ys r Hr Hys) (g' := gainc 0).
      - intros l1 l2 r1 r2 _ _ G1 G2 HE. specialize (G1 HE). specialize (G2 HE). rewrite total_app. lia.
      - intros zs [A1 A2]. apply ht_many. split; [unfold zlen in *; rewrite A2; exact Hyl|exact A1].
      - intros r' zs [A1 A2] _. apply tf_done; [|apply sfx_refl|intros _; cbn; lia]. apply ht_many. split; [unfold zlen in *; rewrite A2; exact Hyl|exact A1]. }
    destruct (tbind _ _ _) as [l' y]. destruct B as [B1 B2]. cbn [fst snd] in B1, B2. split; [cbn [fst]; apply Forall_app; auto|]. cbn [fst snd].
    rewrite !zlen_app. destruct y as [r1 y1|e y1| | |]; auto; try lia.
    + destruct B2 as (B2 & B3 & B4 & B5). split; [split; [exact B2|]|].
      { intros ->. destruct (sfx_back _ _ _ Sf B3 eq_refl) as [E _]. destruct (Er E) as [_ C]. discriminate C. }
      split; [eapply sfx_trans; eassumption|]. split; [lia|]. intros HE. specialize (B5 HE). rewrite total_app. split; [lia|]. intros _. lia.
    + destruct B2 as [B2 B3]. split; [exact B2|lia]. }
  destruct (Z.eqb_spec (u32 (zlen xs)) size) as [Es|Es].
  - specialize (E [] xs (Forall_nil _)). cbn [total fold_right] in E. specialize (E ltac:(cbn; lia) (zlen_nonneg _) HT HL).
    destruct (tbind _ _ _). exact E.
  - unfold unlimited. cbn [tbind]. apply E.
    + constructor; [|constructor]. unfold ok_make. cbn. lia.
    + cbn. lia.
    + cbn [total fold_right asked]. unfold zlen. rewrite repeat_length, Z2Nat.id; lia.
    + apply Forall_forall. intros y Hy. apply repeat_spec in Hy. subst y. apply zero_type. exact FO.
    + unfold zlen. rewrite repeat_length, Z2Nat.id; lia.
Qed.
Lemma message_tf f old b : is_message f = true -> field_compiles S f = true -> has_type S old f -> okb W b ->
  field_tf f b (t_message v2 prim S fuel rec f old b).
Proof.
  intros Hf FC HT Hb. destruct f as [[|m]|t|kk t]; try discriminate Hf.
  - assert (L : (m < length S)%nat) by (apply Nat.ltb_lt; exact FC).
    assert (MM : forall s, struct_type S s m -> field_tf (One (Msg m)) b (t_msg rec m s b)).
    { intros s Hs. eapply tf_imp; [apply msg_tf; eassumption|auto| |auto]. intros r y [A1 A2] _. split; [exact A1|]. intros E. right. eauto. }
    cbn [t_message]. destruct (bool_cases v2) as [E|E].
    + replace (if v2 then t_nil prim b (fun r => ret (TDone r old)) (fun b0 => plain (New v2 S fuel m) old (fun _ s => t_msg rec m s b0))
               else plain (or_new v2 S fuel m old) old (fun _ s => t_msg rec m s b))
        with (t_nil prim b (fun r => ret (TDone r old)) (fun b0 => plain (New v2 S fuel m) old (fun _ s => t_msg rec m s b0))) by (rewrite E; reflexivity).
      apply tf_nil; [exact Hb| |].
      * intros r Sf N. apply tf_done; [split; [exact HT|intros C; congruence]|exact Sf|apply gain_nil; exact Sf].
      * eapply tf_plain; [apply (new_fine v2 S HC fuel m L)|exact HT|]. intros r9 s Hs. apply MM. exact Hs.
    + replace (if v2 then t_nil prim b (fun r => ret (TDone r old)) (fun b0 => plain (New v2 S fuel m) old (fun _ s => t_msg rec m s b0))
               else plain (or_new v2 S fuel m old) old (fun _ s => t_msg rec m s b))
        with (plain (or_new v2 S fuel m old) old (fun _ s => t_msg rec m s b)) by (rewrite E; reflexivity).
      eapply tf_plain; [apply (or_new_fine v2 S HC fuel m old L HT)|exact HT|]. intros r9 s Hs. apply MM. exact Hs.
  - cbn [t_message]. apply tf_nil; [exact Hb| |].
    + intros r Sf N. apply tf_done; [split; [exact HT|intros C; congruence]|exact Sf|apply gain_nil; exact Sf].
    + assert (K : exists k1 k2, kind_number (go_GetKind kk) = Some k1 /\ kind_number (go_GetKind (tkind t)) = Some k2).
      { destruct (one_of_map _ _ _ FC) as [_ CK]. destruct (kind_call _ _ _ CK) as [(z & Ez & _) _]. exists z.
        cbn [field_compiles] in FC. apply andb_prop in FC. destruct FC as [_ FC'].
        destruct t as [k|m]; [|eexists; split; [exact Ez|reflexivity]]. destruct (kind_call _ _ _ FC') as [(z2 & Ez2 & _) _]. eauto. }
      destruct K as (k1 & k2 & -> & ->). destruct (prim None (RMap k1 k2) b) as [r v|r e|] eqn:Ep; [|apply tf_err; exact HT|apply tf_panic].
      destruct (Hdone _ _ _ _ _ (fun _ => eq_refl) Hb Ep) as (V & Wv & Sf & Er). pose proof (Hhead _ _ _ _ Hb Ep) as Hh. cbv beta iota in Hh.
      destruct v; try discriminate Wv. destruct V as [V _].
      pose proof (entries_tf kk t FC (Z.to_nat size) [] r (okb_sfx _ _ _ Hb Sf) (NoDup_nil _) (Forall_nil _)) as F. cbv zeta in F.
      assert (B : tf (gainc size) r (fun _ y => has_type S y (MapOf kk t)) (fun y => has_type S y (MapOf kk t))
         (tbind (t_entries v2 prim S fuel rec kk t (Z.to_nat size) [] r) (fun l => GMap (Some l)) (fun r l => ret (TDone r (GMap (Some l)))))).
      { assert (TT : forall l, NoDup (map fst l) /\ Forall (fun e => holds kk (fst e) /\ has_type S (snd e) (One t)) l /\ (length l <= length (@nil (value * gval)) + Z.to_nat size)%nat ->
          has_type S (GMap (Some l)) (MapOf kk t)).
        { intros l (A1 & A2 & A3). apply ht_map. split; [|split; assumption]. unfold zlen. cbn [length] in A3. lia. }
        eapply tf_bind with (1 := F) (g' := gainc 0).
        - intros l1 l2 r1 r2 _ _ G1 G2 HE. specialize (G1 HE). specialize (G2 HE). rewrite total_app. rewrite Z2Nat.id in G1 by lia. lia.
        - exact TT.
        - intros r' l Hl _. apply tf_done; [apply TT; exact Hl|apply sfx_refl|intros _; cbn; lia]. }
      cbv beta iota. match goal with |- tf _ _ _ _ (tbind ([MakeMap size], _) ?u ?k) => change (tbind ([MakeMap size], TDone r tt) u k) with (let (l', y) := k r tt in ([MakeMap size] ++ l', y)) end.
      cbv beta. destruct (tbind _ _ _) as [l' y]. destruct B as [B1 B2]. cbn [fst snd] in B1, B2.
      split; [cbn [fst]; constructor; [unfold ok_make; cbn; lia|exact B1]|]. cbn [fst snd]. rewrite !zlen_app. change (zlen [MakeMap size]) with 1.
      destruct y as [r1 y1|e y1| | |]; auto; try lia.
      * destruct B2 as (B2 & B3 & B4 & B5). split; [split; [exact B2|]|].
        { intros ->. destruct (sfx_back _ _ _ Sf B3 eq_refl) as [E _]. destruct (Er E) as [_ C]. discriminate C. }
        split; [eapply sfx_trans; eassumption|]. split; [lia|]. intros HE. specialize (B5 HE). rewrite total_app. cbn [total fold_right asked]. split; [lia|]. intros _. lia.
      * destruct B2 as [B2 B3]. split; [exact B2|lia].
Qed.
End Frame.
Lemma pass_tf step fs : forall is x b,
  (forall i, In i is -> exists f, nth_error fs i = Some f /\ forall old b, has_type S old f -> okb W b -> field_tf f b (step f old b)) ->
  Forall2 (has_type S) x fs -> okb W b ->
  tf gain b (fun r y => Forall2 (has_type S) y fs /\ (r = b -> forall i f, In i is -> nth_error fs i = Some f -> no_move v2 S f))
    (fun y => Forall2 (has_type S) y fs) (t_pass step fs is x b).
Proof.
  induction is as [|i is IH]; intros x b HS HT Hb; cbn [t_pass].
  - apply tf_done; [|apply sfx_refl|apply gain_nil, sfx_refl]. split; [exact HT|]. intros _ i f [].
  - destruct (HS i (or_introl eq_refl)) as (f & Ef & Hf). rewrite Ef.
    destruct (nth_error x i) as [old|] eqn:Eo.
    2: { apply nth_error_None in Eo. rewrite (Forall2_length _ _ _ HT) in Eo. apply nth_error_None in Eo. congruence. }
    pose proof (Forall2_nth _ _ _ _ _ _ HT Eo Ef) as Ho.
    eapply bind0; [apply Hf; assumption| |].
    + intros y Hy. eapply Forall2_set; eassumption.
    + intros r y [Hy Nm] Sf. eapply tf_imp; [apply (IH (set_nth i y x) r)|auto| |auto].
      * intros j Hj. apply HS. right. exact Hj.
      * eapply Forall2_set; eassumption.
      * eapply okb_sfx; eassumption.
      * intros r' y' [A1 A2] Sf'. split; [exact A1|]. intros ->. destruct (sfx_back _ _ _ Sf Sf' eq_refl) as [E1 E2]. intros j g [<-|Hj] Hg.
        -- rewrite Ef in Hg. injection Hg as <-. apply Nm. exact E1.
        -- eapply A2; eassumption.
Qed.
Theorem decode_tf : forall fuel, rec_tf (t_decode unlimited v2 prim S fuel).
Proof.
  induction fuel as [|fuel IH]; intros m x b L HT Hb; [split; [constructor|apply zlen_nonneg]|]. cbn [t_decode].
  apply tf_nil; [exact Hb| |].
  { intros r Sf N. apply tf_done; [split; [exact HT|intros C; congruence]|exact Sf|apply gain_nil; exact Sf]. }
  rewrite (fields_nth S m L). rewrite (getFields_sel S) by (auto using compiles_msg).
  apply ht_msg in HT. destruct HT as [_ HT].
  assert (Hin : In (fields_of S m) S) by (apply nth_In; exact L). set (fs := fields_of S m) in *.
  assert (FCs : forall i f, nth_error fs i = Some f -> field_compiles S f = true) by (intros i f; apply compiles_field; exact HC).
  assert (TM : forall y, Forall2 (has_type S) y fs -> struct_type S y m) by (intros y Hy; apply ht_msg; auto).
  eapply bind0; [apply (pass_tf (t_other v2 prim) fs)|exact TM|]; try assumption.
  { intros i Hi. destruct (sel_field _ _ _ Hi) as (f & Ef & Pf). exists f. split; [exact Ef|]. intros old b' Ho Hb'. apply other_tf; eauto. }
  intros b1 x1 [T1 N1] S1.
  eapply bind0; [apply (pass_tf (t_slice unlimited v2 prim S fuel (t_decode unlimited v2 prim S fuel)) fs)|exact TM|]; try assumption.
  { intros i Hi. destruct (sel_field _ _ _ Hi) as (f & Ef & Pf). exists f. split; [exact Ef|]. intros old b' Ho Hb'.
    apply slice_tf; eauto. exists fs. split; [exact Hin|eapply nth_error_In; exact Ef]. }
  { eapply okb_sfx; eassumption. }
  intros b2 x2 [T2 N2] S2.
  eapply tf_imp; [apply (pass_tf (t_message v2 prim S fuel (t_decode unlimited v2 prim S fuel)) fs (sel p_msg fs 0) x2 b2)|auto| |exact TM].
  { intros i Hi. destruct (sel_field _ _ _ Hi) as (f & Ef & Pf). exists f. split; [exact Ef|]. intros old b' Ho Hb'. apply message_tf; eauto. }
  { exact T2. }
  { exact (okb_sfx _ _ _ Hb (sfx_trans _ _ _ S1 S2)). }
  intros r y [T3 N3] S3. pose proof (sfx_trans _ _ _ S1 S2) as S12.
  split; [apply TM; exact T3|].
  intros ->. destruct (sfx_back _ _ _ S12 S3 eq_refl) as [E2 E3]. destruct (sfx_back _ _ _ S1 S2 E2) as [E1 E2'].
  constructor; [exact L|]. intros f Hf. apply In_nth_error in Hf. destruct Hf as [i Hi]. fold fs in Hi.
  assert (Hio : In i (order fs)) by (apply order_in, nth_error_Some; congruence).
  unfold order in Hio. rewrite !in_app_iff in Hio. destruct Hio as [Hi'|[Hi'|Hi']].
  - exact (N1 E1 _ _ Hi' Hi).
  - exact (N2 E2' _ _ Hi' Hi).
  - exact (N3 E3 _ _ Hi' Hi).
Qed.
End Inv.
