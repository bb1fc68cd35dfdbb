(** Decoding what was encoded: generated Rust code, continued. *)
From Coq Require Import String.
From Verif Require Import Base Spec SpecProofs Utf8 GoSpec RustModel RustSpec RustDec RustThms RustEnc RustThms2 GenTables.
From Verif Require Import GenLemmas GenFields GenDec GenThms2 RsGenModel RsGenSpec RsGenLemmas RsGenDec.
From Verif Require Import GenModel GenSpec.
Import RustModel RsGenModel RsGenSpec.

Lemma skipn_cons_nth_error {A} (l : list A) i x : nth_error l i = Some x -> skipn i l = x :: skipn (Datatypes.S i) l.
Proof. revert i. induction l as [|y l IH]; intros [|i] H; try discriminate; [injection H as ->; reflexivity|]. cbn in *. apply IH, H. Qed.

Lemma Forall2_nth_iff {A C} (R : A -> C -> Prop) xs ys : length xs = length ys ->
  (forall i x y, nth_error xs i = Some x -> nth_error ys i = Some y -> R x y) -> Forall2 R xs ys.
Proof.
  revert ys. induction xs as [|x xs IH]; intros [|y ys] L H; try discriminate L; constructor.
  - apply (H 0%nat); reflexivity.
  - apply IH; [injection L as L; exact L|]. intros i. apply (H (Datatypes.S i)).
Qed.

Lemma map_quiet n k k' r : quiet (wire (VMap n k k') ++ r).
Proof. right. cbn [wire app]. do 3 eexists. split; [reflexivity|]. split; [discriminate|]. intros [E _]. discriminate E. Qed.

Section Round.
Variables (rt : runtime) (alloc : rtype -> Z -> bool) (S : rschema) (B : bytes).
Hypothesis HB : bytes_ok B.
Hypothesis HI : int_ok (W rt) B.
Hypothesis HC : rs_compiles S.

Lemma cur_pre pre t : B = pre ++ t -> cur B t = mkcur (pre ++ t) (zlen pre).
Proof. intros ->. unfold cur. f_equal. rewrite zlen_app. lia. Qed.
Lemma cur_ok pre : 0 <= pre <= zlen B -> cursor_ok rt (mkcur B pre).
Proof. intros H. split; [exact H|]. split; assumption. Qed.
Lemma dec_cur v r : rust_valid v -> suf (wire v ++ r) B ->
  RustModel.decode rt (want v) (cur B (wire v ++ r)) = ROk v (cur B r).
Proof.
  intros Hv [pre E]. rewrite (cur_pre _ _ E).
  rewrite dec_wire; [|exact Hv|rewrite <- E; apply cur_ok; rewrite E, zlen_app; pose proof (zlen_nonneg pre); pose proof (zlen_nonneg (wire v ++ r)); lia].
  f_equal. unfold cur. rewrite E. f_equal. rewrite !zlen_app. lia.
Qed.
Lemma dec_cur_text p r : payload_ok p -> ~ utf8 p -> suf (wire (VString p) ++ r) B ->
  RustModel.decode rt RString (cur B (wire (VString p) ++ r)) = RErr InvalidString (cur B r).
Proof.
  intros Hv Hu [pre E]. rewrite (cur_pre _ _ E).
  destruct (go_text_iff rt pre p r (VString p) Hv (or_introl eq_refl)) as [_ H].
  { rewrite <- E; apply cur_ok; rewrite E, zlen_app; pose proof (zlen_nonneg pre); pose proof (zlen_nonneg (wire (VString p) ++ r)); lia. }
  change RString with (want (VString p)). rewrite (H Hu). f_equal. unfold cur. rewrite E. f_equal. rewrite !zlen_app. lia.
Qed.
Lemma none_cur t : suf t B -> decode_none rt (cur B t) =
  match t with [] => ROk false (cur B []) | a :: u => if a =? 0 then ROk true (cur B u) else ROk false (cur B t) end.
Proof.
  intros Hs. unfold decode_none. destruct t as [|a u].
  - rewrite read_u8_nil. reflexivity.
  - rewrite read_u8_cons by exact Hs. change (as_u8 KNone) with 0. destruct (a =? 0); [reflexivity|].
    destruct Hs as [pre E]. unfold cur at 1 2 3 4. cbn [pos buf].
    assert (L : zlen B = zlen pre + 1 + zlen u) by (rewrite E, zlen_app, zlen_cons; lia).
    pose proof (zlen_nonneg pre). destruct (Z.ltb_spec (zlen B - zlen u) 1); [lia|]. f_equal. unfold cur. f_equal. rewrite zlen_cons. lia.
Qed.
Lemma error_cur t : suf t B -> quiet t -> exists e, decode_error rt (cur B t) = RErr e (cur B t).
Proof.
  intros Hs [->|(a & b & u & -> & _ & H)]; unfold decode_error.
  - rewrite read_u8_nil. eexists; reflexivity.
  - rewrite read_u8_cons by exact Hs. cbn [rbind]. rewrite read_u8_cons by (eapply suf_cons; exact Hs). cbn [rbind].
    change (as_u8 KError) with 6. change (as_u8 KString) with 5.
    destruct (Z.eqb_spec a 6) as [->|]; cbn [andb].
    + destruct (Z.eqb_spec b 5) as [->|]; [exfalso; apply H; auto|].
      eexists. rewrite (back_err_cur InvalidError 2 B [6; b] u Hs eq_refl). reflexivity.
    + eexists. rewrite (back_err_cur InvalidError 2 B [a; b] u Hs eq_refl). reflexivity.
Qed.

(** outcome of decoding [x] *)
Definition out {A} (good : Prop) (ok : rgres A) (res : rgres A) : Prop :=
  (good /\ res = ok) \/ (~ good /\ exists e c, res = RGErr e c).
Lemma out_bind {A C} (g1 g2 : Prop) (a : A) c (x : rgres A) (k : A -> cursor -> rgres C) ok :
  out g1 (RGOk a c) x -> (g1 -> out g2 ok (k a c)) -> out (g1 /\ g2) ok (gtry x k).
Proof.
  intros [[G ->]|(N & e & c' & ->)] H.
  - cbn [gtry]. destruct (H G) as [[G2 E]|(N2 & X)]; [left; auto|right]. split; [intros []; auto|exact X].
  - right. split; [intros []; auto|]. cbn. eauto.
Qed.
Lemma out_iff {A} (g g' : Prop) (ok res : rgres A) : (g <-> g') -> out g ok res -> out g' ok res.
Proof. intros H [[G E]|(N & X)]; [left|right]; (split; [tauto|assumption]). Qed.
Lemma out_ok {A} (g : Prop) (ok : rgres A) : g -> out g ok ok. Proof. left; auto. Qed.

(** x is followed by r *)
Definition mode (x : gval) (f : rfield) (r : bytes) : Prop :=
  readable (forget S) x (forget_f f) \/ (ready S x f /\ quiet r).

Lemma utf8_dec p : {utf8 p} + {~ utf8 p}.
Proof. destruct (from_utf8 p) eqn:E; [left; apply from_utf8_iff; exact E|right; intros H; apply from_utf8_iff in H; congruence]. Qed.

Lemma out_scalar k v r : holds k v -> suf (wire v ++ r) B ->
  out (text_ok v) (RGOk v (cur B r)) (rs_dec_call rt k (cur B (wire v ++ r))).
Proof.
  intros H Hs. rewrite (rs_dec_holds rt k v _ H).
  assert (D : {text_ok v} + {~ text_ok v}). { destruct v; try (left; exact I); apply utf8_dec. }
  destruct D as [D|D].
  - left. split; [exact D|]. rewrite dec_cur; [reflexivity|eapply holds_rust; eassumption|exact Hs].
  - right. split; [exact D|]. destruct H as [V H]. destruct v; try (exfalso; apply D; exact I).
    + cbn [want]. rewrite dec_cur_text; [|exact V|exact D|exact Hs]. cbn. eauto.
    + destruct k; contradiction H.
Qed.
Lemma out_enum n e v r : holds KEnum v -> suf (wire v ++ r) B ->
  out (node_ready (ROne (REnum n)) (GPrim v)) (RGOk (GPrim v) (cur B r))
      (gtry (qmark (RustModel.decode rt RU32 (cur B (wire v ++ r)))) (fun v c => rs_try_from n e v c)).
Proof.
  intros [V H] Hs. destruct v; try contradiction H. change RU32 with (want (VU32 n0)). rewrite dec_cur; [|split; [exact V|split; exact I]|exact Hs].
  cbn [qmark gtry rs_try_from node_ready valid] in *.
  destruct (Z.leb_spec 0 n0); [|lia]. cbn [andb]. destruct (Z.ltb_spec n0 n); [left; auto|right]. split; [lia|eauto].
Qed.

(** a decoder step for a field, slice element or map value *)
Definition step (rec : nat -> cursor -> rgres (option (list gval))) (e : DecodingError) (f : rfield) (c : cursor) : rgres gval :=
  match f with
  | ROne (RScalar k) => gtry (rs_dec_call rt k c) (fun v c => RGOk (GPrim v) c)
  | ROne (REnum n) => gtry (qmark (RustModel.decode rt RU32 c)) (fun v c => rs_try_from n e v c)
  | ROne (RMsg m) => rs_ok_or rec m e c
  | RMany _ => rs_dec_slice rt alloc rec f c
  | RMapOf _ _ => rs_dec_message rt rec f c
  end.

(** what a field sent as [x] holds after decoding *)
Definition fin (x : gval) : gval := settle (collapse x).
Lemma fin_map l : fin (GMap (Some l)) = GMap (Some (last_wins (map (fun e => (fst e, fin (snd e))) l))).
Proof.
  unfold fin. cbn [collapse settle]. do 2 f_equal. rewrite <- last_wins_map, map_map. reflexivity.
Qed.
Lemma fin_list xs : fin (GList xs) = GList (map fin xs).
Proof. unfold fin. cbn [collapse settle]. rewrite map_map. reflexivity. Qed.
Lemma fin_msg xs : fin (GMsg (Some xs)) = GMsg (Some (map fin xs)).
Proof. unfold fin. cbn [collapse settle]. rewrite map_map. reflexivity. Qed.

Lemma elems_out rec t : forall xs r,
  (forall x, In x xs -> sent_type (forget S) x (One (forget_t t))) ->
  (match t with REnum _ => False | _ => True end) ->
  (forall x u, In x xs -> suf (layout (forget S) x (One (forget_t t)) ++ u) B -> mode x (ROne t) u ->
     out (ready S x (ROne t)) (RGOk (fin x) (cur B u)) (step rec InvalidArray (ROne t) (cur B (layout (forget S) x (One (forget_t t)) ++ u)))) ->
  suf (flat_map (fun x => layout (forget S) x (One (forget_t t))) xs ++ r) B ->
  Forall (fun x => readable (forget S) x (One (forget_t t))) xs \/ (Forall (fun x => ready S x (ROne t)) xs /\ quiet r) ->
  out (Forall (fun x => ready S x (ROne t)) xs) (RGOk (map fin xs) (cur B r))
    (rs_dec_elems rt rec t (length xs) (cur B (flat_map (fun x => layout (forget S) x (One (forget_t t))) xs ++ r))).
Proof.
  induction xs as [|x xs IH]; intros r HT Ht HX Hs Hm.
  - apply out_ok. constructor.
  - cbn [length rs_dec_elems flat_map map]. cbn [flat_map] in Hs. rewrite <- app_assoc in *.
    apply (out_iff (ready S x (ROne t) /\ Forall (fun x => ready S x (ROne t)) xs)).
    { split; [intros []; constructor; assumption|]. intros H; inversion H; auto. }
    assert (Hr : mode x (ROne t) (flat_map (fun x => layout (forget S) x (One (forget_t t))) xs ++ r)).
    { destruct Hm as [Hm|[Hm Q]]; inversion Hm; subst; [left; assumption|right]. split; [assumption|].
      clear IH HX Hs Hm. assert (HT' : forall x, In x xs -> sent_type (forget S) x (One (forget_t t))) by (intros y Hy; apply HT; right; exact Hy).
      clear HT. induction xs as [|y xs IH]; [exact Q|]. cbn [flat_map]. inversion H2; subst. rewrite <- app_assoc. apply quiet_app; [|apply IH; auto].
      - apply (ready_starts S y (ROne t)); [apply HT'; left; reflexivity|assumption].
      - intros z Hz. apply HT'. right; exact Hz. }
    eapply out_bind.
    + assert (X := HX x _ (or_introl eq_refl) Hs Hr). destruct t as [k|n|m]; [exact X|contradiction Ht|exact X].
    + intros _. apply (out_iff (Forall (fun x => ready S x (ROne t)) xs /\ True)); [tauto|].
      eapply out_bind; [|intros _; apply out_ok; exact I]. apply IH; auto.
      * intros y Hy. apply HT. right; exact Hy.
      * intros y u Hy. apply HX. right; exact Hy.
      * eapply suf_app; exact Hs.
      * destruct Hm as [Hm|[Hm Q]]; inversion Hm; subst; auto.
Qed.

Lemma entries_out rec t : forall l acc r,
  (forall e, In e l -> holds GenTables.KString (fst e) /\ sent_type (forget S) (snd e) (One (forget_t t))) ->
  (forall e u, In e l -> suf (layout (forget S) (snd e) (One (forget_t t)) ++ u) B -> mode (snd e) (ROne t) u ->
     out (ready S (snd e) (ROne t)) (RGOk (fin (snd e)) (cur B u)) (step rec InvalidMap (ROne t) (cur B (layout (forget S) (snd e) (One (forget_t t)) ++ u)))) ->
  suf (flat_map (fun e : value * gval => wire (fst e) ++ layout (forget S) (snd e) (One (forget_t t))) l ++ r) B ->
  Forall (fun e => readable (forget S) (snd e) (One (forget_t t))) l \/ (Forall (fun e => ready S (snd e) (ROne t)) l /\ quiet r) ->
  out (Forall (fun e => text_ok (fst e)) l /\ Forall (fun e => ready S (snd e) (ROne t)) l)
    (RGOk (fold_left (fun a e => insert (fst e) (snd e) a) (map (fun e => (fst e, fin (snd e))) l) acc) (cur B r))
    (rs_dec_entries rt rec GenTables.KString t (length l) acc (cur B (flat_map (fun e : value * gval => wire (fst e) ++ layout (forget S) (snd e) (One (forget_t t))) l ++ r))).
Proof.
  induction l as [|[k x] l IH]; intros acc r HT HX Hs Hm.
  - apply out_ok. split; constructor.
  - cbn [length rs_dec_entries flat_map map fst snd]. cbn [flat_map fst snd] in Hs. rewrite <- !app_assoc in *.
    destruct (HT (k, x) (or_introl eq_refl)) as [Hk Tx]. cbn [fst snd] in *.
    apply (out_iff (text_ok k /\ ready S x (ROne t) /\ Forall (fun e => text_ok (fst e)) l /\ Forall (fun e => ready S (snd e) (ROne t)) l)).
    { split; [intros (A1 & A2 & A3 & A4); split; constructor; assumption|]. intros [A1 A2]. inversion A1; inversion A2; subst. cbn in *. tauto. }
    assert (Hr : mode x (ROne t) (flat_map (fun e : value * gval => wire (fst e) ++ layout (forget S) (snd e) (One (forget_t t))) l ++ r)).
    { destruct Hm as [Hm|[Hm Q]]; inversion Hm; subst; [left; assumption|right]. split; [assumption|].
      destruct l as [|[k2 x2] l]; [exact Q|]. cbn [flat_map fst snd]. rewrite <- !app_assoc. apply starts_quiet.
      apply (holds_starts GenTables.KString). apply (HT (k2, x2)). right; left; reflexivity. }
    eapply out_bind; [apply (out_scalar GenTables.KString); [exact Hk|exact Hs]|]. intros _.
    eapply out_bind.
    + assert (X := HX (k, x) _ (or_introl eq_refl) (suf_app _ _ _ Hs) Hr). cbn [snd] in X. destruct t as [kt|n|m]; exact X.
    + intros _. cbn [fold_left fst snd]. apply IH.
      * intros e He. apply HT. right; exact He.
      * intros e u He. apply HX. right; exact He.
      * apply suf_app in Hs. apply suf_app in Hs. exact Hs.
      * destruct Hm as [Hm|[Hm Q]]; inversion Hm; subst; auto.
Qed.

(** the three passes *)
Fixpoint pairs (p : field -> bool) (xs : list gval) (fs : list rfield) (i : nat) : list (nat * gval) :=
  match xs, fs with
  | x :: xs, f :: fs => if p (forget_f f) then (i, fin x) :: pairs p xs fs (Datatypes.S i) else pairs p xs fs (Datatypes.S i)
  | _, _ => []
  end.
Definition lay xs fs := zw (fun x f => (f, layout (forget S) x f)) xs (map forget_f fs).
Definition at_all (p : field -> bool) (xs : list gval) (fs : list rfield) (Q : gval -> rfield -> Prop) : Prop :=
  forall j x f, nth_error xs j = Some x -> nth_error fs j = Some f -> p (forget_f f) = true -> Q x f.
Lemma at_all_cons p x xs f fs Q : at_all p (x :: xs) (f :: fs) Q <-> (p (forget_f f) = true -> Q x f) /\ at_all p xs fs Q.
Proof.
  split.
  - intros H. split; [apply (H 0%nat); reflexivity|]. intros j. apply (H (Datatypes.S j)).
  - intros [H1 H2] [|j]; [|apply (H2 j)]. cbn. intros y g E1 E2. injection E1 as <-. injection E2 as <-. exact H1.
Qed.
Lemma group_quiet p xs fs r : length xs = length fs ->
  at_all p xs fs (fun x f => sent_type (forget S) x (forget_f f)) -> at_all p xs fs (fun x f => ready S x f) -> quiet r ->
  quiet (group p (lay xs fs) ++ r).
Proof.
  revert fs. induction xs as [|x xs IH]; intros [|f fs] L HT HR Q; try discriminate L; [exact Q|].
  injection L as L. apply at_all_cons in HT, HR. destruct HT as [HT1 HT], HR as [HR1 HR].
  unfold lay, group. cbn [map zw filter fst]. destruct (p (forget_f f)) eqn:E; [|apply IH; assumption].
  cbn [map concat snd]. rewrite <- app_assoc. apply quiet_app; [|apply IH; assumption]. apply ready_starts; auto.
Qed.
Lemma pass_out stp p : forall xs fs pre i r, length xs = length fs -> length pre = i ->
  at_all p xs fs (fun x f => sent_type (forget S) x (forget_f f)) ->
  at_all p xs fs (fun x f => forall u, suf (layout (forget S) x (forget_f f) ++ u) B -> mode x f u ->
     out (ready S x f) (RGOk (fin x) (cur B u)) (stp f (cur B (layout (forget S) x (forget_f f) ++ u)))) ->
  suf (group p (lay xs fs) ++ r) B ->
  at_all p xs fs (fun x f => readable (forget S) x (forget_f f)) \/ (at_all p xs fs (fun x f => ready S x f) /\ quiet r) ->
  out (at_all p xs fs (fun x f => ready S x f)) (RGOk (pairs p xs fs i) (cur B r))
    (rs_pass stp (pre ++ fs) (sel p (map forget_f fs) i) (cur B (group p (lay xs fs) ++ r))).
Proof.
  induction xs as [|x xs IH]; intros [|f fs] pre i r L LP HT HX Hs Hm; try discriminate L.
  - apply out_ok. intros [|j] x f E; discriminate E.
  - injection L as L. apply at_all_cons in HT, HX. destruct HT as [HT1 HT], HX as [HX1 HX].
    unfold lay in Hs |- *. unfold group in Hs |- *. cbn [map zw filter fst sel pairs] in *.
    assert (E' : pre ++ f :: fs = (pre ++ [f]) ++ fs) by (rewrite <- app_assoc; reflexivity).
    assert (LP' : length (pre ++ [f]) = Datatypes.S i) by (rewrite app_length; cbn; lia).
    destruct (p (forget_f f)) eqn:E.
    + cbn [map concat snd rs_pass] in *. rewrite <- app_assoc in Hs |- *. rewrite nth_error_app2 by lia. rewrite LP, Nat.sub_diag. cbn [nth_error].
      apply (out_iff (ready S x f /\ at_all p xs fs (fun x f => ready S x f) /\ True)).
      { rewrite at_all_cons. tauto. }
      eapply out_bind.
      * apply HX1; [reflexivity|exact Hs|]. destruct Hm as [Hm|[Hm Q]]; apply at_all_cons in Hm; [left; apply Hm; exact E|right].
        split; [apply Hm; exact E|]. apply group_quiet; [exact L|exact HT|apply Hm|exact Q].
      * intros _. eapply out_bind; [|intros _; apply out_ok; exact I]. rewrite E'. apply IH; auto.
        -- eapply suf_app; exact Hs.
        -- destruct Hm as [Hm|[Hm Q]]; apply at_all_cons in Hm; [left|right; split]; tauto.
    + apply (out_iff (at_all p xs fs (fun x f => ready S x f))). { rewrite at_all_cons. intuition congruence. }
      rewrite E'. apply IH; auto.
      destruct Hm as [Hm|[Hm Q]]; apply at_all_cons in Hm; [left|right; split]; tauto.
Qed.

Lemma field_pairs p : forall xs fs i j x f rest, nth_error xs j = Some x -> nth_error fs j = Some f ->
  rs_field (i + j) (pairs p xs fs i ++ rest) = if p (forget_f f) then Some (fin x) else rs_field (i + j) rest.
Proof.
  induction xs as [|y xs IH]; intros [|g fs] i [|j] x f rest Ex Ef; try discriminate; cbn [pairs].
  - injection Ex as ->. injection Ef as ->. rewrite Nat.add_0_r. destruct (p (forget_f f)) eqn:E.
    + cbn. rewrite Nat.eqb_refl. reflexivity.
    + clear IH. assert (G : forall fs k, (i < k)%nat -> rs_field i (pairs p xs fs k ++ rest) = rs_field i rest).
      { clear. induction xs as [|y xs IH]; intros [|g fs] k Hk; try reflexivity. cbn [pairs]. destruct (p (forget_f g)).
        - cbn. destruct (Nat.eqb_spec i k); [lia|]. apply IH; lia.
        - apply IH; lia. }
      apply G. lia.
  - cbn in Ex, Ef. replace (i + Datatypes.S j)%nat with (Datatypes.S i + j)%nat by lia.
    destruct (p (forget_f g)).
    + cbn [app rs_field]. destruct (Nat.eqb_spec (Datatypes.S i + j) i); [lia|]. apply IH; assumption.
    + apply IH; assumption.
Qed.
Lemma struct_pairs xs fs : length xs = length fs ->
  rs_struct (length fs) (pairs p_val xs fs 0 ++ pairs p_slice xs fs 0 ++ pairs p_msg xs fs 0) = Some (map fin xs).
Proof.
  intros L. unfold rs_struct. rewrite <- L.
  assert (G : forall n i, (i + n <= length xs)%nat ->
    all_some (map (fun i => option_map (fun x => [x]) (rs_field i (pairs p_val xs fs 0 ++ pairs p_slice xs fs 0 ++ pairs p_msg xs fs 0))) (seq i n))
    = Some (map fin (firstn n (skipn i xs)))).
  { induction n as [|n IH]; intros i Hi; [reflexivity|]. cbn [seq map all_some].
    assert (Hx : (i < length xs)%nat) by lia. destruct (nth_error_ex xs i Hx) as [x Ex]. rewrite L in Hx. destruct (nth_error_ex fs i Hx) as [f Ef].
    rewrite (field_pairs p_val xs fs 0 i x f) by assumption. rewrite (field_pairs p_slice xs fs 0 i x f) by assumption.
    rewrite <- (app_nil_r (pairs p_msg xs fs 0)). rewrite (field_pairs p_msg xs fs 0 i x f) by assumption. rewrite app_nil_r.
    assert (E : (if p_val (forget_f f) then Some (fin x) else if p_slice (forget_f f) then Some (fin x) else if p_msg (forget_f f) then Some (fin x) else rs_field (0 + i) []) = Some (fin x)).
    { destruct f as [[k|n0|m]|t|k t]; reflexivity. }
    rewrite E. cbn [option_map]. rewrite IH by lia. f_equal.
    rewrite (skipn_cons_nth_error xs i x) by exact Ex. reflexivity. }
  rewrite (G (length xs) 0%nat) by lia. cbn [skipn]. rewrite firstn_all. reflexivity.
Qed.

Lemma quiet_none t : suf t B -> quiet t -> decode_none rt (cur B t) = ROk false (cur B t).
Proof.
  intros Hs Q. rewrite none_cur by exact Hs. destruct Q as [->|(a & b & u & -> & H & _)]; [reflexivity|].
  destruct (Z.eqb_spec a 0); [contradiction|reflexivity].
Qed.
Lemma mode_quiet xs m r : sent_type (forget S) (GMsg (Some xs)) (One (Msg m)) -> mode (GMsg (Some xs)) (ROne (RMsg m)) r ->
  quiet (layout (forget S) (GMsg (Some xs)) (One (Msg m)) ++ r).
Proof.
  intros HT [H|[H Q]].
  - apply starts_quiet. apply readable_starts; [exact HT|exact H|discriminate].
  - apply quiet_app; [|exact Q]. apply (ready_starts S _ (ROne (RMsg m))); assumption.
Qed.

Lemma message_out fuel m xs r :
  sent_type (forget S) (GMsg (Some xs)) (One (Msg m)) -> affordable alloc S (GMsg (Some xs)) (ROne (RMsg m)) ->
  (forall x f e u, In x xs -> sent_type (forget S) x (forget_f f) -> rfield_compiles S f = true -> affordable alloc S x f ->
     suf (layout (forget S) x (forget_f f) ++ u) B -> mode x f u ->
     out (ready S x f) (RGOk (fin x) (cur B u)) (step (rs_decode rt alloc S fuel) e f (cur B (layout (forget S) x (forget_f f) ++ u)))) ->
  suf (layout (forget S) (GMsg (Some xs)) (One (Msg m)) ++ r) B -> mode (GMsg (Some xs)) (ROne (RMsg m)) r ->
  out (ready S (GMsg (Some xs)) (ROne (RMsg m))) (RGOk (Some (map fin xs)) (cur B r))
    (rs_decode rt alloc S (Datatypes.S fuel) m (cur B (layout (forget S) (GMsg (Some xs)) (One (Msg m)) ++ r))).
Proof.
  intros HT HA IH Hs Hm. destruct (st_msg_r _ _ _ HT) as (L & Len & HT').
  pose proof (mode_quiet _ _ _ HT Hm) as Q. cbn [rs_decode]. rewrite quiet_none by assumption.
  destruct (error_cur _ Hs Q) as [e0 ->]. rewrite (rfields_nth S m L).
  rewrite (rs_getFields_sel S) by (auto; apply compiles_msg_r; assumption).
  rewrite layout_msg in Hs |- *. cbv zeta in *. rewrite forget_fields in Hs |- *. set (fs := rfields_of S m) in *. fold (lay xs fs) in Hs |- *.
  rewrite <- !app_assoc in Hs |- *.
  assert (TY : forall p, at_all p xs fs (fun x f => sent_type (forget S) x (forget_f f))).
  { intros p j x f Ex Ef _. eapply HT'; eassumption. }
  assert (ST : forall p stp, (forall f, p (forget_f f) = true -> exists e, forall c, stp f c = step (rs_decode rt alloc S fuel) e f c) ->
    at_all p xs fs (fun x f => forall u, suf (layout (forget S) x (forget_f f) ++ u) B -> mode x f u ->
     out (ready S x f) (RGOk (fin x) (cur B u)) (stp f (cur B (layout (forget S) x (forget_f f) ++ u))))).
  { intros p stp He j x f Ex Ef Pf u Hu Mu. destruct (He f Pf) as [e E]. rewrite E.
    apply IH; [eapply nth_error_In; exact Ex|eapply HT'; eassumption| |exact (in_msg_nth _ _ _ _ Len HA _ _ _ Ex Ef)|exact Hu|exact Mu].
    eapply compiles_field_in; [exact HC|]. eapply nth_error_In; exact Ef. }
  assert (MD : forall p, at_all p xs fs (fun x f => readable (forget S) x (forget_f f)) \/ (at_all p xs fs (fun x f => ready S x f) /\ quiet r)).
  { intros p. destruct Hm as [Hm|[Hm Qr]]; [left|right; split; [|exact Qr]]; intros j x f Ex Ef _.
    - apply ev_msg in Hm; [|rewrite forget_fields, map_length; exact Len]. destruct Hm as [_ Hm]. rewrite forget_fields in Hm.
      eapply (Forall2_nth _ _ _ j); [exact Hm|exact Ex|]. rewrite nth_error_map. fold fs. rewrite Ef. reflexivity.
    - exact (in_msg_nth _ _ _ _ Len Hm _ _ _ Ex Ef). }
  assert (MQ : forall p q, at_all p xs fs (fun x f => readable (forget S) x (forget_f f)) \/ (at_all p xs fs (fun x f => ready S x f) /\ quiet (group q (lay xs fs) ++ r))).
  { intros p q. destruct (MD p) as [X|[X Y]]; [left; exact X|]. destruct Hm as [Hm|[Hm Qr]].
    - left. intros j x f Ex Ef _. apply ev_msg in Hm; [|rewrite forget_fields, map_length; exact Len]. destruct Hm as [_ Hm]. rewrite forget_fields in Hm.
      eapply (Forall2_nth _ _ _ j); [exact Hm|exact Ex|]. rewrite nth_error_map. fold fs. rewrite Ef. reflexivity.
    - right. split; [exact X|]. apply group_quiet; auto. intros j x f Ex Ef _. exact (in_msg_nth _ _ _ _ Len Hm _ _ _ Ex Ef). }
  assert (MQ2 : forall p q q', at_all p xs fs (fun x f => readable (forget S) x (forget_f f)) \/ (at_all p xs fs (fun x f => ready S x f) /\ quiet (group q (lay xs fs) ++ group q' (lay xs fs) ++ r))).
  { intros p q q'. destruct (MD p) as [X|[X Y]]; [left; exact X|]. destruct Hm as [Hm|[Hm Qr]].
    - left. intros j x f Ex Ef _. apply ev_msg in Hm; [|rewrite forget_fields, map_length; exact Len]. destruct Hm as [_ Hm]. rewrite forget_fields in Hm.
      eapply (Forall2_nth _ _ _ j); [exact Hm|exact Ex|]. rewrite nth_error_map. fold fs. rewrite Ef. reflexivity.
    - right. split; [exact X|].
      assert (RA : forall p, at_all p xs fs (fun x f => ready S x f)) by (intros p0 j x f Ex Ef _; exact (in_msg_nth _ _ _ _ Len Hm _ _ _ Ex Ef)).
      apply group_quiet; auto. apply group_quiet; auto. }
  apply (out_iff (at_all p_val xs fs (fun x f => ready S x f) /\ at_all p_slice xs fs (fun x f => ready S x f) /\ at_all p_msg xs fs (fun x f => ready S x f) /\ True)).
  { unfold ready at 4. rewrite (in_msg _ S xs m Len). fold fs. split.
    - intros (A1 & A2 & A3 & _). split; [exact I|]. apply Forall2_nth_iff; [exact Len|]. intros j x f Ex Ef.
      destruct f as [[k|n|m']|t|k t]; [apply (A1 j)|apply (A1 j)|apply (A3 j)|apply (A2 j)|apply (A3 j)]; auto.
    - intros [_ H]. repeat split; intros j x f Ex Ef _; exact (Forall2_nth _ _ _ _ _ _ H Ex Ef). }
  change is_scalar with p_val in *. change is_repeated with p_slice in *. change is_message with p_msg in *.
  eapply out_bind.
  { apply (pass_out (rs_dec_other rt) p_val xs fs [] 0); auto. apply ST. intros f Pf. exists InvalidEnum. intros c.
    destruct f as [[k|n|m']|t|k t]; try discriminate Pf; reflexivity. }
  intros _. apply suf_app in Hs. eapply out_bind.
  { apply (pass_out (rs_dec_slice rt alloc (rs_decode rt alloc S fuel)) p_slice xs fs [] 0); auto. apply ST. intros f Pf. exists InvalidEnum. intros c.
    destruct f as [[k|n|m']|t|k t]; try discriminate Pf; reflexivity. }
  intros _. apply suf_app in Hs. eapply out_bind.
  { apply (pass_out (rs_dec_message rt (rs_decode rt alloc S fuel)) p_msg xs fs [] 0); auto. apply ST. intros f Pf. exists InvalidStruct. intros c.
    destruct f as [[k|n|m']|t|k t]; try discriminate Pf; reflexivity. }
  intros _. rewrite struct_pairs by exact Len. apply out_ok. exact I.
Qed.

Lemma step_out : forall x f fuel e r, sent_type (forget S) x (forget_f f) -> rfield_compiles S f = true -> affordable alloc S x f ->
  (depth x <= fuel)%nat -> suf (layout (forget S) x (forget_f f) ++ r) B -> mode x f r ->
  out (ready S x f) (RGOk (fin x) (cur B r)) (step (rs_decode rt alloc S fuel) e f (cur B (layout (forget S) x (forget_f f) ++ r))).
Proof.
  induction x using gval_ind'; intros f fuel e r HT FC HA HD Hs Hm.
  - destruct f as [[k|n|m]|t|k t]; try contradiction HT; cbn [step forget_f forget_t layout fin collapse settle] in *.
    + apply (out_iff (text_ok v /\ True)); [reflexivity|]. eapply out_bind; [apply out_scalar; [exact HT|exact Hs]|]. intros _. apply out_ok. exact I.
    + apply (out_iff (node_ready (ROne (REnum n)) (GPrim v))); [unfold ready; cbn [inside]; tauto|]. apply out_enum; [exact HT|exact Hs].
  - destruct f as [[k|n|m]|t|k t]; try contradiction HT. cbn [forget_f] in *. apply st_many in HT. destruct HT as [HL HT].
    apply in_many in HA. destruct HA as [HA1 HA]. apply depth_list in HD. rewrite Forall_forall in H, HT, HA, HD.
    destruct (rs_kind_t S t (RMany t) FC eq_refl) as [K _]. pose proof (rs_elem S t (RMany t) FC eq_refl) as FE.
    rewrite fin_list. cbn [step layout rs_dec_slice] in *. rewrite K. rewrite <- app_assoc in Hs |- *.
    change (RSlice (announced (forget_t t))) with (want (VSlice (zlen xs) (announced (forget_t t)))).
    rewrite dec_cur; [|apply slice_valid; [exact HL|apply rust_kind_announced]|exact Hs]. cbn [qmark gtry]. rewrite HA1.
    replace (Z.to_nat (zlen xs)) with (length xs) by (unfold zlen; lia).
    apply (out_iff (Forall (fun x => ready S x (ROne t)) xs /\ True)).
    { unfold ready at 2. rewrite in_many. cbn [node_ready]. unfold ready. tauto. }
    eapply out_bind; [|intros _; apply out_ok; exact I]. apply elems_out.
    + exact HT.
    + destruct t as [k|n|m]; [exact I|discriminate FC|exact I].
    + intros x u Hx Hu Hmu. apply (H x Hx (ROne t)); auto. exact (HA x Hx).
    + eapply suf_app; exact Hs.
    + destruct Hm as [Hm|[Hm Q]]; [left; apply ev_many in Hm; exact Hm|right]. split; [|exact Q]. apply in_many in Hm. apply Hm.
  - destruct f as [[k|n|m]|t|k t]; try contradiction HT. cbn [forget_f] in *.
    destruct (rs_kind_t S t (RMapOf k t) FC eq_refl) as [K2 _]. pose proof (rs_key S k t FC) as ->.
    cbn [step layout fin collapse settle rs_dec_message] in *. rewrite quiet_none; [|exact Hs|apply map_quiet].
    change (rs_kind (rs_getKind GenTables.KString)) with (Some 5). rewrite K2.
    change (announced (Scalar GenTables.KString)) with 5 in *.
    change (RMap 5 (announced (forget_t t))) with (want (VMap 0 5 (announced (forget_t t)))).
    rewrite dec_cur; [|apply (map_valid (@nil Z)); [cbn; lia|lia|apply rust_kind_announced]|exact Hs].
    left. split; [split; exact I|]. reflexivity.
  - destruct f as [[k|n|m]|t|k t]; try contradiction HT. cbn [forget_f] in *. apply st_map in HT. destruct HT as (HL & HT).
    apply in_map in HA. destruct HA as [_ HA]. apply depth_map in HD. rewrite Forall_forall in H, HT, HA, HD.
    destruct (rs_kind_t S t (RMapOf k t) FC eq_refl) as [K2 _]. pose proof (rs_elem S t (RMapOf k t) FC eq_refl) as FE. pose proof (rs_key S k t FC) as ->.
    rewrite fin_map, <- insert_all. cbn [step layout rs_dec_message] in *. rewrite <- app_assoc in Hs |- *.
    rewrite quiet_none; [|exact Hs|apply map_quiet].
    change (rs_kind (rs_getKind GenTables.KString)) with (Some 5). rewrite K2.
    change (announced (Scalar GenTables.KString)) with 5 in *.
    change (RMap 5 (announced (forget_t t))) with (want (VMap (zlen l) 5 (announced (forget_t t)))).
    rewrite dec_cur; [|apply map_valid; [exact HL|lia|apply rust_kind_announced]|exact Hs].
    replace (Z.to_nat (zlen l)) with (length l) by (unfold zlen; lia).
    apply (out_iff ((Forall (fun e => text_ok (fst e)) l /\ Forall (fun e => ready S (snd e) (ROne t)) l) /\ True)).
    { unfold ready at 2. rewrite in_map. cbn [node_ready]. unfold ready. tauto. }
    eapply out_bind; [|intros _; apply out_ok; exact I].
    apply (entries_out (rs_decode rt alloc S fuel) t l [] r).
    + exact HT.
    + intros [kv x] u Hx Hu Hmu. apply (H (kv, x) Hx (ROne t)); [exact (proj2 (HT _ Hx))|exact FE|exact (HA _ Hx)|exact (HD _ Hx)|exact Hu|exact Hmu].
    + eapply suf_app; exact Hs.
    + destruct Hm as [Hm|[Hm Q]]; [left; exact (proj1 (ev_map _ _ _ _ _) Hm)|right]. split; [|exact Q]. apply in_map in Hm. apply Hm.
  - destruct f as [[k|n|m]|t|k t]; try contradiction HT. right. split; [intros [[] _]|].
    cbn [step forget_f forget_t layout] in *. destruct fuel as [|fuel]; [cbn in HD; lia|].
    unfold rs_ok_or. cbn [rs_decode]. rewrite none_cur by exact Hs. cbn. eauto.
  - destruct f as [[k|n|m]|t|k t]; try contradiction HT. rewrite fin_msg. cbn [forget_f forget_t step] in *.
    apply depth_msg in HD. destruct HD as (k & -> & HD). rewrite Forall_forall in H, HD. unfold rs_ok_or.
    apply (out_iff (ready S (GMsg (Some xs)) (ROne (RMsg m)) /\ True)); [tauto|].
    eapply (out_bind _ _ (Some (map fin xs)) (cur B r)); [|intros _; apply out_ok; exact I]. apply message_out; auto.
Qed.
End Round.
