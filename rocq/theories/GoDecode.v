(** The decode functions of messages: decode.templ. *)
From Coq Require Import String.
From Verif Require Import Base Spec GenTables GenModel GenTrace NameModel NameSpec EmitModel EmitSpec EmitThms PkgThms GoAst GoEmit GoRunSpec GoLink GoFrame GoExec GoScope GoSlices GoMsgs GoMaps.

(** ---- the groups of fields ---- *)
Definition at_index (fs : list fieldd) (i : nat) (fd : fieldd) : Prop := nth_error fs i = Some fd.
Lemma groups_rel ms lut fs0 fs : forall i, (forall j fd, nth_error fs j = Some fd -> nth_error fs0 (i + j) = Some fd) ->
  forall a b c, getFields lut (map (field_of ms) fs) i = Some (a, b, c) ->
  Forall2 (at_index fs0) a (g_values (get_fields lut fs)) /\ Forall2 (at_index fs0) b (g_slices (get_fields lut fs)) /\ Forall2 (at_index fs0) c (g_messages (get_fields lut fs)) /\
  (forall fd, In fd (g_values (get_fields lut fs)) -> In fd fs /\ f_many fd && negb (is_map fd) = false /\ lut (kind_of (f_typ fd)) <> None) /\
  (forall fd, In fd (g_slices (get_fields lut fs)) -> In fd fs /\ f_many fd = true /\ is_map fd = false) /\
  (forall fd, In fd (g_messages (get_fields lut fs)) -> In fd fs /\ f_many fd && negb (is_map fd) = false /\ kind_of (f_typ fd) = KMessage).
Proof.
  induction fs as [|fd fs IH]; intros i H a b c E.
  - cbn in E. injection E as <- <- <-. cbn. repeat split; try constructor; contradiction.
  - cbn [map getFields] in E. destruct (getFields lut (map (field_of ms) fs) (S i)) as [((a', b'), c')|] eqn:E'; [|discriminate E].
    destruct (IH (S i)) with (a := a') (b := b') (c := c') as (H1 & H2 & H3 & H4 & H5 & H6); [|exact E'|].
    { intros j fd' Hj. replace (S i + j)%nat with (i + S j)%nat by lia. apply H. exact Hj. }
    assert (H0 : nth_error fs0 i = Some fd) by (rewrite <- (Nat.add_0_r i); apply H; reflexivity).
    assert (Er : Repeated (field_of ms fd) && negb (IsMap (field_of ms fd)) = f_many fd && negb (is_map fd)).
    { unfold field_of, is_map. destruct (f_typ fd), (f_many fd); reflexivity. }
    assert (Ek : fkind (field_of ms fd) = kind_of (f_typ fd)).
    { unfold field_of. destruct (f_typ fd), (f_many fd); reflexivity. }
    rewrite Er, Ek in E. cbn [get_fields]. destruct (f_many fd && negb (is_map fd)) eqn:Em.
    + injection E as <- <- <-. cbn [g_values g_slices g_messages]. apply andb_true_iff in Em. destruct Em as (Em1 & Em2). apply negb_true_iff in Em2.
      split; [exact H1|]. split; [constructor; assumption|]. split; [exact H3|]. split; [intros k Hk; destruct (H4 k Hk); split; [right|]; auto|]. split; [|intros k Hk; destruct (H6 k Hk); split; [right|]; auto].
      intros k [<-|Hk]; [split; [left; reflexivity|auto]|]. destruct (H5 k Hk). split; [right|]; auto.
    + destruct (lut (kind_of (f_typ fd))) as [nm|] eqn:El.
      * injection E as <- <- <-. cbn [g_values g_slices g_messages].
        split; [constructor; assumption|]. split; [exact H2|]. split; [exact H3|]. split; [|split; intros k Hk; [destruct (H5 k Hk)|destruct (H6 k Hk)]; split; try right; auto].
        intros k [<-|Hk]; [split; [left; reflexivity|split; [exact Em|rewrite El; discriminate]]|]. destruct (H4 k Hk). split; [right|]; auto.
      * destruct (kind_of (f_typ fd)) eqn:Ekd; try discriminate E. injection E as <- <- <-. cbn [g_values g_slices g_messages].
        split; [exact H1|]. split; [exact H2|]. split; [constructor; assumption|]. split; [intros k Hk; destruct (H4 k Hk); split; [right|]; auto|]. split; [intros k Hk; destruct (H5 k Hk); split; [right|]; auto|].
        intros k [<-|Hk]; [split; [left; reflexivity|auto]|]. destruct (H6 k Hk). split; [right|]; auto.
Qed.
Lemma only_mem h1 h2 q q' Q Q' : only_at h1 h2 q q' -> (forall c, In c q -> In c Q) -> (forall c, In c Q' -> In c q' \/ In c Q) -> only_at h1 h2 Q Q'.
Proof.
  intros (L & F & N) H1 H2. split; [exact L|]. split; [intros c Hc Hn; apply F; [exact Hc|intros K; apply Hn, H1, K]|].
  intros c Hc. destruct (H2 c Hc) as [K|K]; [|left; exact K]. destruct (N c K) as [K'|K']; [left; apply H1, K'|right; exact K'].
Qed.

Section Pass.
Variables (v2 : bool) (f : filed) (room : Z -> bool) (prim : option bytes -> request -> bytes -> outcome).
Variable callee : option bytes -> bytes -> list gov -> st -> ex (list gov * st).
Hypothesis NA : names_apart v2 f.
Notation P := (go_program v2 f).
Notation ms := (messages_of f).
Notation SEQ := (seq (exec P room prim callee)).
Variables (m : msgd) (a : nat) (h0 : list obj) (fp0 : list nat).
Hypothesis HM : has_message f m.
Notation T := (camel (m_full m)).
Definition sat (sl : bool) (xs : list gval) (s : st) : Prop :=
  exists vs fp, scope v2 f sl T a (env s) /\ nth_error (heap s) a = Some (OStruct (combine (map goname (m_fields m)) vs)) /\
    reps ms (heap s) (m_fields m) xs vs fp /\ NoDup (a :: fp) /\ only_at h0 (heap s) (a :: fp0) (a :: fp).
Variables (sl : bool) (gen : fieldd -> list stmt) (step : field -> gval -> bytes -> run gval).
Definition field_ok (fd : fieldd) : Prop := forall fs x v fp s,
  scope v2 f sl T a (env s) -> nth_error (heap s) a = Some (OStruct fs) -> find_name (goname fd) fs = Some v -> rep ms (heap s) fd x v fp -> NoDup (a :: fp) ->
  runs (SEQ (gen fd) s) (step (field_of ms fd) x (inp s)) s (fok v2 f sl T a fs fd fp s).
Theorem pass_ok l : forall is, Forall2 (at_index (m_fields m)) is l -> (forall fd, In fd l -> field_ok fd) -> forall xs s, sat sl xs s ->
  runs (SEQ (flat_map gen l) s) (t_pass step (map (field_of ms) (m_fields m)) is xs (inp s)) s (sat sl).
Proof.
  induction l as [|fd l IH]; intros is H F xs s Hs; inversion H as [|i fd' is' l' Hi Hl]; subst; clear H.
  - cbn [flat_map t_pass seq]. eapply runs_done; try reflexivity. exact Hs.
  - cbn [flat_map t_pass]. unfold at_index in Hi. rewrite nth_error_map, Hi. cbn [option_map].
    destruct Hs as (vs & fp & Sc & Ha & R & N & On).
    destruct (reps_nth ms (heap s) _ _ _ _ R i fd Hi) as (x & v & p & q & r & Hx & Hv & -> & Rx & K). rewrite Hx.
    pose proof (na_fields _ _ NA m HM) as Nf. destruct (reps_lengths ms _ _ _ _ _ R) as (_ & Lv).
    assert (Hn : nth_error (map goname (m_fields m)) i = Some (goname fd)) by (rewrite nth_error_map, Hi; reflexivity).
    assert (Lm : length vs = length (map goname (m_fields m))) by (rewrite map_length; exact Lv).
    assert (Hf : find_name (goname fd) (combine (map goname (m_fields m)) vs) = Some v) by (rewrite (find_combine _ _ Nf Lm i _ Hn); exact Hv).
    assert (Nq : NoDup (a :: q)).
    { inversion N as [|? ? Na Nr]; subst. constructor; [intros Hq; apply Na; rewrite !in_app_iff; auto|]. apply nodup_app_r in Nr. exact (nodup_app_l _ _ Nr). }
    assert (Ok : forall y s', fok v2 f sl T a (combine (map goname (m_fields m)) vs) fd q s y s' -> sat sl (set_nth i y xs) s').
    { intros y s' (v' & q' & Sc' & Ha' & Ry & Nq' & On'). exists (set_at i v' vs), (p ++ q' ++ r). split; [exact Sc'|]. split; [rewrite <- (set_combine _ _ Nf Lm i _ v' Hn); exact Ha'|].
      assert (Bd : forall c, In c (p ++ q ++ r) -> (c < length (heap s))%nat) by (intros c Hc; exact (reps_bound ms (heap s) _ _ _ _ R c Hc)).
      split; [|split].
      - apply K; [|exact Ry]. intros c Hc. destruct On' as (_ & On' & _). apply On'.
        + apply Bd. rewrite !in_app_iff in *. tauto.
        + intros [<-|Hq]; [inversion N as [|? ? Na _]; subst; apply Na; rewrite !in_app_iff in *; tauto|].
          inversion N as [|? ? _ Nr]; subst. apply in_app_or in Hc. destruct Hc as [Hc|Hc].
          * apply (nodup_app_not _ _ c Nr Hc). apply in_or_app. left. exact Hq.
          * apply nodup_app_r in Nr. exact (nodup_app_not _ _ c Nr Hq Hc).
      - apply (nodup_mid (a :: p) q q' r); [exact N|inversion Nq'; assumption|]. intros c Hc. destruct On' as (_ & _ & On'). destruct (On' c (or_intror Hc)) as [[<-|Hq]|Hl'].
        + exfalso. inversion Nq'; contradiction.
        + left. exact Hq.
        + right. cbn [app]. intros [<-|Hi']; [inversion Nq'; contradiction|]. assert (c < length (heap s))%nat by (apply Bd; rewrite !in_app_iff in *; tauto). lia.
      - eapply only_trans; [exact On|]. eapply only_mem; [exact On'| |].
        + intros c [<-|Hc]; [left; reflexivity|right; rewrite !in_app_iff; auto].
        + intros c [<-|Hc]; [left; left; reflexivity|]. rewrite !in_app_iff in Hc. destruct Hc as [Hc|[Hc|Hc]]; [right|left; right; exact Hc|right]; right; rewrite !in_app_iff; auto. }
    apply (runs_seq P room prim callee (gen fd) (flat_map gen l) _ _ _ s (fok v2 f sl T a (combine (map goname (m_fields m)) vs) fd q s)).
    + exact (F fd (or_introl eq_refl) _ x v q s Sc Ha Hf Rx Nq).
    + intros s' y _ Hy _. apply IH; [exact Hl|intros k Hk; apply F; right; exact Hk|]. apply Ok, Hy.
    + exact Ok.
Qed.
End Pass.

(** ---- what "compiles" says about a field ---- *)
Lemma comp_field f m fd : compiles (schema_of f) = true -> has_message f m -> In fd (m_fields m) -> field_compiles (schema_of f) (field_of (messages_of f) fd) = true.
Proof.
  intros C HM Hi. unfold compiles in C. rewrite forallb_forall in C.
  assert (K : In (map (field_of (messages_of f)) (m_fields m)) (schema_of f)) by (unfold schema_of; apply List.in_map_iff; exists m; split; [reflexivity|apply ms_has, HM]).
  specialize (C _ K). unfold message_compiles in C. apply andb_true_iff in C. destruct C as (C & _). rewrite forallb_forall in C. apply C. apply List.in_map_iff. eauto.
Qed.
Lemma comp_scalar k a b : call_compiles a b k = true -> k <> KGroup /\ k <> KMessage /\ (b = false -> k <> KBytes) /\ (a = false -> k <> KEnum) /\ (exists q, scalar_type k = Some q) /\ exists z, kind_number (go_GetKind k) = Some z.
Proof.
  intros H. destruct k; try discriminate H; repeat split; try discriminate; try (eexists; reflexivity); intros ->; try discriminate; destruct a; discriminate H.
Qed.
Lemma comp_key k : key_kind k = true -> exists q z, scalar_type k = Some q /\ kind_number (go_GetKind k) = Some z.
Proof. destruct k; intros H; try discriminate H; do 2 eexists; split; reflexivity. Qed.
(** the kinds of fields there are *)
Inductive shape (f : filed) (fd : fieldd) : Prop :=
| shape_other k : f_many fd = false -> ftype_of (messages_of f) (f_typ fd) = Scalar k -> k <> KGroup -> k <> KMessage -> known_type f (f_typ fd) -> shape f fd
| shape_slice t kk : f_many fd = true -> is_map fd = false -> known_type f (f_typ fd) -> ftype_of (messages_of f) (f_typ fd) = t -> field_of (messages_of f) fd = Many t ->
    match t with Scalar k => k <> KGroup /\ k <> KBytes /\ k <> KEnum /\ k <> KMessage | Msg _ => True end -> kind_number (go_GetKind (tkind t)) = Some kk -> shape f fd
| shape_message es : f_many fd = false -> f_typ fd = TMsg es -> known_type f (TMsg es) -> field_of (messages_of f) fd = One (Msg (position es (messages_of f))) -> shape f fd
| shape_map kt vt qk k1 k2 : f_many fd = true -> f_typ fd = TMap kt vt -> known_type f kt -> known_type f vt -> key_kind (kind_of kt) = true -> scalar_type (kind_of kt) = Some qk ->
    match vt with TScalar k => k <> KGroup /\ k <> KBytes | TMap _ _ => False | _ => True end ->
    kind_number (go_GetKind (kind_of kt)) = Some k1 -> kind_number (go_GetKind (kind_of vt)) = Some k2 -> tkind (ftype_of (messages_of f) vt) = kind_of vt ->
    field_of (messages_of f) fd = MapOf (kind_of kt) (ftype_of (messages_of f) vt) -> shape f fd.
Lemma shape_of v2 f m fd : names_apart v2 f -> compiles (schema_of f) = true -> has_message f m -> In fd (m_fields m) -> shape f fd.
Proof.
  intros NA C HM Hi. pose proof (comp_field f m fd C HM Hi) as CF. pose proof (na_known _ _ NA m fd HM Hi) as Kn. unfold field_known in Kn.
  pose proof CF as CF'. unfold field_of in CF. destruct (f_typ fd) as [k|es|es|kt vt] eqn:Et.
  - destruct (f_many fd) eqn:Em; cbn [field_compiles ftype_of] in CF.
    + apply andb_true_iff in CF. destruct CF as (CF & _). destruct (comp_scalar k _ _ CF) as (H1 & H2 & H3 & H4 & _ & z & Hz).
      apply (shape_slice f fd (Scalar k) z); auto; rewrite ?Et; auto; unfold is_map, field_of; rewrite ?Et, ?Em; auto.
    + destruct (comp_scalar k _ _ CF) as (H1 & H2 & _). apply (shape_other f fd k); rewrite ?Et; auto.
  - destruct (f_many fd) eqn:Em; cbn [field_compiles ftype_of] in CF; [discriminate CF|]. apply (shape_other f fd KEnum); rewrite ?Et; auto; discriminate.
  - destruct (f_many fd) eqn:Em.
    + apply (shape_slice f fd (Msg (position es (messages_of f))) 3); rewrite ?Et; auto; unfold is_map, field_of; rewrite ?Et, ?Em; auto.
    + apply (shape_message f fd es); auto. unfold field_of. rewrite Et, Em. reflexivity.
  - destruct Kn as (Em & K1 & K2). cbn [field_compiles] in CF. apply andb_true_iff in CF. destruct CF as (CF & CV). apply andb_true_iff in CF. destruct CF as (CK & _).
    destruct (comp_key _ CK) as (qk & k1 & Q1 & Q2).
    assert (V : exists k2, kind_number (go_GetKind (kind_of vt)) = Some k2 /\ match vt with TScalar k => k <> KGroup /\ k <> KBytes | TMap _ _ => False | _ => True end /\ tkind (ftype_of (messages_of f) vt) = kind_of vt).
    { destruct vt as [k|es|es|? ?]; cbn [ftype_of] in CV; [| | |contradiction].
      - destruct (comp_scalar k _ _ CV) as (H1 & _ & H3 & _ & _ & z & Hz). exists z. auto.
      - eexists. split; [reflexivity|]. auto.
      - eexists. split; [reflexivity|]. auto. }
    destruct V as (k2 & V1 & V2 & V3). apply (shape_map f fd kt vt qk k1 k2); auto. unfold field_of. rewrite Et. reflexivity.
Qed.

(** ---- the whole function ---- *)
Section Func.
Variables (v2 : bool) (f : filed) (room : Z -> bool) (prim : option bytes -> request -> bytes -> outcome).
Variable callee : option bytes -> bytes -> list gov -> st -> ex (list gov * st).
Variable n : nat.
Hypothesis SP : sound_prim prim.
Hypothesis NA : names_apart v2 f.
Hypothesis CO : compiles (schema_of f) = true.
Notation names := (go_names (go_file v2 f)).
Notation P := (go_program v2 f).
Notation ms := (messages_of f).
Notation Sch := (schema_of f).
Notation EX := (exec P room prim callee).
Notation SEQ := (seq (exec P room prim callee)).
Hypothesis NEW : new_spec v2 f callee n.
Hypothesis DEC : dec_spec v2 f room prim callee n.
Hypothesis MAPS : forall m fd kt vt, has_message f m -> In fd (m_fields m) -> f_typ fd = TMap kt vt -> newmap_spec callee fd /\ decmap_spec v2 f room prim callee n fd kt vt.

Lemma scope_start T a : forall k, In k names -> find_name k [(n_d, GoDecoder); (n_x, GoPtr T (Some a))] = None.
Proof using Type.
  intros k Hk. assert (L : forall c t, is_lower c = true -> k <> c :: t) by (intros c t Lc ->; exact (names_lower v2 f _ c t eq_refl Lc Hk)).
  cbn [find_name]. rewrite !same_false by (apply L; reflexivity). reflexivity.
Qed.
Lemma scope_first T a : scope v2 f false T a [(n_err, GoError None); (n_d, GoDecoder); (n_x, GoPtr T (Some a))].
Proof using Type.
  constructor; try reflexivity.
  - exists None. reflexivity.
  - discriminate.
  - intros k Hk. assert (L : forall c t, is_lower c = true -> k <> c :: t) by (intros c t Lc ->; exact (names_lower v2 f _ c t eq_refl Lc Hk)).
    cbn [find_name]. rewrite !same_false by (apply L; reflexivity). reflexivity.
Qed.
Lemma scope_slice T a E : scope v2 f false T a E -> scope v2 f true T a ((n_slice, GoBase (VU32 0)) :: E).
Proof using Type.
  intros [Hx Hd He _ Hn Hu Hl].
  constructor; try assumption.
  - intros _. exists 0. reflexivity.
  - intros k Hk. cbn [find_name]. rewrite same_false; [apply Hn, Hk|]. intros ->. exact (names_lower v2 f n_slice 115 _ eq_refl eq_refl Hk).
Qed.

Theorem decode_ok m mi s a xs fp : nth_error ms mi = Some m -> struct_at ms (heap s) a m xs fp ->
  returns (enter P room prim callee (decode_func v2 m) [GoPtr (camel (m_full m)) (Some a); GoDecoder] s)
    (t_decode room v2 prim Sch (S n) mi xs (inp s)) s
    (fun xs' s' => exists fp', struct_at ms (heap s') a m xs' fp' /\ only_at (heap s) (heap s') (a :: fp) (a :: fp') /\ env s' = env s).
Proof.
  intros Hm (vs & Ha & R & N). assert (HM : has_message f m) by (apply ms_has; exact (nth_error_In _ _ Hm)). set (T := camel (m_full m)).
  unfold enter, decode_func. cbn [fn_params fn_body declare ebind].
  change (same n_x (text "_")) with false. change (same n_d (text "_")) with false. cbn iota. cbn [env set_env heap inp out made].
  match goal with |- context [SEQ _ ?q] => set (s0 := q) end.
  assert (E0 : env s0 = [(n_d, GoDecoder); (n_x, GoPtr T (Some a))]) by reflexivity.
  rewrite seq_app, seq_one. cbn [exec]. unfold one at 1. rewrite (eval_nil v2 f room prim callee s0 eq_refl). change (inp s0) with (inp s).
  cbn [t_decode]. unfold t_nil. destruct (prim None RNil (inp s)) as [r w|r e|] eqn:Ep; cbn [ebind]; [| |reflexivity].
  { rewrite block_nil. unfold returns, agrees. cbn [snd ret fst]. eexists. split; [reflexivity|]. cbn [inp set_env set_inp out made heap env s0]. rewrite app_nil_r. split; [reflexivity|]. split; [|auto].
    exists fp. split; [exists vs; auto|]. split; [apply only_refl|reflexivity]. }
  rewrite (block_same P room prim callee [] (set_inp s0 r) Next _ eq_refl eq_refl). cbn [ebind].
  assert (Es : nth_error Sch mi = Some (map (field_of ms) (m_fields m))) by (unfold schema_of; rewrite nth_error_map, Hm; reflexivity). rewrite Es.
  destruct (getFields go_decodeLUT (map (field_of ms) (m_fields m)) 0) as [((ia, ib), ic)|] eqn:Eg; [|exact I].
  destruct (groups_rel ms go_decodeLUT (m_fields m) (m_fields m) 0 (fun j fd H => H) ia ib ic Eg) as (G1 & G2 & G3 & G4 & G5 & G6).
  set (g := get_fields go_decodeLUT (m_fields m)) in *.
  set (rest := fun ys s2 => exists vs2 fp2, nth_error (heap s2) a = Some (OStruct (combine (map goname (m_fields m)) vs2)) /\ reps ms (heap s2) (m_fields m) ys vs2 fp2 /\ NoDup (a :: fp2) /\ only_at (heap s) (heap s2) (a :: fp) (a :: fp2)).
  (* the end of the function *)
  assert (Fin : forall l s1 (t : run (list gval)), runs (SEQ l s1) t s1 rest -> out s1 = out s -> made s1 = made s ->
     returns (let? (g0, s2) := SEQ (l ++ [Return [NilLit]]) s1 in Fine (match g0 with Ret vs => vs | Next => [] end, set_env s2 (env s))) t s
       (fun xs' s' => exists fp', struct_at ms (heap s') a m xs' fp' /\ only_at (heap s) (heap s') (a :: fp) (a :: fp') /\ env s' = env s)).
  { intros l s1 t H O1 M1. unfold runs, returns, agrees in *. rewrite seq_app. destruct t as (mk & [r1 y|e1 y| | |]); cbn [snd fst] in *; try (rewrite H; reflexivity); [| |exact I].
    - destruct H as (s2 & -> & Ei & (vs2 & fp2 & K2 & K3 & K4 & K5) & M2 & O2). cbn [ebind]. rewrite seq_one. cbn [exec eval ebind].
      eexists. split; [reflexivity|]. cbn [inp set_env out made heap env]. split; [exact Ei|]. split; [|split; congruence]. exists fp2. split; [exists vs2; auto|auto].
    - destruct H as (s2 & -> & (vs2 & fp2 & K2 & K3 & K4 & K5) & M2 & O2). cbn [ebind].
      eexists. split; [reflexivity|]. cbn [inp set_env out made heap env]. split; [|split; congruence]. exists fp2. split; [exists vs2; auto|auto]. }
  assert (Lt : m_fields m = [] \/ forall rest' s2, SEQ ((match m_fields m with [] => [] | _ :: _ => [Let n_err (text "error")] end) ++ rest') s2 = SEQ rest' (set_env s2 ((n_err, GoError None) :: env s2))).
  { destruct (m_fields m); [left; reflexivity|right]. intros rest' s2. cbn [app]. rewrite (seq_let v2 f room prim callee n_err (text "error") (GoError None)) by first [reflexivity|ne]. reflexivity. }
  destruct Lt as [Ef|Lt].
  { (* no fields *)
    subst g. clear G1 G2 G3 G4 G5 G6. rewrite Ef in *. cbn in Eg. injection Eg as <- <- <-. cbn [get_fields g_values g_slices g_messages flat_map app t_pass tbind ret].
    inversion R; subst xs vs fp; clear R. unfold returns, agrees. rewrite seq_one. cbn [exec eval ebind snd fst ret].
    eexists. split; [reflexivity|]. cbn [inp set_env set_inp out made heap env s0]. rewrite app_nil_r. split; [reflexivity|]. split; [|auto].
    exists []. split; [|split; [apply only_refl|reflexivity]]. exists []. rewrite Ef. split; [exact Ha|]. split; [constructor|exact N]. }
  rewrite Lt. clear Lt.
  set (s1 := set_env _ _).
  assert (Sat1 : sat v2 f m a (heap s) fp false xs s1).
  { exists vs, fp. split; [apply scope_first|]. split; [exact Ha|]. split; [exact R|]. split; [exact N|apply only_refl]. }
  (* the three passes *)
  assert (F1 : forall fd, In fd (g_values g) -> field_ok v2 f room prim callee m a false (decode_other v2) (t_other v2 prim) fd).
  { intros fd Hi fs x v q s2 Sc Hs Hf Rx Nq. destruct (G4 fd Hi) as (Hin & Hmany & Hl).
    destruct (shape_of v2 f m fd NA CO HM Hin) as [k B1 B2 B3 B4 B5|t kk B1 B2 B3 B4 B5 B6 B7|es B1 B2 B3 B4|kt vt qk k1 k2 B1 B2 B3 B4 B5 B6 B7 B8 B9 B10 B11].
    - exact (other_ok v2 f room prim callee SP NA false _ a fs fd m x v q s2 k HM Hin B1 B2 B3 B4 B5 Sc Hs Hf Rx).
    - rewrite B1, B2 in Hmany. discriminate Hmany.
    - exfalso. apply Hl. rewrite B2. reflexivity.
    - exfalso. apply Hl. rewrite B2. reflexivity. }
  assert (F2 : forall fd, In fd (g_slices g) -> field_ok v2 f room prim callee m a true decode_slice (t_slice room v2 prim Sch n (t_decode room v2 prim Sch n)) fd).
  { intros fd Hi fs x v q s2 Sc Hs Hf Rx Nq. destruct (G5 fd Hi) as (Hin & Hmany & Hmap).
    destruct (shape_of v2 f m fd NA CO HM Hin) as [k B1 B2 B3 B4 B5|t kk B1 B2 B3 B4 B5 B6 B7|es B1 B2 B3 B4|kt vt qk k1 k2 B1 B2 B3 B4 B5 B6 B7 B8 B9 B10 B11]; try congruence.
    - rewrite B5. exact (slice_ok v2 f room prim callee n SP NA NEW DEC _ a fs fd t x v q s2 kk B1 B2 B3 B4 B6 B7 Sc Hs Hf Rx Nq).
    - unfold is_map in Hmap. rewrite B2 in Hmap. discriminate Hmap. }
  assert (F3 : forall sl fd, In fd (g_messages g) -> field_ok v2 f room prim callee m a sl (decode_message v2) (t_message v2 prim Sch n (t_decode room v2 prim Sch n)) fd).
  { intros sl fd Hi fs x v q s2 Sc Hs Hf Rx Nq. destruct (G6 fd Hi) as (Hin & Hmany & Hk).
    destruct (shape_of v2 f m fd NA CO HM Hin) as [k B1 B2 B3 B4 B5|t kk B1 B2 B3 B4 B5 B6 B7|es B1 B2 B3 B4|kt vt qk k1 k2 B1 B2 B3 B4 B5 B6 B7 B8 B9 B10 B11].
    - exfalso. destruct (f_typ fd); cbn in B2, Hk; try discriminate; congruence.
    - rewrite B1, B2 in Hmany. discriminate Hmany.
    - rewrite B4. exact (message_ok v2 f room prim callee n NA NEW DEC sl _ a fs fd q s2 es x v B1 B2 B3 Sc Hs Hf Rx Nq).
    - rewrite B11. destruct (MAPS m fd kt vt HM Hin B2) as (MN & MD).
      exact (mapfield_ok v2 f room prim callee n SP NA sl _ a fs fd q s2 kt vt B2 MN MD m k1 k2 x v HM Hin B8 B9 B10 Sc Hs Hf Rx Nq). }
  pose proof (pass_ok v2 f room prim callee NA m a (heap s) fp HM false (decode_other v2) (t_other v2 prim) (g_values g) ia G1 F1 xs s1 Sat1) as P1.
  change (inp s1) with r in P1.
  assert (Tail : forall sl s2 ys, sat v2 f m a (heap s) fp sl ys s2 -> (g_slices g <> [] -> sl = true) ->
     runs (SEQ (flat_map decode_slice (g_slices g) ++ flat_map (decode_message v2) (g_messages g)) s2)
       (tbind (t_pass (t_slice room v2 prim Sch n (t_decode room v2 prim Sch n)) (map (field_of ms) (m_fields m)) ib ys (inp s2)) (fun x => x) (fun b x => t_pass (t_message v2 prim Sch n (t_decode room v2 prim Sch n)) (map (field_of ms) (m_fields m)) ic x b)) s2
       (sat v2 f m a (heap s) fp sl)).
  { intros sl s2 ys Hs Hsl. apply (runs_seq P room prim callee _ _ _ _ _ s2 (sat v2 f m a (heap s) fp sl)); [| |intros x s'; exact (fun H => H)].
    - destruct (g_slices g) as [|sd sds] eqn:Egs.
      + inversion G2; subst ib. cbn [flat_map t_pass seq]. eapply runs_done; try reflexivity. exact Hs.
      + rewrite (Hsl ltac:(discriminate)) in Hs |- *. rewrite <- Egs in *. exact (pass_ok v2 f room prim callee NA m a (heap s) fp HM true _ _ _ ib G2 F2 ys s2 Hs).
    - intros s3 zs _ Hz _. apply (pass_ok v2 f room prim callee NA m a (heap s) fp HM sl); [exact G3|apply F3|exact Hz]. }
  assert (Al : forall l1 l2 l3 : list stmt, forall l4 l5, l1 ++ l2 ++ l3 ++ l4 ++ l5 = (l1 ++ l2 ++ l3 ++ l4) ++ l5) by (intros; rewrite <- !app_assoc; reflexivity).
  rewrite Al. apply (Fin _ s1); [|reflexivity|reflexivity].
  assert (Weak : forall sl ys s2, sat v2 f m a (heap s) fp sl ys s2 -> rest ys s2) by (intros sl ys s2 (vs2 & fp2 & _ & K); exists vs2, fp2; exact K).
  eapply runs_seq; [exact P1| |intros ys s2; apply Weak].
  intros s2 ys _ Hs _. rewrite seq_app. destruct (g_slices g) as [|sd sds] eqn:Egs.
  - cbn [seq ebind]. eapply runs_weaken; [|intros zs s3; apply (Weak false)]. apply Tail; [exact Hs|congruence].
  - rewrite <- Egs in *. rewrite (seq_let v2 f room prim callee n_slice n_u32 (GoBase (VU32 0))) by first [reflexivity|ne]. cbn [seq ebind]. set (s3 := set_env _ _).
    apply (runs_from _ _ s2 s3); [|reflexivity|reflexivity]. eapply runs_weaken; [|intros zs s4; apply (Weak true)]. apply (Tail true s3); [|reflexivity].
    destruct Hs as (vs2 & fp2 & K1 & K). exists vs2, fp2. split; [apply scope_slice, K1|exact K].
Qed.
End Func.
