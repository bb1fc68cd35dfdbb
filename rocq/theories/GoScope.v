(** The variables of a decode function, and its fields that are no slices, messages or maps. *)
From Coq Require Import String.
From Verif Require Import Base Spec GenTables GenModel GenTrace NameModel NameSpec EmitModel EmitSpec EmitThms PkgThms GoAst GoEmit GoRunSpec GoLink GoFrame GoExec.

Ltac ne := let E := fresh in intros E; vm_compute in E; discriminate E.

(** what the library's decoder returns *)
Record sound_prim (prim : option bytes -> request -> bytes -> outcome) : Prop := {
  sp_type : forall dst q b r v, prim dst q b = Done r v -> want v = q;
  sp_size : forall dst k b r n k', prim dst (RSlice k) b = Done r (VSlice n k') -> 0 <= n < 2 ^ 32
}.

Lemma scalar_none k : scalar_type k = None -> k = KMessage \/ k = KGroup.
Proof. destruct k; try discriminate; auto. Qed.
Lemma dec_call_is prim k q dst b : scalar_type k = Some q ->
  dec_call prim dst k b = match prim dst q b with Done r v => GDone r v | Fail _ e => GErr e | Crash => GPanic end.
Proof. destruct k; intros E; inversion E; reflexivity. Qed.
Lemma dec_method prim k q s : scalar_type k = Some q -> k <> KBytes -> decoder_method prim (entry (go_decodeLUT k)) [] s = lib_decode prim q None s.
Proof. destruct k; intros E N; inversion E; try reflexivity. congruence. Qed.
Lemma zero_want q : want (zero_prim q) = q.
Proof. destruct q; reflexivity. Qed.
Lemma lib_is prim k q dst s : sound_prim prim -> scalar_type k = Some q ->
  lib_decode prim q dst s = match prim dst q (inp s) with
                            | Done r v => Fine ([GoBase v; GoError None], set_inp s r)
                            | Fail r e => Fine ([GoBase (zero_prim q); GoError (Some e)], set_inp s r)
                            | Crash => Panics
                            end.
Proof.
  intros SP E. unfold lib_decode. destruct (prim dst q (inp s)) as [r v|r e|] eqn:Ep; [|destruct k; inversion E; reflexivity|reflexivity].
  apply (sp_type _ SP) in Ep. destruct v; try reflexivity; cbn [want] in Ep; subst q; destruct k; discriminate E.
Qed.

Section Scope.
Variables (v2 : bool) (f : filed).
Notation names := (go_names (go_file v2 f)).
Record scope (sl : bool) (T : bytes) (a : nat) (E : list (bytes * gov)) : Prop := {
  sc_x : find_name n_x E = Some (GoPtr T (Some a));
  sc_d : find_name n_d E = Some GoDecoder;
  sc_err : exists o, find_name n_err E = Some (GoError o);
  sc_slice : sl = true -> exists z, find_name n_slice E = Some (GoBase (VU32 z));
  sc_names : forall n, In n names -> find_name n E = None;
  sc_u32 : find_name n_u32 E = None;
  sc_len : find_name n_len E = None
}.
Lemma lower_name n c t : n = c :: t -> is_lower c = true -> forall k, In k names -> k <> n.
Proof. intros E L k Hk ->. exact (names_lower v2 f n c t E L Hk). Qed.
Lemma scope_err sl T a E o : scope sl T a E -> scope sl T a (set_name n_err (GoError o) E).
Proof.
  intros [Hx Hd (o0 & He) Hs Hn Hu Hl]. constructor.
  - rewrite find_set_other by ne. exact Hx.
  - rewrite find_set_other by ne. exact Hd.
  - exists o. exact (find_set_same _ _ _ _ He).
  - intros K. destruct (Hs K) as (z & Hz). exists z. rewrite find_set_other by ne. exact Hz.
  - intros n H. apply find_set_none, Hn, H.
  - apply find_set_none, Hu.
  - apply find_set_none, Hl.
Qed.
Lemma scope_size sl T a E z : sl = true -> scope sl T a E -> scope sl T a (set_name n_slice (GoBase (VU32 z)) E).
Proof.
  intros K [Hx Hd (o0 & He) Hs Hn Hu Hl]. constructor.
  - rewrite find_set_other by ne. exact Hx.
  - rewrite find_set_other by ne. exact Hd.
  - exists o0. rewrite find_set_other by ne. exact He.
  - intros _. destruct (Hs K) as (z0 & Hz). exists z. exact (find_set_same _ _ _ _ Hz).
  - intros n H. apply find_set_none, Hn, H.
  - apply find_set_none, Hu.
  - apply find_set_none, Hl.
Qed.
(** a further variable *)
Lemma scope_cons sl T a E n v : n <> n_x -> n <> n_d -> n <> n_err -> n <> n_slice -> ~ In n names -> n <> n_u32 -> n <> n_len ->
  scope sl T a E -> scope sl T a ((n, v) :: E).
Proof.
  intros N1 N2 N3 N4 N5 N6 N7 [Hx Hd (o0 & He) Hs Hn Hu Hl].
  assert (K : forall k, k <> n -> find_name k ((n, v) :: E) = find_name k E) by (intros k H; cbn [find_name]; rewrite same_false by exact H; reflexivity).
  constructor; try (rewrite K by congruence; assumption).
  - exists o0. rewrite K by congruence. exact He.
  - intros k Hk. rewrite K; [auto|]. intros ->. contradiction.
Qed.
Lemma no_lower_ne n m c t : no_lower n -> m = c :: t -> is_lower c = true -> n <> m.
Proof. intros H -> L ->. rewrite (H c t eq_refl) in L. discriminate L. Qed.
Lemma scope_upper sl T a E n v : no_lower n -> ~ In n names -> scope sl T a E -> scope sl T a ((n, v) :: E).
Proof.
  intros L N H. apply scope_cons; try assumption; eapply no_lower_ne; try exact L; reflexivity.
Qed.
Lemma scope_i sl T a E v : scope sl T a E -> scope sl T a ((n_i, v) :: E).
Proof. intros H. apply scope_cons; try ne; [|exact H]. exact (names_lower v2 f n_i 105 [] eq_refl eq_refl). Qed.
Lemma temp_no_lower s : no_lower (camel s ++ text "Temp").
Proof.
  intros c t E. pose proof (camel_no_lower s) as H. destruct (camel s) as [|d u]; cbn [app] in E; injection E as <- _; [reflexivity|exact (H d u eq_refl)].
Qed.
Lemma size_no_lower s : no_lower (camel s ++ text "Size").
Proof.
  intros c t E. pose proof (camel_no_lower s) as H. destruct (camel s) as [|d u]; cbn [app] in E; injection E as <- _; [reflexivity|exact (H d u eq_refl)].
Qed.

Variables (room : Z -> bool) (prim : option bytes -> request -> bytes -> outcome).
Variable callee : option bytes -> bytes -> list gov -> st -> ex (list gov * st).
Hypothesis SP : sound_prim prim.
Hypothesis NA : names_apart v2 f.
Notation P := (go_program v2 f).
Notation ms := (messages_of f).
Notation EV := (eval P room prim callee).
Notation EX := (exec P room prim callee).
Notation SEQ := (seq (exec P room prim callee)).

(** what a field's statements leave behind *)
Definition fok (sl : bool) (T : bytes) (a : nat) (fs : list (bytes * gov)) (fd : fieldd) (fp : list nat) (s : st) (x : gval) (s' : st) : Prop :=
  exists v fp', scope sl T a (env s') /\ nth_error (heap s') a = Some (OStruct (set_name (goname fd) v fs)) /\
    rep ms (heap s') fd x v fp' /\ NoDup (a :: fp') /\ only_at (heap s) (heap s') (a :: fp) (a :: fp').

Lemma fok_prim sl T a fs fd old w s s' : scope sl T a (env s') -> nth_error (heap s) a = Some (OStruct fs) -> find_name (goname fd) fs = Some old ->
  heap s' = set_at a (OStruct (set_name (goname fd) (GoBase w) fs)) (heap s) ->
  f_many fd = false -> scalar_type (kind_of (f_typ fd)) = Some (want w) -> fok sl T a fs fd [] s (GPrim w) s'.
Proof.
  intros Sc Ha Hf Hh M K. exists (GoBase w), []. split; [exact Sc|]. rewrite Hh. split; [exact (nth_set_at_same _ _ _ _ Ha)|]. split; [constructor; assumption|].
  split; [constructor; [intros []|constructor]|]. eapply only_weaken; [|intros c Hc; exact Hc].
  split; [rewrite set_at_length; lia|]. split; [|auto]. intros c _ Hn. apply nth_set_at_other. intros ->. apply Hn. left. reflexivity.
Qed.

(** decode.templ 24-39: x.F, err = d.M(...); if err != nil { return err } *)
Lemma assign_ok sl T a fs fd old s e w o s1 : find_name n_x (env s1) = Some (GoPtr T (Some a)) -> (exists o, find_name n_err (env s1) = Some (GoError o)) ->
  nth_error (heap s1) a = Some (OStruct fs) -> find_name (goname fd) fs = Some (GoBase old) -> want old = want w ->
  EV e s = Fine ([GoBase w; GoError o], s1) -> scope sl T a (env s1) ->
  exists s', SEQ [Assign [my fd; Var n_err] e; check] s = Fine (match o with None => Next | Some e => Ret [GoError (Some e)] end, s') /\
    scope sl T a (env s') /\ heap s' = set_at a (OStruct (set_name (goname fd) (GoBase w) fs)) (heap s1) /\ inp s' = inp s1 /\ out s' = out s1 /\ made s' = made s1.
Proof.
  intros Hx (o0 & He) Ha Hf Hw E Sc.
  set (s2 := set_heap s1 (set_at a (OStruct (set_name (goname fd) (GoBase w) fs)) (heap s1))).
  exists (set_env s2 (set_name n_err (GoError o) (env s2))). split.
  - rewrite seq_cons. cbn [exec]. rewrite E. cbn [ebind stores]. rewrite (store_my P room prim callee T a fs fd s1 (GoBase old) (GoBase w) (GoBase w) Hx Ha Hf (fit_base _ _ Hw)).
    cbn [ebind]. fold s2. rewrite (store_var P room prim callee n_err s2 (GoError o0) (GoError o) (GoError o) He (fit_err _ _)). cbn [ebind]. rewrite seq_one.
    rewrite (exec_check P room prim callee _ o); [destruct o; reflexivity|]. cbn [env set_env]. exact (find_set_same _ _ _ _ He).
  - cbn [env heap inp out made set_env set_heap s2]. split; [apply scope_err, Sc|]. auto.
Qed.

Lemma kind_bytes k : is_kind k KBytes = true <-> k = KBytes.
Proof. destruct k; cbn; split; congruence. Qed.
Lemma kind_enum k : is_kind k KEnum = true <-> k = KEnum.
Proof. destruct k; cbn; split; congruence. Qed.
Lemma kind_message k : is_kind k KMessage = true <-> k = KMessage.
Proof. destruct k; cbn; split; congruence. Qed.
Lemma scalar_kind_of ms' t k : ftype_of ms' t = Scalar k -> kind_of t = k \/ k = KGroup.
Proof. destruct t; cbn; intros E; inversion E; auto. Qed.

Lemma runs_fail {A} (o : ex (signal * st)) e (x : A) s s' (ok : A -> st -> Prop) : o = Fine (Ret [GoError (Some e)], s') -> ok x s' -> made s' = made s -> out s' = out s -> runs o (ret (TErr e x)) s ok.
Proof. intros -> H M O. exists s'. cbn [fst ret]. rewrite app_nil_r. auto. Qed.
Lemma runs_done {A} (o : ex (signal * st)) r (x : A) s s' (ok : A -> st -> Prop) : o = Fine (Next, s') -> inp s' = r -> ok x s' -> made s' = made s -> out s' = out s -> runs o (ret (TDone r x)) s ok.
Proof. intros -> E H M O. exists s'. cbn [fst ret]. rewrite app_nil_r. auto. Qed.

(** the field's declared type *)
Lemma field_one fd k : f_many fd = false -> ftype_of ms (f_typ fd) = Scalar k -> k <> KGroup -> field_of ms fd = One (Scalar k) /\ kind_of (f_typ fd) = k.
Proof.
  intros M E N. unfold field_of. destruct (f_typ fd) as [k'|s|s|a b] eqn:Et; cbn [ftype_of] in E; try discriminate E; try rewrite M; cbn [ftype_of kind_of].
  - injection E as <-. auto.
  - injection E as <-. auto.
  - injection E as <-. congruence.
Qed.

(** an enum of the file as a conversion *)
Lemma enum_type s : known_type f (TEnum s) -> In (camel s) names /\ find_type P (camel s) = Some TyEnum.
Proof.
  intros (e & He & <-).
  assert (K : In (DType (camel (e_full e)) TyEnum) P) by (apply (in_P_enum v2 f e); [exact He|left; reflexivity]). split.
  - rewrite <- program_names. apply in_flat_map. exists (DType (camel (e_full e)) TyEnum). split; [exact K|left; reflexivity].
  - apply find_type_in; [exact (na_once _ _ NA)|exact K].
Qed.
Lemma convert_enum s e z st0 : known_type f (TEnum s) -> find_name (camel s) (env st0) = None -> EV e st0 = Fine ([GoBase (VU32 z)], st0) ->
  EV (App (camel s) [e]) st0 = Fine ([GoBase (VU32 z)], st0).
Proof.
  intros K N E. destruct (enum_type s K) as (Hn & Ht). cbn [eval each]. unfold one. rewrite E. cbn [ebind]. unfold apply. rewrite N.
  rewrite (same_false (camel s) (text "len")) by (apply (no_lower_ne _ _ 108 (text "en")); [apply camel_no_lower|reflexivity|reflexivity]).
  rewrite (same_false (camel s) (text "uint32")) by (apply (no_lower_ne _ _ 117 (text "int32")); [apply camel_no_lower|reflexivity|reflexivity]).
  rewrite Ht. reflexivity.
Qed.

Theorem other_ok sl T a fs fd m x v fp s k : has_message f m -> In fd (m_fields m) ->
  f_many fd = false -> ftype_of ms (f_typ fd) = Scalar k -> k <> KGroup -> k <> KMessage -> known_type f (f_typ fd) ->
  scope sl T a (env s) -> nth_error (heap s) a = Some (OStruct fs) -> find_name (goname fd) fs = Some v -> rep ms (heap s) fd x v fp ->
  runs (SEQ (decode_other v2 fd) s) (t_other v2 prim (field_of ms fd) x (inp s)) s (fok sl T a fs fd fp s).
Proof.
  intros Hm Hfd M Et NG NM Kn Sc Ha Hf R. destruct (field_one fd k M Et NG) as (Ef & Ek).
  destruct (scalar_type k) as [q|] eqn:Eq; [|apply scalar_none in Eq; tauto].
  assert (exists old, x = GPrim old /\ v = GoBase old /\ fp = [] /\ want old = q) as (old & -> & -> & -> & Ew).
  { destruct R as [fd v0 K1 K2|fd s0 K1 K2|fd s0 m0 xs vs a0 fp K1 K2 K3 K4 K5|fd K1 K2|fd xs vs a0 fp K1 K2 K3 K4 K5|fd k0 v0 K1|fd k0 v0 l vs a0 fp K1 K2 K3];
      try (rewrite K1 in M; discriminate M); try (rewrite K2 in Et; discriminate Et); try (rewrite K1 in Et; injection Et as <-; congruence).
    exists v0. rewrite Ek, Eq in K2. injection K2 as <-. auto. }
  pose proof Sc as Sc'. destruct Sc' as [Hx Hd (o0 & He) Hs Hn Hu Hl].
  assert (J : forall dst e s1,
     match prim dst q (inp s) with
     | Done r v => EV e s1 = Fine ([GoBase v; GoError None], set_inp s r)
     | Fail r er => EV e s1 = Fine ([GoBase (zero_prim q); GoError (Some er)], set_inp s r)
     | Crash => EV e s1 = Panics
     end ->
     runs (SEQ [Assign [my fd; Var n_err] e; check] s1)
       (plain (gbind (dec_call prim dst k (inp s)) (fun r v => GDone r (GPrim v))) (GPrim (zero_prim q)) (fun r x => ret (TDone r x))) s (fok sl T a fs fd [] s)).
  { intros dst e s1 E. rewrite (dec_call_is prim k q dst _ Eq). destruct (prim dst q (inp s)) as [r v|r er|] eqn:Ep; cbn [gbind plain].
    - pose proof (sp_type _ SP _ _ _ _ _ Ep) as Wv.
      destruct (assign_ok sl T a fs fd old s1 e v None (set_inp s r)) as (s' & E1 & Sc1 & Hh & Ei & Eo & Em); try eassumption; [eauto|congruence|].
      apply (runs_done _ _ _ _ s'); [exact E1|exact Ei| |exact Em|exact Eo]. apply (fok_prim sl T a fs fd (GoBase old)); auto. rewrite Ek, Eq. congruence.
    - destruct (assign_ok sl T a fs fd old s1 e (zero_prim q) (Some er) (set_inp s r)) as (s' & E1 & Sc1 & Hh & Ei & Eo & Em); try eassumption; [eauto|rewrite zero_want; exact Ew|].
      apply (runs_fail _ _ _ _ s'); [exact E1| |exact Em|exact Eo]. apply (fok_prim sl T a fs fd (GoBase old)); auto. rewrite Ek, Eq, zero_want. reflexivity.
    - unfold runs, agrees. cbn [snd ret]. rewrite seq_cons. cbn [exec]. rewrite E. reflexivity. }
  unfold t_other. rewrite Ef. cbn [dec_other zero]. rewrite Eq. unfold decode_other. rewrite Ek.
  destruct (is_kind k KBytes) eqn:Kb; [|destruct (is_kind k KEnum) eqn:Ke].
  - apply kind_bytes in Kb. clear Ek. subst k. cbn in Eq. injection Eq as <-. assert (exists p, old = VBytes p) as (p & ->) by (destruct old; try discriminate Ew; eauto).
    assert (G : forall b : bool, EV (Met (Var n_d) (entry (go_decodeLUT KBytes)) [if b then my fd else NilLit]) s = lib_decode prim RBytes (if b then Some p else None) s).
    { intros [].
      - rewrite (eval_dec1 P room prim callee _ (my fd) (GoBase (VBytes p)) s Hd); [reflexivity|exact (eval_my P room prim callee T a fs fd s _ Hx Ha Hf)].
      - rewrite (eval_dec1 P room prim callee _ NilLit GoNil s Hd); reflexivity. }
    cbn [app]. apply J. rewrite G. change (if v2 then match GPrim (VBytes p) with GPrim (VBytes p) => Some p | _ => None end else None) with (if v2 then Some p else None).
    rewrite (lib_is prim KBytes RBytes _ s SP eq_refl). destruct (prim (if v2 then Some p else None) RBytes (inp s)); reflexivity.
  - apply kind_enum in Ke. clear Ek. subst k. cbn in Eq. injection Eq as <-.
    assert (exists es, f_typ fd = TEnum es) as (es & Ees).
    { destruct (f_typ fd) as [k'|es|es|? ?] eqn:Ety; cbn [ftype_of] in Et; try discriminate Et; [|eauto]. injection Et as ->. destruct Kn as (Kn & _). congruence. }
    rewrite Ees in Kn. assert (Etx : type_text fd = camel es) by (unfold type_text, FindValue; rewrite Ees, M, camel_ok; reflexivity).
    assert (Nt : ~ In (temp fd) names) by (apply (na_temps _ _ NA m fd Hm Hfd); [exists es; exact Ees|exact M]).
    assert (Lt : no_lower (temp fd)) by apply temp_no_lower.
    assert (Sc0 : scope sl T a ((temp fd, GoBase (VU32 0)) :: env s)) by (apply scope_upper; assumption).
    set (s0 := set_env s ((temp fd, GoBase (VU32 0)) :: env s)).
    assert (E0 : forall rest, SEQ (Let (temp fd) n_u32 :: rest) s = SEQ rest s0).
    { intros rest. rewrite seq_cons. cbn [exec]. replace (zero_of P s n_u32) with (Some (GoBase (VU32 0))) by reflexivity. cbn [need ebind declare].
      rewrite (same_false (temp fd) (text "_")); [reflexivity|]. unfold temp, goname. intros E. apply (f_equal (@length Z)) in E. rewrite app_length in E. cbn [length text map list_ascii_of_string] in E. lia. }
    cbn [app]. rewrite E0.
    assert (Tf : forall w, find_name (temp fd) ((temp fd, w) :: env s) = Some w) by (intros w; cbn [find_name]; rewrite same_refl; reflexivity).
    assert (Old : exists z, old = VU32 z) by (destruct old; try discriminate Ew; eauto). destruct Old as (zo & ->).
    (* the three statements, given what the decoder returned *)
    assert (B : forall z o r, lib_decode prim RU32 None s = Fine ([GoBase (VU32 z); GoError o], set_inp s r) ->
       exists s', SEQ [Assign [Var (temp fd); Var n_err] (Met (Var n_d) (entry (go_decodeLUT KEnum)) []); Assign [my fd] (App (type_text fd) [Var (temp fd)]); check] s0 =
         Fine (match o with None => Next | Some e => Ret [GoError (Some e)] end, s') /\ scope sl T a (env s') /\
         heap s' = set_at a (OStruct (set_name (goname fd) (GoBase (VU32 z)) fs)) (heap s) /\ inp s' = r /\ out s' = out s /\ made s' = made s).
    { intros z o r El.
      set (e1 := (temp fd, GoBase (VU32 z)) :: env s).
      set (s1 := set_env (set_inp s r) (set_name n_err (GoError o) e1)).
      assert (Sc1 : scope sl T a (env s1)) by (apply scope_err; apply scope_upper; assumption).
      assert (Ht : find_name (temp fd) (env s1) = Some (GoBase (VU32 z))).
      { cbn [env s1 set_env]. rewrite find_set_other; [apply Tf|]. apply (no_lower_ne _ _ 101 (text "rr")); [exact Lt|reflexivity|reflexivity]. }
      assert (A1 : EX (Assign [Var (temp fd); Var n_err] (Met (Var n_d) (entry (go_decodeLUT KEnum)) [])) s0 = Fine (Next, s1)).
      { cbn [exec]. rewrite (eval_dec P room prim callee _ s0 (sc_d _ _ _ _ Sc0)). rewrite (dec_method prim KEnum RU32 s0 eq_refl) by discriminate.
        assert (El' : lib_decode prim RU32 None s0 = Fine ([GoBase (VU32 z); GoError o], set_inp s0 r)).
        { clear -El. unfold lib_decode in *. cbn [s0 set_env inp] in *. destruct (prim None RU32 (inp s)) as [r' v|r' e|]; [| |discriminate El]; injection El as E1 E2 E3; rewrite <- E2, E3; first [rewrite E1; reflexivity|rewrite <- E1; reflexivity]. }
        rewrite El'. cbn [ebind stores]. rewrite (store_var P room prim callee (temp fd) (set_inp s0 r) (GoBase (VU32 0)) (GoBase (VU32 z)) (GoBase (VU32 z)) (Tf _) (fit_base (VU32 0) (VU32 z) eq_refl)).
        cbn [ebind]. cbn [env set_inp s0 set_env set_name]. rewrite same_refl. fold e1.
        assert (He1 : find_name n_err e1 = Some (GoError o0)).
        { cbn [e1 find_name]. rewrite same_false; [exact He|]. intros E. symmetry in E. revert E. apply (no_lower_ne _ _ 101 (text "rr")); [exact Lt|reflexivity|reflexivity]. }
        rewrite (store_var P room prim callee n_err _ (GoError o0) (GoError o) (GoError o)); [reflexivity|exact He1|reflexivity]. }
      assert (A2 : EX (Assign [my fd] (App (type_text fd) [Var (temp fd)])) s1 = Fine (Next, set_heap s1 (set_at a (OStruct (set_name (goname fd) (GoBase (VU32 z)) fs)) (heap s)))).
      { cbn [exec]. rewrite Etx. rewrite (convert_enum es (Var (temp fd)) z s1 Kn); [|apply (sc_names _ _ _ _ Sc1), (enum_type es Kn)|apply eval_var, Ht].
        cbn [ebind stores]. rewrite (store_my P room prim callee T a fs fd s1 (GoBase (VU32 zo)) (GoBase (VU32 z)) (GoBase (VU32 z))); [reflexivity|apply (sc_x _ _ _ _ Sc1)|exact Ha|exact Hf|apply fit_base; reflexivity]. }
      eexists. split; [|split; [|split; [|split; [|split]]]].
      - rewrite seq_cons, A1. cbn [ebind]. rewrite seq_cons, A2. cbn [ebind]. rewrite seq_one. rewrite (exec_check P room prim callee _ o); [destruct o; reflexivity|].
        cbn [env set_heap s1 set_env]. eapply find_set_same. cbn [e1 find_name]. rewrite same_false; [exact He|]. intros E. symmetry in E. revert E. apply (no_lower_ne _ _ 101 (text "rr")); [exact Lt|reflexivity|reflexivity].
      - exact Sc1.
      - reflexivity.
      - reflexivity.
      - reflexivity.
      - reflexivity. }
    pose proof (lib_is prim KEnum RU32 None s SP eq_refl) as Li. rewrite (dec_call_is prim KEnum RU32 _ _ eq_refl).
    replace (if v2 then match GPrim (VU32 zo) with GPrim (VBytes p) => Some p | _ => None end else None) with (@None bytes) by (clear; destruct v2; reflexivity).
    destruct (prim None RU32 (inp s)) as [r v|r er|] eqn:Ep; cbn [gbind plain].
    + pose proof (sp_type _ SP _ _ _ _ _ Ep) as Wv. assert (exists z, v = VU32 z) as (z & ->) by (destruct v; try discriminate Wv; eauto).
      destruct (B z None r Li) as (s' & E1 & Sc1 & Hh & Ei & Eo & Em). apply (runs_done _ _ _ _ s'); [exact E1|exact Ei| |exact Em|exact Eo].
      apply (fok_prim sl T a fs fd (GoBase (VU32 zo))); auto. rewrite Ees. reflexivity.
    + destruct (B 0 (Some er) r Li) as (s' & E1 & Sc1 & Hh & Ei & Eo & Em). apply (runs_fail _ _ _ _ s'); [exact E1| |exact Em|exact Eo].
      apply (fok_prim sl T a fs fd (GoBase (VU32 zo))); auto. rewrite Ees. reflexivity.
    + unfold runs, agrees. cbn [snd ret]. rewrite seq_cons. cbn [exec]. rewrite (eval_dec P room prim callee _ s0 (sc_d _ _ _ _ Sc0)), (dec_method prim KEnum RU32 s0 eq_refl) by discriminate.
      unfold lib_decode. cbn [s0 set_env inp]. rewrite Ep. reflexivity.
  - replace (if v2 then match GPrim old with GPrim (VBytes p) => Some p | _ => None end else None) with (@None bytes).
    2:{ destruct v2 at 1; [|reflexivity]. destruct old; try reflexivity. cbn [want] in Ew. subst q. destruct k; try discriminate Eq. cbn in Kb. discriminate Kb. }
    cbn [app]. apply J. rewrite (eval_dec P room prim callee _ s Hd). rewrite (dec_method prim k q s Eq); [|intros ->; discriminate Kb].
    rewrite (lib_is prim k q None s SP Eq). destruct (prim None q (inp s)); reflexivity.
Qed.
End Scope.
