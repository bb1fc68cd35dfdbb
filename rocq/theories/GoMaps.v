(** The decode functions of map types: decodeMap.templ. *)
From Coq Require Import String.
From Verif Require Import Base Spec GenTables GenModel GenTrace NameModel NameSpec EmitModel EmitSpec EmitThms PkgThms GoAst GoEmit GoRunSpec GoLink GoFrame GoExec GoScope GoSlices GoMsgs.

(** x[k] = v *)
Lemma put_ok ms h fdv x v q k : rep ms h fdv x v q -> forall l vs fp, reps ms h (repeat fdv (length l)) (map snd l) vs fp ->
  exists vs' fp', put_key k v (combine (map fst l) vs) = combine (map fst (insert k x l)) vs' /\
    reps ms h (repeat fdv (length (insert k x l))) (map snd (insert k x l)) vs' fp' /\
    (forall c, In c fp' -> In c fp \/ In c q) /\ (NoDup fp -> NoDup q -> (forall c, In c q -> ~ In c fp) -> NoDup fp').
Proof.
  intros R. induction l as [|[k' y] l IH]; intros vs fp H; cbn [length repeat map fst snd] in H; inversion H; subst; clear H.
  - exists [v], (q ++ []). cbn [insert length repeat map combine put_key fst snd]. split; [reflexivity|]. split; [constructor; [exact R|constructor]|].
    rewrite app_nil_r. split; [auto|auto].
  - match goal with H1 : rep _ _ _ _ ?w ?f1, H2 : reps _ _ _ _ ?ws ?f2 |- _ => rename w into w1; rename ws into ws1; rename f1 into p1; rename f2 into p2; rename H1 into Hw; rename H2 into Hws end.
    cbn [insert map fst snd combine put_key]. destruct (value_eq_dec k k') as [<-|N].
    + exists (v :: ws1), (q ++ p2). cbn [insert length repeat map combine put_key fst snd]. split; [reflexivity|]. split; [constructor; assumption|]. split.
      * intros c Hc. rewrite in_app_iff in *. tauto.
      * intros Np Nq D. apply (nodup_mid [] p1 q p2); [exact Np|exact Nq|]. intros c Hc. right. intros K. cbn [app] in K. apply (D c Hc), in_or_app. right. exact K.
    + destruct (IH ws1 p2 Hws) as (vs' & fp' & E & R' & F & Nd). exists (w1 :: vs'), (p1 ++ fp'). cbn [length repeat map fst snd combine]. rewrite E. split; [reflexivity|]. split; [constructor; assumption|]. split.
      * intros c Hc. rewrite in_app_iff in *. destruct Hc as [Hc|Hc]; [tauto|]. destruct (F c Hc); tauto.
      * intros Np Nq D. assert (NoDup fp').
        { apply Nd; [exact (nodup_app_r _ _ Np)|exact Nq|]. intros c Hc K. apply (D c Hc), in_or_app. right. exact K. }
        pose proof (nodup_mid p1 p2 fp' []) as M. rewrite !app_nil_r in M. apply M; [exact Np|assumption|].
        intros c Hc. destruct (F c Hc) as [K|K]; [left; exact K|right]. intros K'. apply (D c K), in_or_app. left. exact K'.
Qed.

Section Maps.
Variables (v2 : bool) (f : filed) (room : Z -> bool) (prim : option bytes -> request -> bytes -> outcome).
Variable callee : option bytes -> bytes -> list gov -> st -> ex (list gov * st).
Variable n : nat.
Hypothesis SP : sound_prim prim.
Hypothesis NA : names_apart v2 f.
Notation names := (go_names (go_file v2 f)).
Notation P := (go_program v2 f).
Notation ms := (messages_of f).
Notation Sch := (schema_of f).
Notation EV := (eval P room prim callee).
Notation EX := (exec P room prim callee).
Notation SEQ := (seq (exec P room prim callee)).
Notation new_spec := (new_spec v2 f callee n).
Notation dec_spec := (dec_spec v2 f room prim callee n).
Hypothesis NEW : new_spec.
Hypothesis DEC : dec_spec.

Variables (m : msgd) (fd : fieldd) (kt vt : ftyp) (b : nat) (z : Z) (qk : request).
Hypothesis HM : has_message f m.
Hypothesis Hfd : In fd (m_fields m).
Hypothesis Etyp : f_typ fd = TMap kt vt.
Hypothesis KN : known_type f vt.
Hypothesis KK : key_kind (kind_of kt) = true.
Hypothesis QK : scalar_type (kind_of kt) = Some qk.
Hypothesis VK : match vt with TScalar k => k <> KGroup /\ k <> KBytes | TMap _ _ => False | _ => True end.
Notation fdv := (map_value fd vt).

Definition menv (o : option gerr) (tv : option Z) (vv : gov) (kk : value) : list (bytes * gov) :=
  (n_err, GoError o) :: (match tv with Some y => [(text "ValueTemp", GoBase (VU32 y))] | None => [] end) ++
  [(n_v, vv); (n_k, GoBase kk); (n_size, GoBase (VU32 z)); (n_d, GoDecoder); (n_x, GoMap (map_name fd) (Some b))].
Definition tv_ok (tv : option Z) : Prop := is_kind (kind_of vt) KEnum = match tv with Some _ => true | None => false end.
Definition like (v : gov) : Prop :=
  match vt with TMsg s => exists a, v = GoPtr (camel s) a | _ => exists w, v = GoBase w /\ scalar_type (kind_of vt) = Some (want w) end.
Lemma menv_x o tv vv kk : find_name n_x (menv o tv vv kk) = Some (GoMap (map_name fd) (Some b)).
Proof using Type. destruct tv; reflexivity. Qed.
Lemma menv_d o tv vv kk : find_name n_d (menv o tv vv kk) = Some GoDecoder.
Proof using Type. destruct tv; reflexivity. Qed.
Lemma menv_k o tv vv kk : find_name n_k (menv o tv vv kk) = Some (GoBase kk).
Proof using Type. destruct tv; reflexivity. Qed.
Lemma menv_v o tv vv kk : find_name n_v (menv o tv vv kk) = Some vv.
Proof using Type. destruct tv; reflexivity. Qed.
Lemma set_menv_err o tv vv kk o' : set_name n_err (GoError o') (menv o tv vv kk) = menv o' tv vv kk.
Proof using Type. reflexivity. Qed.
Lemma set_menv_k o tv vv kk k' : set_name n_k (GoBase k') (menv o tv vv kk) = menv o tv vv k'.
Proof using Type. destruct tv; reflexivity. Qed.
Lemma set_menv_v o tv vv kk v' : set_name n_v v' (menv o tv vv kk) = menv o tv v' kk.
Proof using Type. destruct tv; reflexivity. Qed.
Lemma menv_names o tv vv kk i : tv_ok tv -> forall k, In k names -> find_name k ((n_i, i) :: menv o tv vv kk) = None.
Proof.
  intros T k Hk.
  assert (L : forall c t, is_lower c = true -> k <> c :: t) by (intros c t Lc ->; exact (names_lower v2 f _ c t eq_refl Lc Hk)).
  assert (E : exists es, tv <> None -> vt = TEnum es).
  { unfold tv_ok in T. destruct tv as [y|]; [|exists []; congruence]. apply kind_enum in T. destruct vt as [k0|es|es|? ?]; try discriminate T; [|exists es; reflexivity].
    cbn in T. subst k0. destruct KN as (K & _). congruence. }
  destruct E as (es & E). unfold menv. cbn [find_name].
  rewrite (same_false k n_i) by (apply L; reflexivity). rewrite (same_false k n_err) by (apply L; reflexivity).
  assert (R : find_name k [(n_v, vv); (n_k, GoBase kk); (n_size, GoBase (VU32 z)); (n_d, GoDecoder); (n_x, GoMap (map_name fd) (Some b))] = None).
  { cbn [find_name]. rewrite !same_false by (apply L; reflexivity). reflexivity. }
  destruct tv as [y|]; [|exact R]. cbn [app find_name]. rewrite same_false; [exact R|]. intros ->.
  apply (na_value _ _ NA m fd kt es HM Hfd); [rewrite <- (E ltac:(discriminate)); exact Etyp|exact Hk].
Qed.

(** the key: decodeMap.templ 17-30 *)
Lemma key_ok s i o tv vv kk : env s = (n_i, i) :: menv o tv vv kk -> want kk = qk ->
  SEQ (decode_item n_k (map_key fd kt)) s = match prim None qk (inp s) with
    | Done r w => Fine (Next, set_env (set_inp s r) ((n_i, i) :: menv None tv vv w))
    | Fail r e => Fine (Ret [GoError (Some e)], set_env (set_inp s r) ((n_i, i) :: menv (Some e) tv vv (zero_prim qk)))
    | Crash => Panics
    end.
Proof.
  intros E W. unfold decode_item. change (f_typ (map_key fd kt)) with kt.
  assert (N1 : is_kind (kind_of kt) KMessage = false) by (destruct (kind_of kt); try reflexivity; discriminate KK).
  assert (N2 : is_kind (kind_of kt) KEnum = false) by (destruct (kind_of kt); try reflexivity; discriminate KK).
  assert (N3 : kind_of kt <> KBytes) by (intros H; rewrite H in KK; discriminate KK).
  rewrite N1, N2, andb_false_r. cbn [app]. rewrite seq_cons. cbn [exec].
  rewrite (eval_dec P room prim callee _ s) by (rewrite E; apply (menv_d o tv vv kk)).
  rewrite (dec_method prim _ qk s QK N3), (lib_is prim _ qk None s SP QK).
  assert (St : forall r w e, want w = qk -> stores P room prim callee [Var n_k; Var n_err] [GoBase w; GoError e] (set_inp s r) = Fine (set_env (set_inp s r) ((n_i, i) :: menv e tv vv w))).
  { intros r w e Ww. cbn [stores]. rewrite (store_var P room prim callee n_k (set_inp s r) (GoBase kk) (GoBase w) (GoBase w)); [|cbn [env set_inp]; rewrite E; apply (menv_k o tv vv kk)|apply fit_base; congruence]. cbn [ebind].
    rewrite (store_var P room prim callee n_err _ (GoError o) (GoError e) (GoError e)); [| |reflexivity].
    - cbn [ebind env set_inp set_env]. rewrite E. destruct tv; reflexivity.
    - cbn [env set_inp set_env]. rewrite E. destruct tv; reflexivity. }
  destruct (prim None qk (inp s)) as [r w|r e|] eqn:Ep; [| |reflexivity]; cbn [ebind].
  - rewrite St by (exact (sp_type _ SP _ _ _ _ _ Ep)). cbn [ebind]. rewrite seq_one. apply (exec_check P room prim callee _ None). destruct tv; reflexivity.
  - rewrite St by apply zero_want. cbn [ebind]. rewrite seq_one. apply (exec_check P room prim callee _ (Some e)). destruct tv; reflexivity.
Qed.

(** the value *)
Definition vrun (r : bytes) : run gval :=
  match ftype_of ms vt with
  | Msg mi => plain (GenModel.New v2 Sch n mi) (GMsg None) (fun _ s => t_msg (t_decode room v2 prim Sch n) mi s r)
  | Scalar k => plain (dec_call prim None k r) (zero (One (ftype_of ms vt))) (fun r v => ret (TDone r (GPrim v)))
  end.
Definition vok (i : gov) (kk : value) (s : st) (x : gval) (s' : st) : Prop :=
  exists o tv vv q, env s' = (n_i, i) :: menv o tv vv kk /\ tv_ok tv /\ like vv /\ rep ms (heap s') fdv x vv q /\ NoDup q /\ only_at (heap s) (heap s') [] q.
Lemma vok_prim i kk s s' o tv w : env s' = (n_i, i) :: menv o tv (GoBase w) kk -> tv_ok tv -> scalar_type (kind_of vt) = Some (want w) -> heap s' = heap s -> vok i kk s (GPrim w) s'.
Proof.
  intros E T W Hh. exists o, tv, (GoBase w), []. split; [exact E|]. split; [exact T|]. split.
  - unfold like. destruct vt; eauto. cbn in W. discriminate W.
  - split; [apply rep_base; [reflexivity|exact W]|]. split; [constructor|]. rewrite Hh. apply only_refl.
Qed.
Lemma value_ok s i o tv vv kk : env s = (n_i, i) :: menv o tv vv kk -> tv_ok tv -> like vv ->
  runs (SEQ (decode_item n_v fdv) s) (vrun (inp s)) s (vok i kk s).
Proof.
  intros E T Lk. unfold vrun, decode_item. change (f_typ fdv) with vt.
  assert (Hd : find_name n_d (env s) = Some GoDecoder) by (rewrite E; apply (menv_d o tv vv kk)).
  assert (Sc : forall k q, kind_of vt = k -> scalar_type k = Some q -> k <> KBytes -> k <> KEnum -> is_kind k KMessage = false -> (exists w, vv = GoBase w /\ want w = q) ->
    runs (SEQ ([Assign [Var n_v; Var n_err] (Met (Var n_d) (entry (go_decodeLUT k)) [])] ++ [check]) s) (plain (dec_call prim None k (inp s)) (GPrim (zero_prim q)) (fun r v => ret (TDone r (GPrim v)))) s (vok i kk s)).
  { intros k q Ek Eq N1 N2 N3 (w0 & -> & W0). cbn [app]. rewrite seq_cons. cbn [exec]. rewrite (eval_dec P room prim callee _ s Hd).
    rewrite (dec_method prim k q s Eq N1), (lib_is prim k q None s SP Eq), (dec_call_is prim k q None _ Eq).
    assert (St : forall r w e, want w = q -> stores P room prim callee [Var n_v; Var n_err] [GoBase w; GoError e] (set_inp s r) = Fine (set_env (set_inp s r) ((n_i, i) :: menv e tv (GoBase w) kk))).
    { intros r w e Ww. cbn [stores]. rewrite (store_var P room prim callee n_v (set_inp s r) (GoBase w0) (GoBase w) (GoBase w)); [|cbn [env set_inp]; rewrite E; apply (menv_v o tv _ kk)|apply fit_base; congruence]. cbn [ebind].
      rewrite (store_var P room prim callee n_err _ (GoError o) (GoError e) (GoError e)); [| |reflexivity].
      - cbn [ebind env set_inp set_env]. rewrite E. destruct tv; reflexivity.
      - cbn [env set_inp set_env]. rewrite E. destruct tv; reflexivity. }
    destruct (prim None q (inp s)) as [r w|r e|] eqn:Ep; cbn [plain ebind]; [| |reflexivity].
    - pose proof (sp_type _ SP _ _ _ _ _ Ep) as Ww. rewrite St by exact Ww. cbn [ebind]. rewrite seq_one, (exec_check P room prim callee _ None) by (destruct tv; reflexivity).
      eapply runs_done; try reflexivity. eapply vok_prim; [reflexivity|exact T|congruence|reflexivity].
    - rewrite St by apply zero_want. cbn [ebind]. rewrite seq_one, (exec_check P room prim callee _ (Some e)) by (destruct tv; reflexivity).
      eapply runs_fail; try reflexivity. eapply vok_prim; [reflexivity|exact T|rewrite zero_want; congruence|reflexivity]. }
  assert (Kn := KN). assert (Vk := VK). unfold like in Lk.
  assert (Cs : (exists k, vt = TScalar k) \/ (exists es, vt = TEnum es) \/ (exists es, vt = TMsg es)) by (clear -KN; destruct vt; eauto; contradiction).
  destruct Cs as [(k & Evt)|[(es & Evt)|(es & Evt)]]; rewrite Evt in Kn, Vk, Lk |- *; cbn [ftype_of kind_of].
  - destruct Vk as (NG & NB). destruct Kn as (NE & NM). destruct (scalar_type k) as [q|] eqn:Eq; [|apply scalar_none in Eq; tauto].
    assert (K1 : is_kind k KMessage = false) by (destruct k; try reflexivity; congruence). assert (K2 : is_kind k KEnum = false) by (destruct k; try reflexivity; congruence).
    rewrite K1, K2, andb_false_r. cbn [zero]. rewrite Eq. apply (Sc k q); [rewrite ?Evt; reflexivity|exact Eq|exact NB|exact NE|exact K1|]. destruct Lk as (w & -> & Ew). exists w. split; [reflexivity|]. cbn [kind_of] in Ew. rewrite Eq in Ew. injection Ew as <-. reflexivity.
  - (* enums *)
    clear Sc. destruct Lk as (w0 & -> & Ew0). cbn in Ew0. assert (exists y0, w0 = VU32 y0) as (y0 & ->) by (destruct w0; try discriminate Ew0; eauto).
    unfold tv_ok in T. rewrite Evt in T. cbn [kind_of is_kind] in T. destruct tv as [y|]; [|discriminate T].
    change (is_kind KEnum KMessage) with false. change (is_kind KEnum KEnum) with true. rewrite andb_false_r. cbn [app]. change (temp (map_value fd (TEnum es))) with (text "ValueTemp").
    replace (type_text (map_value fd (TEnum es))) with (camel es) by (unfold type_text, FindValue; cbn [map_value f_typ f_many]; rewrite camel_ok; reflexivity).
    pose proof (lib_is prim KEnum RU32 None s SP eq_refl) as Li. rewrite (dec_call_is prim KEnum RU32 None _ eq_refl).
    assert (B : forall y1 e r, exists s', stores P room prim callee [Var (text "ValueTemp"); Var n_err] [GoBase (VU32 y1); GoError e] (set_inp s r) = Fine s' /\
       SEQ [Assign [Var n_v] (App (camel es) [Var (text "ValueTemp")]); check] s' = Fine (match e with None => Next | Some e => Ret [GoError (Some e)] end, set_env (set_inp s r) ((n_i, i) :: menv e (Some y1) (GoBase (VU32 y1)) kk))).
    { intros y1 e r. exists (set_env (set_inp s r) ((n_i, i) :: menv e (Some y1) (GoBase (VU32 y0)) kk)). split.
      - cbn [stores]. rewrite (store_var P room prim callee (text "ValueTemp") (set_inp s r) (GoBase (VU32 y)) (GoBase (VU32 y1)) (GoBase (VU32 y1))); [|cbn [env set_inp]; rewrite E; reflexivity|reflexivity]. cbn [ebind].
        rewrite (store_var P room prim callee n_err _ (GoError o) (GoError e) (GoError e)); [| |reflexivity].
        + cbn [ebind env set_inp set_env]. rewrite E. reflexivity.
        + cbn [env set_inp set_env]. rewrite E. reflexivity.
      - rewrite seq_cons. cbn [exec]. rewrite (convert_enum v2 f room prim callee NA es (Var (text "ValueTemp")) y1 _ Kn); [| |apply eval_var; reflexivity].
        + cbn [ebind stores]. rewrite (store_var P room prim callee n_v _ (GoBase (VU32 y0)) (GoBase (VU32 y1)) (GoBase (VU32 y1))); [|reflexivity|reflexivity]. cbn [ebind].
          rewrite seq_one. replace (set_name n_v (GoBase (VU32 y1)) (env (set_env (set_inp s r) ((n_i, i) :: menv e (Some y1) (GoBase (VU32 y0)) kk)))) with ((n_i, i) :: menv e (Some y1) (GoBase (VU32 y1)) kk) by reflexivity.
          rewrite (exec_check P room prim callee _ e); [destruct e; reflexivity|reflexivity].
        + apply menv_names; [unfold tv_ok; rewrite Evt; reflexivity|]. apply (enum_type v2 f NA es Kn). }
    rewrite seq_cons. cbn [exec]. rewrite (eval_dec P room prim callee _ s Hd), (dec_method prim KEnum RU32 s eq_refl) by discriminate. rewrite Li.
    destruct (prim None RU32 (inp s)) as [r w|r e|] eqn:Ep; cbn [plain ebind]; [| |reflexivity].
    + pose proof (sp_type _ SP _ _ _ _ _ Ep) as Ww. assert (exists y1, w = VU32 y1) as (y1 & ->) by (destruct w; try discriminate Ww; eauto).
      destruct (B y1 None r) as (s' & -> & B'). cbn [ebind]. rewrite B'. eapply runs_done; try reflexivity. eapply vok_prim; [reflexivity|unfold tv_ok; rewrite Evt; reflexivity|rewrite Evt; reflexivity|reflexivity].
    + change (zero_prim RU32) with (VU32 0). destruct (B 0 (Some e) r) as (s' & -> & B'). cbn [ebind]. rewrite B'. eapply runs_fail; try reflexivity. eapply vok_prim; [reflexivity|unfold tv_ok; rewrite Evt; reflexivity|rewrite Evt; reflexivity|reflexivity].
  - (* messages *)
    clear Sc. destruct Lk as (a0 & ->). change (is_kind KMessage KMessage) with true. change (String.eqb (entry (go_decodeLUT KMessage)) "" && true) with true. cbn [app].
    change (message_of (map_value fd (TMsg es))) with (camel es).
    destruct (msg_known f es Kn) as (me & Hme & Em & HMe). rewrite <- Em at 1. rewrite seq_cons. cbn [exec].
    assert (Nn : find_name (new_name (camel (m_full me))) (env s) = None) by (rewrite E; apply menv_names; [exact T|apply (msg_names v2 f NA me HMe)]).
    rewrite (eval_new v2 f room prim callee NA me s HMe Nn). pose proof (NEW me _ s Hme) as W.
    destruct (GenModel.New v2 Sch n (position es ms)) as [r0 xs| | | |] eqn:EN; try contradiction; cbn [plain]; [|rewrite W; reflexivity|exact I].
    destruct W as [(E0 & W)|(s3 & c & fp3 & W & Hst & On & Q1 & Q2 & Q3 & Q4)]; rewrite W; cbn [ebind stores]; [unfold t_msg; rewrite E0; reflexivity|].
    rewrite (store_var P room prim callee n_v s3 (GoPtr (camel es) a0) _ (GoPtr (camel es) (Some c))); [|rewrite Q1, E; apply (menv_v o tv _ kk)|rewrite Em; cbn [fit]; rewrite same_refl; reflexivity]. cbn [ebind].
    assert (E4 : set_name n_v (GoPtr (camel es) (Some c)) (env s3) = (n_i, i) :: menv o tv (GoPtr (camel es) (Some c)) kk) by (rewrite Q1, E; cbn [set_name]; change (same n_v n_i) with false; cbn iota; f_equal; apply set_menv_v).
    rewrite E4. set (s4 := set_env s3 _).
    apply (runs_from _ _ s s4); [|exact Q4|exact Q3]. replace (inp s) with (inp s4) by exact Q2. unfold t_msg. eapply runs_map.
    + apply (decode_place v2 f room prim callee n DEC (Var n_v) me (position es ms) c xs fp3 s4 Hme Hst).
      * apply eval_var. rewrite Em. apply (menv_v o tv _ kk).
      * apply (menv_d o tv _ kk).
      * exists o. reflexivity.
    + intros xs' s' (fp' & H1 & H2 & o' & H3). exists o', tv, (GoPtr (camel es) (Some c)), (c :: fp'). split; [rewrite H3; reflexivity|]. split; [exact T|]. split; [unfold like; rewrite Evt; eauto|]. split; [|split].
      * eapply rep_of_struct; [reflexivity|rewrite Evt; reflexivity|exact Hme|exact H1].
      * destruct H1 as (? & _ & _ & H1). exact H1.
      * eapply only_trans; [exact On|exact H2].
Qed.

(** ---- the loop ---- *)
Definition body_of : list stmt := decode_item n_k (map_key fd kt) ++ decode_item n_v fdv ++ [Assign [Idx (Var n_x) (Var n_k)] (Var n_v)].
Definition turn_run (l : list (value * gval)) (r : bytes) : run (list (value * gval)) :=
  plain (dec_call prim None (kind_of kt) r) l (fun r k => tbind (vrun r) (fun _ => l) (fun r v => ret (TDone r (insert k v l)))).
Lemma entries_turn c l r : t_entries v2 prim Sch n (t_decode room v2 prim Sch n) (kind_of kt) (ftype_of ms vt) (S c) l r =
  tbind (turn_run l r) (fun l => l) (fun r l => t_entries v2 prim Sch n (t_decode room v2 prim Sch n) (kind_of kt) (ftype_of ms vt) c l r).
Proof using Type.
  unfold turn_run. cbn [t_entries]. destruct (dec_call prim None (kind_of kt) r) as [r1 k|e| | |]; cbn [plain tbind ret]; try reflexivity.
  change (match ftype_of ms vt with Msg mi => plain (GenModel.New v2 Sch n mi) (GMsg None) (fun _ s => t_msg (t_decode room v2 prim Sch n) mi s r1) | Scalar k => plain (dec_call prim None k r1) (zero (One (ftype_of ms vt))) (fun r v => ret (TDone r (GPrim v))) end) with (vrun r1).
  destruct (ftype_of ms vt) eqn:Et; unfold vrun; rewrite Et;
  match goal with |- context [tbind ?x (fun _ => l)] => destruct x as (y & [r2 v|e v| | |]); cbn [tbind ret]; rewrite ?app_nil_r; reflexivity end.
Qed.
Variable h0 : list obj.
Definition mst (l : list (value * gval)) (s : st) : Prop :=
  exists o tv vv kk vs fp, env s = menv o tv vv kk /\ tv_ok tv /\ like vv /\ want kk = qk /\
    nth_error (heap s) b = Some (OMap (combine (map fst l) vs)) /\ reps ms (heap s) (repeat fdv (length l)) (map snd l) vs fp /\ NoDup (b :: fp) /\ only_at h0 (heap s) [b] (b :: fp).
Lemma turn_ok i l s : mst l s -> runs (block EX [n_i] [i] body_of s) (turn_run l (inp s)) s mst.
Proof.
  intros (o & tv & vv & kk & vs & fp & E & T & Lk & Wk & Hb & R & N & On).
  set (s1 := set_env s ((n_i, i) :: menv o tv vv kk)).
  assert (Bk : block EX [n_i] [i] body_of s = let? (g, s') := SEQ body_of s1 in Fine (g, set_env s' (leave (env s) (env s')))).
  { unfold block. cbn [declare]. change (same n_i (text "_")) with false. cbn iota. rewrite E. reflexivity. }
  rewrite Bk. clear Bk.
  assert (Lv : forall x E', length E' = length (env s) -> leave (env s) (x :: E') = E') by (intros x E' L; apply leave_one, L).
  assert (Ln : forall o tv' vv kk, tv_ok tv' -> length (menv o tv' vv kk) = length (env s)).
  { intros o' tv' vv' kk' T'. rewrite E. unfold menv, tv_ok in *. destruct tv, tv'; try reflexivity; congruence. }
  unfold turn_run, body_of. rewrite seq_app, (key_ok s1 i o tv vv kk eq_refl Wk). change (inp s1) with (inp s). rewrite (dec_call_is prim _ qk None _ QK).
  destruct (prim None qk (inp s)) as [r w|r e|] eqn:Ep; cbn [plain ebind]; [| |reflexivity].
  2:{ cbn [env set_env]. eapply runs_fail; try reflexivity. cbn [env set_env]. rewrite Lv by (apply Ln, T). exists (Some e), tv, vv, (zero_prim qk), vs, fp. cbn [env set_env set_inp heap s1]. rewrite zero_want. repeat (split; [first [reflexivity|assumption]|]). exact On. }
  pose proof (sp_type _ SP _ _ _ _ _ Ep) as Ww. rewrite seq_app. set (s2 := set_env (set_inp s1 r) ((n_i, i) :: menv None tv vv w)).
  pose proof (value_ok s2 i None tv vv w eq_refl T Lk) as V. change (inp s2) with r in V. unfold runs, agrees in V |- *.
  assert (Fr : forall s3 q, only_at (heap s2) (heap s3) [] q -> nth_error (heap s3) b = Some (OMap (combine (map fst l) vs)) /\ reps ms (heap s3) (repeat fdv (length l)) (map snd l) vs fp /\
     only_at h0 (heap s3) [b] (b :: fp) /\ (forall c, In c q -> ~ In c (b :: fp)) /\ only_at h0 (heap s3) [b] (b :: q ++ fp)).
  { intros s3 q O2. change (heap s2) with (heap s) in O2.
    assert (Same : forall c, (c < length (heap s))%nat -> nth_error (heap s3) c = nth_error (heap s) c) by (intros c Hc; destruct O2 as (_ & O2 & _); apply O2; [exact Hc|intros []]).
    assert (Bf : forall c, In c (b :: fp) -> (c < length (heap s))%nat) by (intros c [<-|Hc]; [exact (nth_bound _ _ _ Hb)|exact (reps_bound ms (heap s) _ _ _ _ R c Hc)]).
    split; [rewrite Same; [exact Hb|apply Bf; left; reflexivity]|]. split; [apply (reps_frame ms (heap s)); [exact R|intros c Hc; apply Same, Bf; right; exact Hc]|].
    destruct On as (On1 & On2 & On3), O2 as (O21 & O22 & O23).
    assert (A : only_at h0 (heap s3) [b] (b :: fp)).
    { split; [lia|]. split; [|exact On3]. intros c Hc Hn. rewrite Same by lia. apply On2; assumption. }
    split; [exact A|]. split.
    - intros c Hc K. destruct (O23 c Hc) as [[]|K']. apply Bf in K. lia.
    - destruct A as (A1 & A2 & A3). split; [exact A1|]. split; [exact A2|]. intros c [<-|Hc]; [left; left; reflexivity|]. apply in_app_or in Hc. destruct Hc as [Hc|Hc]; [|apply A3; right; exact Hc].
      destruct (O23 c Hc) as [[]|K']. right. lia. }
  destruct (vrun r) as (mk & [r2 x|e x| | |]); cbn [tbind snd fst ret] in *; try (rewrite V; reflexivity); [| |exact I].
  - destruct V as (s3 & -> & Ei & (o3 & tv3 & vv3 & q & E3 & T3 & L3 & R3 & N3 & O3) & M3 & Oo3). cbn [ebind].
    destruct (Fr s3 q O3) as (Hb3 & Rs3 & _ & Dj & On3).
    destruct (put_ok ms (heap s3) fdv x vv3 q w R3 l vs fp Rs3) as (vs' & fp' & Ep' & Rp & Fp & Np).
    rewrite seq_one. cbn [exec eval]. rewrite E3. change (find_name n_v ((n_i, i) :: menv o3 tv3 vv3 w)) with (find_name n_v (menv o3 tv3 vv3 w)). rewrite menv_v. cbn [ebind stores store].
    rewrite (one_var P room prim callee n_x (GoMap (map_name fd) (Some b)) s3) by (rewrite E3; apply (menv_x o3 tv3 vv3 w)). cbn [ebind].
    rewrite (one_var P room prim callee n_k (GoBase w) s3) by (rewrite E3; apply (menv_k o3 tv3 vv3 w)). cbn [ebind]. unfold fetch. rewrite Hb3. cbn [need ebind].
    eexists. split; [reflexivity|]. cbn [inp set_env set_heap out made env heap]. split; [exact Ei|]. split; [|rewrite app_nil_r; split; [exact M3|exact Oo3]].
    rewrite E3, Lv by (apply Ln, T3). exists o3, tv3, vv3, w, vs', fp'. cbn [env heap set_env set_heap]. split; [reflexivity|]. split; [exact T3|]. split; [exact L3|]. split; [exact Ww|].
    rewrite Ep'. split; [exact (nth_set_at_same _ _ _ _ Hb3)|].
    assert (Nb : ~ In b fp').
    { intros K. destruct (Fp b K) as [K'|K']; [inversion N; contradiction|]. apply (Dj b K'). left. reflexivity. }
    split; [|split].
    + apply (reps_frame ms (heap s3)); [exact Rp|]. intros c Hc. apply nth_set_at_other. intros ->. contradiction.
    + constructor; [exact Nb|]. inversion N; subst. apply Np; [assumption|exact N3|]. intros c Hc K. apply (Dj c Hc). right. exact K.
    + destruct On3 as (A1 & A2 & A3). split; [rewrite set_at_length; exact A1|]. split.
      * intros c Hc Hn. rewrite nth_set_at_other; [apply A2; assumption|]. intros ->. apply Hn. left. reflexivity.
      * intros c [<-|Hc]; [left; left; reflexivity|]. apply A3. right. apply in_or_app. destruct (Fp c Hc); auto.
  - destruct V as (s3 & -> & (o3 & tv3 & vv3 & q & E3 & T3 & L3 & R3 & N3 & O3) & M3 & Oo3). cbn [ebind].
    destruct (Fr s3 q O3) as (Hb3 & Rs3 & On3 & _).
    eexists. split; [reflexivity|]. cbn [inp set_env set_heap out made env heap]. split; [|split; [exact M3|exact Oo3]].
    rewrite E3, Lv by (apply Ln, T3). exists o3, tv3, vv3, w, vs, fp. cbn [env heap set_env]. repeat (split; [first [reflexivity|assumption]|]). exact On3.
Qed.
Lemma loop_ok c : forall i l s, mst l s ->
  runs (loop (fun vs => block EX [n_i] vs body_of) (count_from i c) s) (t_entries v2 prim Sch n (t_decode room v2 prim Sch n) (kind_of kt) (ftype_of ms vt) c l (inp s)) s mst.
Proof.
  induction c as [|c IH]; intros i l s H.
  - cbn [count_from loop t_entries]. eapply runs_done; try reflexivity. exact H.
  - rewrite entries_turn. cbn [count_from loop]. eapply runs_bind; [apply (turn_ok (GoBase (VU32 i)) l s H)| |auto].
    destruct (block EX [n_i] [GoBase (VU32 i)] body_of s) as [[[|rs] s1]| | |]; cbn [ebind]; auto.
Qed.
End Maps.

Section MapFunc.
Variables (v2 : bool) (f : filed) (room : Z -> bool) (prim : option bytes -> request -> bytes -> outcome).
Variable callee : option bytes -> bytes -> list gov -> st -> ex (list gov * st).
Variable n : nat.
Hypothesis SP : sound_prim prim.
Hypothesis NA : names_apart v2 f.
Notation P := (go_program v2 f).
Notation ms := (messages_of f).
Notation Sch := (schema_of f).
Notation EX := (exec P room prim callee).
Notation SEQ := (seq (exec P room prim callee)).
Hypothesis NEW : new_spec v2 f callee n.
Hypothesis DEC : dec_spec v2 f room prim callee n.
Variables (m : msgd) (fd : fieldd) (kt vt : ftyp) (qk : request).
Hypothesis HM : has_message f m.
Hypothesis Hfd : In fd (m_fields m).
Hypothesis Etyp : f_typ fd = TMap kt vt.
Hypothesis KNk : known_type f kt.
Hypothesis KN : known_type f vt.
Hypothesis KK : key_kind (kind_of kt) = true.
Hypothesis QK : scalar_type (kind_of kt) = Some qk.
Hypothesis VK : match vt with TScalar k => k <> KGroup /\ k <> KBytes | TMap _ _ => False | _ => True end.
Notation fdv := (map_value fd vt).

Lemma seq_let k t v l s : zero_of P s t = Some v -> k <> text "_" -> SEQ (Let k t :: l) s = SEQ l (set_env s ((k, v) :: env s)).
Proof using Type. intros E N. rewrite seq_cons. cbn [exec]. rewrite E. cbn [need ebind declare]. rewrite same_false by exact N. reflexivity. Qed.
Lemma base_zero s t q : base_type t = Some q -> t <> text "error" -> zero_of P s t = Some (GoBase (zero_prim q)).
Proof using Type. intros E N. unfold zero_of. rewrite E. unfold zero_plain. rewrite same_false by exact N. rewrite E. reflexivity. Qed.
Lemma scalar_zero fd' k s : f_typ fd' = TScalar k -> f_many fd' = false -> k <> KGroup -> k <> KMessage -> k <> KEnum ->
  exists q, scalar_type k = Some q /\ zero_of P s (type_text fd') = Some (GoBase (zero_prim q)).
Proof using Type.
  intros E M N1 N2 N3. unfold type_text, FindValue. rewrite E, M. destruct k; try congruence; eexists; split; reflexivity.
Qed.
Lemma name_base t : In t (go_names (go_file v2 f)) -> base_type t = None /\ strip (text "[]") t = None /\ strip (text "*") t = None /\ t <> text "error".
Proof using NA.
  intros H. pose proof (names_no_lower v2 f t H) as L. destruct (na_ident _ _ NA t H) as (c & u & -> & C & _). specialize (L c u eq_refl).
  assert (N1 : c <> 91) by (clear -C; intros ->; destruct C as [[C|C]|C]; unfold upper, lower in C; lia).
  assert (N2 : c <> 42) by (clear -C; intros ->; destruct C as [[C|C]|C]; unfold upper, lower in C; lia).
  split; [|split; [|split]].
  - unfold base_type. cbn [GenTables.go_types map fst snd find_name].
    repeat (rewrite same_false; [|intros E; cbn in E; injection E as E _; first [congruence|rewrite E in L; discriminate L]]). reflexivity.
  - unfold strip. rewrite same_false; [reflexivity|]. cbn [text map list_ascii_of_string length firstn]. intros E. injection E as E _. apply N1. exact E.
  - unfold strip. rewrite same_false; [reflexivity|]. cbn [text map list_ascii_of_string length firstn]. intros E. injection E as E. apply N2. exact E.
  - intros E. cbn in E. injection E as E _. rewrite E in L. discriminate L.
Qed.
Lemma enum_zero es s : known_type f (TEnum es) -> find_name (camel es) (env s) = None -> zero_of P s (camel es) = Some (GoBase (VU32 0)).
Proof.
  intros K N. destruct (enum_type v2 f NA es K) as (Hn & Ht). destruct (name_base _ Hn) as (B1 & B2 & B3 & B4).
  unfold zero_of. rewrite B1, B2. unfold zero_plain. rewrite same_false by exact B4. rewrite B1, B3. unfold type_here. rewrite N, Ht. reflexivity.
Qed.
Lemma msg_zero es s : known_type f (TMsg es) -> find_name (camel es) (env s) = None -> zero_of P s (text "*" ++ camel es) = Some (GoPtr (camel es) None).
Proof.
  intros K N. destruct (msg_known f es K) as (me & Hme & Em & HMe). unfold zero_of. rewrite star_base. change (strip (text "[]") (text "*" ++ camel es)) with (@None bytes).
  apply (zero_msg v2 f NA es s me); auto.
Qed.
Lemma value_zero s : (forall k, In k (go_names (go_file v2 f)) -> find_name k (env s) = None) ->
  exists v, zero_of P s (type_text fdv) = Some v /\ like vt v.
Proof.
  intros Hn.
  assert (Cs : (exists k, vt = TScalar k) \/ (exists es, vt = TEnum es) \/ (exists es, vt = TMsg es)) by (clear -KN; destruct vt; eauto; contradiction).
  assert (Kn := KN). assert (Vk := VK). destruct Cs as [(k & Evt)|[(es & Evt)|(es & Evt)]]; rewrite Evt in Kn, Vk |- *; unfold like.
  - destruct Kn as (N1 & N2), Vk as (N3 & N4). destruct (scalar_zero (map_value fd (TScalar k)) k s eq_refl eq_refl N3 N2 N1) as (q & Q1 & Q2).
    exists (GoBase (zero_prim q)). split; [exact Q2|]. exists (zero_prim q). cbn [kind_of]. rewrite zero_want. auto.
  - exists (GoBase (VU32 0)). split; [|exists (VU32 0); auto]. replace (type_text (map_value fd (TEnum es))) with (camel es) by (unfold type_text, FindValue; cbn [map_value f_typ f_many]; rewrite camel_ok; reflexivity).
    apply enum_zero; [exact Kn|]. apply Hn. apply (enum_type v2 f NA es Kn).
  - exists (GoPtr (camel es) None). split; [|exists None; reflexivity]. unfold type_text, FindValue. cbn [map_value f_typ f_many]. rewrite camel_ok. cbn [bind]. rewrite append2.
    apply msg_zero; [exact Kn|]. apply Hn. destruct (msg_known f es Kn) as (me & Hme & <- & HMe). apply (msg_names v2 f NA me HMe).
Qed.

Theorem mapfunc_ok z b s : nth_error (heap s) b = Some (OMap []) ->
  returns (enter P room prim callee (decode_map_func fd kt vt) [GoMap (map_name fd) (Some b); GoDecoder; GoBase (VU32 z)] s)
    (t_entries v2 prim Sch n (t_decode room v2 prim Sch n) (kind_of kt) (ftype_of ms vt) (Z.to_nat z) [] (inp s)) s
    (fun l s' => exists vs fp', nth_error (heap s') b = Some (OMap (combine (map fst l) vs)) /\ reps ms (heap s') (repeat fdv (length l)) (map snd l) vs fp' /\
       NoDup (b :: fp') /\ only_at (heap s) (heap s') [b] (b :: fp') /\ env s' = env s).
Proof.
  intros Hb. unfold enter, decode_map_func. cbn [fn_params fn_body declare ebind].
  change (same n_x (text "_")) with false. change (same n_d (text "_")) with false. change (same n_size (text "_")) with false. cbn iota. cbn [env set_env heap inp out made].
  set (e0 := [(n_size, GoBase (VU32 z)); (n_d, GoDecoder); (n_x, GoMap (map_name fd) (Some b))]).
  match goal with |- context [SEQ _ ?q] => set (s0 := q) end.
  assert (E0 : env s0 = e0) by reflexivity.
  assert (Nb : NoDup [b]) by (constructor; [intros []|constructor]).
  (* if size == 0 *)
  assert (Cd : EX (If (Eq (Var n_size) (Num 0)) [Return [NilLit]] []) s0 = if z =? 0 then Fine (Ret [GoNil], s0) else Fine (Next, s0)).
  { cbn [exec]. unfold one at 1. cbn [eval]. rewrite (one_var P room prim callee n_size (GoBase (VU32 z)) s0 eq_refl). cbn [ebind]. unfold one. cbn [eval ebind equal].
    destruct (value_eq_dec (VU32 z) (VU32 0)) as [E|E], (Z.eqb_spec z 0) as [E'|E']; try congruence; rewrite block_nil; reflexivity. }
  cbn [app]. rewrite seq_cons, Cd. destruct (Z.eqb_spec z 0) as [->|Nz].
  { cbn [ebind Z.to_nat t_entries]. unfold returns, agrees. cbn [snd fst ret]. eexists. split; [reflexivity|]. cbn [inp set_env out made heap env s0]. rewrite app_nil_r. split; [reflexivity|]. split; [|auto].
    exists [], []. split; [exact Hb|]. split; [constructor|]. split; [exact Nb|]. split; [apply only_refl|reflexivity]. }
  cbn [ebind]. clear Cd.
  (* the variables *)
  assert (Nk : is_kind (kind_of kt) KEnum = false) by (destruct (kind_of kt); try reflexivity; discriminate KK).
  unfold declare_item. change (f_typ (map_key fd kt)) with kt. change (f_typ fdv) with vt. rewrite Nk. cbn [app].
  assert (Zk : zero_of P s0 (type_text (map_key fd kt)) = Some (GoBase (zero_prim qk))).
  { assert (exists k, kt = TScalar k) as (k & Ekt) by (clear -KK KNk; destruct kt as [k| | |]; try discriminate KK; eauto).
    assert (Kn := KNk). assert (Qk := QK). assert (Kk := KK). rewrite Ekt in Kn, Qk, Kk |- *. cbn [kind_of known_type] in *. destruct Kn as (N1 & N2).
    destruct (scalar_zero (map_key fd (TScalar k)) k s0 eq_refl eq_refl) as (q & Q1 & Q2); [intros ->; discriminate Kk|exact N2|exact N1|]. rewrite Q1 in Qk. injection Qk as <-. exact Q2. }
  rewrite (seq_let n_k _ _ _ s0 Zk) by ne. set (s1 := set_env s0 _).
  assert (Hn1 : forall k, In k (go_names (go_file v2 f)) -> find_name k (env s1) = None).
  { intros k Hk. assert (L : forall c t, is_lower c = true -> k <> c :: t) by (intros c t Lc ->; exact (names_lower v2 f _ c t eq_refl Lc Hk)).
    cbn [s1 env set_env]. rewrite E0. cbn [e0 find_name]. rewrite !same_false by (apply L; reflexivity). reflexivity. }
  destruct (value_zero s1 Hn1) as (v0 & Zv & Lk0). rewrite (seq_let n_v _ _ _ s1 Zv) by ne.
  set (tv := if is_kind (kind_of vt) KEnum then Some 0 else None).
  assert (Tv : tv_ok vt tv) by (unfold tv_ok, tv; destruct (is_kind (kind_of vt) KEnum); reflexivity).
  match goal with |- context [SEQ ((if _ then _ else []) ++ ?rest) ?q] =>
    assert (Et : SEQ ((if is_kind (kind_of vt) KEnum then [Let (temp fdv) n_u32] else []) ++ rest) q = SEQ rest (set_env s0 (tl (menv fd b z None tv v0 (zero_prim qk))))) end.
  { unfold tv. destruct (is_kind (kind_of vt) KEnum); cbn [app]; [|reflexivity]. erewrite seq_let; [reflexivity|reflexivity|ne]. }
  rewrite Et. clear Et. rewrite (seq_let n_err (text "error") (GoError None)) by first [reflexivity|ne].
  set (s2 := set_env _ _). assert (E2 : env s2 = menv fd b z None tv v0 (zero_prim qk)) by reflexivity.
  (* the loop *)
  rewrite seq_cons. cbn [exec]. rewrite (one_var P room prim callee n_size (GoBase (VU32 z)) s2) by (rewrite E2; destruct tv; reflexivity). cbn [ebind].
  assert (Q : mst f fd vt b z qk (heap s) [] s2).
  { exists None, tv, v0, (zero_prim qk), [], []. split; [exact E2|]. split; [exact Tv|]. split; [exact Lk0|]. split; [apply zero_want|]. split; [exact Hb|]. split; [constructor|]. split; [exact Nb|apply only_refl]. }
  pose proof (loop_ok v2 f room prim callee n SP NA NEW DEC m fd kt vt b z qk HM Hfd Etyp KN KK QK VK (heap s) (Z.to_nat z) 0 [] s2 Q) as R.
  unfold body_of in R. change (inp s2) with (inp s) in R. unfold runs, returns, agrees in *.
  destruct (t_entries v2 prim Sch n (t_decode room v2 prim Sch n) (kind_of kt) (ftype_of ms vt) (Z.to_nat z) [] (inp s)) as (mk & [r l|e l| | |]); cbn [snd fst] in *; try (rewrite R; reflexivity); [| |exact I].
  - destruct R as (s3 & -> & Ei & (o & tv3 & vv & kk & vs & fp & H1 & H2 & H3 & H4 & H5 & H6 & H7 & H8) & M3 & O3). cbn [ebind]. rewrite seq_one. cbn [exec eval ebind].
    eexists. split; [reflexivity|]. cbn [inp set_env out made heap env]. split; [exact Ei|]. split; [|auto]. exists vs, fp. repeat (split; [assumption|]). reflexivity.
  - destruct R as (s3 & -> & (o & tv3 & vv & kk & vs & fp & H1 & H2 & H3 & H4 & H5 & H6 & H7 & H8) & M3 & O3). cbn [ebind].
    eexists. split; [reflexivity|]. cbn [inp set_env out made heap env]. split; [|auto]. exists vs, fp. repeat (split; [assumption|]). reflexivity.
Qed.
End MapFunc.
