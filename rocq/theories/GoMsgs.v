(** Message fields and map fields in decode functions. *)
From Coq Require Import String.
From Verif Require Import Base Spec GenTables GenModel GenTrace NameModel NameSpec EmitModel EmitSpec EmitThms PkgThms GoAst GoEmit GoRunSpec GoLink GoFrame GoExec GoScope GoSlices.

Lemma set_name_id {A} n (w : A) l : find_name n l = Some w -> set_name n w l = l.
Proof. induction l as [|[k c] l IH]; [discriminate|]. cbn [find_name set_name]. destruct (same n k); [congruence|]. intros H. f_equal. auto. Qed.
Lemma end_map s : exists t, s ++ text "Map" = t ++ [112].
Proof. exists (s ++ text "Ma"). rewrite <- app_assoc. reflexivity. Qed.
Lemma size_not_map a b : a ++ text "Size" <> text "New" ++ b ++ text "Map".
Proof.
  intros E. replace (a ++ text "Size") with ((a ++ text "Siz") ++ [101]) in E by (rewrite <- app_assoc; reflexivity).
  replace (text "New" ++ b ++ text "Map") with ((text "New" ++ b ++ text "Ma") ++ [112]) in E by (rewrite <- !app_assoc; reflexivity).
  apply app_inj_tail in E. destruct E as (_ & E). discriminate E.
Qed.

Section Msgs.
Variables (v2 : bool) (f : filed) (room : Z -> bool) (prim : option bytes -> request -> bytes -> outcome).
Variable callee : option bytes -> bytes -> list gov -> st -> ex (list gov * st).
Variable n : nat.
Hypothesis SP : sound_prim prim.
Hypothesis NA : names_apart v2 f.
Notation names := (go_names (go_file v2 f)).
Notation P := (go_program v2 f).
Notation ms := (messages_of f).
Notation Sch := (schema_of f).
Notation EV := (eval P room prim callee).
Notation EX := (exec P room prim callee).
Notation SEQ := (seq (exec P room prim callee)).
Notation scope := (scope v2 f).
Notation new_spec := (new_spec v2 f callee n).
Notation dec_spec := (dec_spec v2 f room prim callee n).
Hypothesis NEW : new_spec.
Hypothesis DEC : dec_spec.

Lemma eval_nil s : find_name n_d (env s) = Some GoDecoder -> EV (Met (Var n_d) ".Nil" []) s = match prim None RNil (inp s) with Done r _ => Fine ([GoBase (VBool true)], set_inp s r) | Fail r _ => Fine ([GoBase (VBool false)], set_inp s r) | Crash => Panics end.
Proof. intros H. rewrite (eval_dec P room prim callee _ s H). reflexivity. Qed.
Lemma exec_not_nil l1 l2 s : find_name n_d (env s) = Some GoDecoder ->
  EX (If (Not (Met (Var n_d) ".Nil" [])) l1 l2) s = match prim None RNil (inp s) with Done r _ => block EX [] [] l2 (set_inp s r) | Fail r _ => block EX [] [] l1 (set_inp s r) | Crash => Panics end.
Proof.
  intros H. cbn [exec]. unfold one at 1.
  change (EV (Not (Met (Var n_d) ".Nil" [])) s) with (let? (v, s) := one EV (Met (Var n_d) ".Nil" []) s in match v with GoBase (VBool b) => Fine ([GoBase (VBool (negb b))], s) | _ => Stuck end).
  unfold one. rewrite (eval_nil s H). destruct (prim None RNil (inp s)); reflexivity.
Qed.
Lemma runs_block {A} l s (t : run A) (ok : A -> st -> Prop) : runs (SEQ l s) t s (fun x s' => ok x s' /\ length (env s') = length (env s)) -> runs (block EX [] [] l s) t s ok.
Proof.
  unfold runs, agrees. destruct t as (m & [r x|e x| | |]); cbn [snd fst]; intros H; try (rewrite block_nil, H; reflexivity); [| |exact I].
  - destruct H as (s' & E & Ei & (Ho & L) & R). exists s'. rewrite (block_same P room prim callee l s Next s' E L). auto.
  - destruct H as (s' & E & (Ho & L) & R). exists s'. rewrite (block_same P room prim callee l s _ s' E L). auto.
Qed.

Section Field.
Variables (sl : bool) (T : bytes) (a : nat) (fs : list (bytes * gov)) (fd : fieldd) (fp : list nat) (s : st).
Notation ok := (fok v2 f sl T a fs fd fp s).
Lemma place_ok es m : f_many fd = false -> f_typ fd = TMsg es -> nth_error ms (position es ms) = Some m -> m_full m = es ->
  forall s2 c xs fp2, scope sl T a (env s2) -> nth_error (heap s2) a = Some (OStruct (set_name (goname fd) (GoPtr (camel es) (Some c)) fs)) -> find_name (goname fd) fs <> None ->
  struct_at ms (heap s2) c m xs fp2 -> NoDup (a :: c :: fp2) -> only_at (heap s) (heap s2) (a :: fp) (a :: c :: fp2) ->
  runs (SEQ [Assign [Var n_err] (Met (my fd) ".decode" [Var n_d]); check] s2) (t_msg (t_decode room v2 prim Sch n) (position es ms) xs (inp s2)) s2
    (fun x s' => ok x s' /\ length (env s') = length (env s2)).
Proof.
  intros M Ees Hm Em s2 c xs fp2 Sc Ha Hf Hst N On. unfold t_msg. eapply runs_map.
  - apply (decode_place v2 f room prim callee n DEC (my fd) m (position es ms) c xs fp2 s2 Hm Hst); [|apply (sc_d _ _ _ _ _ _ Sc)|apply (sc_err _ _ _ _ _ _ Sc)].
    rewrite Em. apply (eval_my P room prim callee T a (set_name (goname fd) (GoPtr (camel es) (Some c)) fs)); [apply (sc_x _ _ _ _ _ _ Sc)|exact Ha|].
    destruct (find_name (goname fd) fs) as [w|] eqn:E; [|congruence]. exact (find_set_same _ _ _ _ E).
  - intros xs' s' (fp' & H1 & H2 & o & H3). split; [|rewrite H3; apply set_name_length].
    assert (Na : ~ In a (c :: fp2)) by (inversion N; assumption).
    assert (La : (a < length (heap s2))%nat) by exact (nth_bound _ _ _ Ha).
    exists (GoPtr (camel es) (Some c)), (c :: fp'). split; [rewrite H3; apply scope_err, Sc|]. split; [|split; [|split]].
    + destruct H2 as (_ & H2 & _). rewrite H2; [exact Ha|exact La|exact Na].
    + eapply rep_of_struct; [exact M|exact Ees|exact Hm|exact H1].
    + constructor; [|destruct H1 as (? & _ & _ & H1); exact H1]. intros K. destruct H2 as (_ & _ & H2). destruct (H2 a K) as [K'|K']; [exact (Na K')|lia].
    + eapply only_trans; [exact On|]. apply (only_frame _ _ [a] (c :: fp2) (c :: fp') []) in H2. cbn [app] in H2. rewrite !app_nil_r in H2. exact H2.
Qed.
(** x.F = NewM() *)
Lemma new_assign es m x v : f_many fd = false -> f_typ fd = TMsg es -> nth_error ms (position es ms) = Some m -> m_full m = es -> has_message f m ->
  forall s2, scope sl T a (env s2) -> heap s2 = heap s -> nth_error (heap s) a = Some (OStruct fs) -> find_name (goname fd) fs = Some v -> rep ms (heap s) fd x v fp -> NoDup fp ->
  match GenModel.New v2 Sch n (position es ms) with
  | GDone _ xs => (n = O /\ EX (Assign [my fd] (App (new_name (message_of fd)) [])) s2 = Deep) \/
     exists s4 c fp3, EX (Assign [my fd] (App (new_name (message_of fd)) [])) s2 = Fine (Next, s4) /\ quiet s2 s4 /\
       nth_error (heap s4) a = Some (OStruct (set_name (goname fd) (GoPtr (camel es) (Some c)) fs)) /\ struct_at ms (heap s4) c m xs fp3 /\ NoDup (a :: c :: fp3) /\ only_at (heap s) (heap s4) (a :: fp) (a :: c :: fp3)
  | GDeep => EX (Assign [my fd] (App (new_name (message_of fd)) [])) s2 = Deep
  | GBroken => True
  | _ => False
  end.
Proof.
  intros M Ees Hm Em HM s2 Sc Hh Ha Hf R Nf. pose proof (NEW m _ s2 Hm) as W. cbn [exec].
  assert (Nn : find_name (new_name (camel (m_full m))) (env s2) = None) by (apply (sc_names _ _ _ _ _ _ Sc); apply (msg_names v2 f NA m HM)).
  replace (message_of fd) with (camel (m_full m)) by (unfold message_of; rewrite Ees, Em; reflexivity).
  rewrite (eval_new v2 f room prim callee NA m s2 HM Nn). rewrite Em in *.
  destruct (GenModel.New v2 Sch n (position es ms)) as [r0 xs| | | |] eqn:EN; try contradiction; [|rewrite W; reflexivity|exact I].
  destruct W as [(E0 & W)|(s3 & c & fp3 & W & Hst & On & Q1 & Q2 & Q3 & Q4)].
  { left. rewrite W. auto. }
  right. rewrite W. cbn [ebind stores]. rewrite Hh in On.
  assert (La : (a < length (heap s))%nat) by exact (nth_bound _ _ _ Ha).
  assert (Ha3 : nth_error (heap s3) a = Some (OStruct fs)) by (destruct On as (_ & On & _); rewrite On; [exact Ha|exact La|intros []]).
  assert (Fv : fit v (GoPtr (camel es) (Some c)) = Some (GoPtr (camel es) (Some c))).
  { destruct (rep_msg_inv f fd es x v fp (heap s) M Ees R Nf) as [(_ & -> & _)|(? & ? & ? & ? & _ & -> & _)]; cbn [fit]; rewrite same_refl; reflexivity. }
  rewrite (store_my P room prim callee T a fs fd s3 v _ _ ltac:(rewrite Q1; apply (sc_x _ _ _ _ _ _ Sc)) Ha3 Hf Fv). cbn [ebind].
  assert (Nbc : forall k, In k (c :: fp3) -> (length (heap s) <= k)%nat) by (intros k Hk; destruct On as (_ & _ & On); destruct (On k Hk) as [[]|]; assumption).
  set (s4 := set_heap s3 (set_at a (OStruct (set_name (goname fd) (GoPtr (camel es) (Some c)) fs)) (heap s3))).
  exists s4, c, fp3. split; [reflexivity|]. split; [exact (conj Q1 (conj Q2 (conj Q3 Q4)))|]. cbn [s4 heap set_heap env]. split; [|split; [|split]].
  - exact (nth_set_at_same _ _ _ _ Ha3).
  - apply (struct_frame ms (heap s3)); [exact Hst|]. intros k Hk. apply nth_set_at_other. intros ->. apply Nbc in Hk. lia.
  - constructor; [intros K; apply Nbc in K; lia|]. destruct Hst as (? & _ & _ & Hst). exact Hst.
  - split; [rewrite set_at_length; destruct On; assumption|]. split.
    + intros k Hk Hn. rewrite nth_set_at_other by (intros ->; apply Hn; left; reflexivity). destruct On as (_ & On & _). apply On; [exact Hk|intros []].
    + intros k [<-|Hk]; [left; left; reflexivity|right; apply Nbc, Hk].
Qed.
(** decode.templ 84-91 (v2: 84-90) *)
Theorem message_ok es x v : f_many fd = false -> f_typ fd = TMsg es -> known_type f (TMsg es) ->
  scope sl T a (env s) -> nth_error (heap s) a = Some (OStruct fs) -> find_name (goname fd) fs = Some v -> rep ms (heap s) fd x v fp -> NoDup (a :: fp) ->
  runs (SEQ (decode_message v2 fd) s) (t_message v2 prim Sch n (t_decode room v2 prim Sch n) (One (Msg (position es ms))) x (inp s)) s ok.
Proof.
  intros M Ees Kn Sc Ha Hf R N. destruct (msg_known f es Kn) as (m & Hm & Em & HM). unfold decode_message. rewrite Ees. cbn [t_message].
  assert (Nf : NoDup fp) by (inversion N; assumption). assert (Hf' : find_name (goname fd) fs <> None) by congruence.
  assert (B2 : runs (SEQ [If (Not (Met (Var n_d) ".Nil" [])) [Assign [my fd] (App (new_name (message_of fd)) []); Assign [Var n_err] (Met (my fd) ".decode" [Var n_d]); check] []] s)
     (t_nil prim (inp s) (fun r => ret (TDone r x)) (fun b => plain (GenModel.New v2 Sch n (position es ms)) x (fun _ s => t_msg (t_decode room v2 prim Sch n) (position es ms) s b))) s ok).
  { rewrite seq_one, (exec_not_nil _ _ s (sc_d _ _ _ _ _ _ Sc)). unfold t_nil. destruct (prim None RNil (inp s)) as [r w|r e|]; [| |reflexivity].
    - rewrite (block_same P room prim callee [] (set_inp s r) Next _ eq_refl eq_refl). apply (runs_done _ _ _ _ (set_inp s r)); try reflexivity.
      exists v, fp. cbn [heap set_inp env]. rewrite set_name_id by exact Hf. repeat (split; [assumption|]). apply only_refl.
    - apply (runs_from _ _ s (set_inp s r)); [|reflexivity|reflexivity]. apply runs_block. rewrite seq_cons.
      pose proof (new_assign es m x v M Ees Hm Em HM (set_inp s r) Sc eq_refl Ha Hf R Nf) as W.
      destruct (GenModel.New v2 Sch n (position es ms)) as [r0 xs| | | |] eqn:EN; try contradiction; cbn [plain]; [|rewrite W; reflexivity|exact I].
      destruct W as [(E0 & W)|(s4 & c & fp3 & W & (Q1 & Q2 & Q3 & Q4) & H1 & H2 & H3 & H4)]; rewrite W; cbn [ebind]; [unfold t_msg; rewrite E0; reflexivity|].
      apply (runs_from _ _ (set_inp s r) s4); [|exact Q4|exact Q3]. replace r with (inp s4) by exact Q2. replace (length (env (set_inp s (inp s4)))) with (length (env s4)) by (rewrite Q1; reflexivity).
      apply (place_ok es m M Ees Hm Em s4 c xs fp3); try assumption. rewrite Q1. exact Sc. }
  assert (B1 : runs (SEQ [If (Eq (my fd) NilLit) [Assign [my fd] (App (new_name (message_of fd)) [])] []; Assign [Var n_err] (Met (my fd) ".decode" [Var n_d]); check] s)
     (plain (or_new v2 Sch n (position es ms) x) x (fun _ s0 => t_msg (t_decode room v2 prim Sch n) (position es ms) s0 (inp s))) s ok).
  { pose proof (eval_my P room prim callee T a fs fd s v (sc_x _ _ _ _ _ _ Sc) Ha Hf) as Em'. rewrite seq_cons.
    pose proof (new_assign es m x v M Ees Hm Em HM s Sc eq_refl Ha Hf R Nf) as W.
    destruct (rep_msg_inv f fd es x v fp (heap s) M Ees R Nf) as [(-> & -> & Efp)|(m' & c & xs & fp' & -> & -> & Efp & Hm' & Hst)].
    - rewrite (exec_if_nil P room prim callee _ _ true _ _ s Em' eq_refl). cbn [or_new]. rewrite block_nil, seq_one.
      destruct (GenModel.New v2 Sch n (position es ms)) as [r0 xs| | | |] eqn:EN; try contradiction; cbn [plain]; [|rewrite W; reflexivity|exact I].
      destruct W as [(E0 & W)|(s4 & c & fp3 & W & (Q1 & Q2 & Q3 & Q4) & H1 & H2 & H3 & H4)]; rewrite W; cbn [ebind]; [unfold t_msg; rewrite E0; reflexivity|].
      rewrite leave_same by (rewrite Q1; reflexivity). rewrite set_env_same. apply (runs_from _ _ s s4); [|exact Q4|exact Q3]. rewrite <- Q2.
      eapply runs_weaken; [apply (place_ok es m M Ees Hm Em s4 c xs fp3); try assumption; rewrite Q1; exact Sc|]. cbv beta. tauto.
    - rewrite (exec_if_nil P room prim callee _ _ false _ _ s Em' eq_refl). rewrite (block_same P room prim callee [] s Next s eq_refl eq_refl). cbn [ebind or_new plain].
      rewrite Hm in Hm'. injection Hm' as <-.
      eapply runs_weaken; [apply (place_ok es m M Ees Hm Em s c xs fp'); try assumption|]; cbv beta; rewrite <- ?Efp; [rewrite set_name_id by exact Hf; exact Ha|exact N|apply only_refl|tauto]. }
  destruct v2; [exact B2|exact B1].
Qed.

(** ---- maps: decode.templ 72-83 ---- *)
Variables (kt vt : ftyp).
Hypothesis Etyp : f_typ fd = TMap kt vt.
(** what the functions of the map's type do *)
Definition newmap_spec : Prop := forall z s, callee None (new_name (map_name fd)) [GoBase (VU32 z)] s =
  Fine ([GoMap [] (Some (length (heap s)))], set_heap (add_made s (MakeMap z)) (heap s ++ [OMap []])).
Definition decmap_spec : Prop := forall z b s, nth_error (heap s) b = Some (OMap []) ->
  returns (callee (Some (map_name fd)) (text ".decode") [GoMap (map_name fd) (Some b); GoDecoder; GoBase (VU32 z)] s)
    (t_entries v2 prim Sch n (t_decode room v2 prim Sch n) (kind_of kt) (ftype_of ms vt) (Z.to_nat z) [] (inp s)) s
    (fun l s' => exists vs fp', nth_error (heap s') b = Some (OMap (combine (map fst l) vs)) /\ reps ms (heap s') (repeat (map_value fd vt) (length l)) (map snd l) vs fp' /\
       NoDup (b :: fp') /\ only_at (heap s) (heap s') [b] (b :: fp') /\ env s' = env s).
Hypothesis NEWMAP : newmap_spec.
Hypothesis DECMAP : decmap_spec.

Theorem mapfield_ok m k1 k2 x v : has_message f m -> In fd (m_fields m) -> kind_number (go_GetKind (kind_of kt)) = Some k1 -> kind_number (go_GetKind (kind_of vt)) = Some k2 ->
  tkind (ftype_of ms vt) = kind_of vt ->
  scope sl T a (env s) -> nth_error (heap s) a = Some (OStruct fs) -> find_name (goname fd) fs = Some v -> rep ms (heap s) fd x v fp -> NoDup (a :: fp) ->
  runs (SEQ (decode_message v2 fd) s) (t_message v2 prim Sch n (t_decode room v2 prim Sch n) (MapOf (kind_of kt) (ftype_of ms vt)) x (inp s)) s ok.
Proof.
  intros HM Hin Ek1 Ek2 Etk Sc Ha Hf R N. unfold decode_message. rewrite Etyp. cbn [t_message]. rewrite Etk, Ek1, Ek2.
  rewrite seq_one, (exec_not_nil _ _ s (sc_d _ _ _ _ _ _ Sc)). unfold t_nil. destruct (prim None RNil (inp s)) as [r w|r e|]; [| |reflexivity].
  { rewrite (block_same P room prim callee [] (set_inp s r) Next _ eq_refl eq_refl). apply (runs_done _ _ _ _ (set_inp s r)); try reflexivity.
    exists v, fp. cbn [heap set_inp env]. rewrite set_name_id by exact Hf. repeat (split; [assumption|]). apply only_refl. }
  set (s1 := set_inp s r). apply (runs_from _ _ s s1); [|reflexivity|reflexivity].
  assert (Kc : forall k kk, kind_number (go_GetKind k) = Some kk -> EV (Const (entry (go_GetKind k))) s1 = Fine ([GoKind kk], s1)).
  { intros k kk E. cbn [eval]. unfold kind_number in E. destruct (go_GetKind k) as [nm|]; [|discriminate E]. cbn [entry]. rewrite E. reflexivity. }
  assert (Hd1 : find_name n_d (env s1) = Some GoDecoder) by apply (sc_d _ _ _ _ _ _ Sc).
  rewrite block_nil, seq_cons. cbn [exec]. rewrite (eval_dec2 P room prim callee ".Map" _ _ _ _ s1 Hd1 (Kc _ _ Ek1) (Kc _ _ Ek2)).
  change (decoder_method prim ".Map" [GoKind k1; GoKind k2] s1) with (lib_decode prim (RMap k1 k2) None s1). unfold lib_decode. change (inp s1) with r.
  (* the two variables of the block *)
  set (SZ := size_name fd). assert (Lz : no_lower SZ) by apply size_no_lower.
  assert (Dec : forall z o s0, declare [SZ; n_err] [GoBase (VU32 z); GoError o] s0 = Fine (set_env s0 ((n_err, GoError o) :: (SZ, GoBase (VU32 z)) :: env s0))).
  { intros z o s0. cbn [declare]. rewrite (same_false SZ (text "_")); [reflexivity|]. unfold SZ, size_name. intros E. apply (f_equal (@length Z)) in E. rewrite app_length in E. cbn [length text map list_ascii_of_string] in E. lia. }
  assert (Nzx : forall c t, is_lower c = true -> SZ <> c :: t) by (intros c t L E; rewrite (Lz c t E) in L; discriminate L).
  assert (Fz : forall k (o z : gov) (E : list (bytes * gov)), (exists c t, k = c :: t /\ is_lower c = true) -> k <> n_err -> find_name k ((n_err, o) :: (SZ, z) :: E) = find_name k E).
  { intros k o z E (c & t & -> & L) Nk. cbn [find_name]. rewrite (same_false (c :: t) n_err Nk). rewrite (same_false (c :: t) SZ) by (intros K; symmetry in K; exact (Nzx c t L K)). reflexivity. }
  destruct (prim None (RMap k1 k2) r) as [r2 w|r2 e2|] eqn:Ep; [| |reflexivity].
  2:{ cbn [ebind]. rewrite Dec. cbn [ebind]. rewrite seq_cons, (exec_check P room prim callee _ (Some e2)) by reflexivity. cbn [ebind env set_env set_inp s1].
      apply (runs_fail _ _ _ _ (set_env (set_inp s r2) (env s))); try reflexivity.
      - unfold leave. cbn [length]. replace (S (S (length (env s))) - length (env s))%nat with 2%nat by lia. reflexivity.
      - exists v, fp. cbn [heap set_inp set_env env]. rewrite set_name_id by exact Hf. repeat (split; [assumption|]). apply only_refl. }
  pose proof (sp_type _ SP _ _ _ _ _ Ep) as Ww. destruct w as [| | | | | | | | | | | | | |]; try discriminate Ww; cbn [want] in Ww.
  match type of Ep with _ = Done _ (VMap ?z _ _) => rename z into size end.
  cbn [ebind]. rewrite Dec. cbn [ebind]. set (s2 := set_env (set_inp s1 r2) ((n_err, GoError None) :: (SZ, GoBase (VU32 size)) :: env (set_inp s1 r2))).
  rewrite seq_cons, (exec_check P room prim callee s2 None) by reflexivity. cbn [ebind].
  assert (Hsz2 : find_name SZ (env s2) = Some (GoBase (VU32 size))).
  { cbn [s2 env set_env find_name]. rewrite (same_false SZ n_err) by (apply Nzx; reflexivity). rewrite same_refl. reflexivity. }
  assert (Hx2 : find_name n_x (env s2) = Some (GoPtr T (Some a))) by (cbn [s2 env set_env]; rewrite Fz; [apply (sc_x _ _ _ _ _ _ Sc)|exists 120, []; auto|ne]).
  assert (Hd2 : find_name n_d (env s2) = Some GoDecoder) by (cbn [s2 env set_env]; rewrite Fz; [apply (sc_d _ _ _ _ _ _ Sc)|exists 100, []; auto|ne]).
  (* x.F = NewFMap(size) *)
  assert (InN : In (DFunc (mkfunc None (new_name (map_name fd)) [n_size] [XText n_u32] (Some (XMap (type_text (map_key fd kt)) (type_text (map_value fd vt)))) [Return [MakeM (type_text (map_key fd kt)) (type_text (map_value fd vt)) (Var n_size)]] false)) P).
  { apply (in_P_map v2 f m fd _ HM Hin). unfold map_decls. rewrite Etyp. right. left. reflexivity. }
  assert (Nn2 : find_name (new_name (map_name fd)) (env s2) = None).
  { cbn [s2 env set_env find_name]. rewrite (same_false (new_name (map_name fd)) n_err) by ne. rewrite (same_false (new_name (map_name fd)) SZ).
    - apply (sc_names _ _ _ _ _ _ Sc). rewrite <- program_names. apply in_flat_map. eexists. split; [exact InN|left; reflexivity].
    - intros E. symmetry in E. revert E. apply size_not_map. }
  rewrite seq_cons. cbn [exec]. rewrite (eval_call1 v2 f room prim callee (new_name (map_name fd)) (Var SZ) (GoBase (VU32 size)) s2 Nn2); [|ne|ne| |apply eval_var, Hsz2].
  2:{ eapply find_type_none; [exact (na_once _ _ NA)|exact InN|left; reflexivity|discriminate]. }
  rewrite NEWMAP. cbn [ebind stores]. set (b := length (heap s2)). set (s3 := set_heap (add_made s2 (MakeMap size)) (heap s2 ++ [OMap []])).
  assert (Hb : (a < b)%nat) by exact (nth_bound _ _ _ Ha). assert (Ha3 : nth_error (heap s3) a = Some (OStruct fs)) by (apply nth_old; exact Ha).
  assert (Fv : fit v (GoMap [] (Some b)) = Some (GoMap (map_name fd) (Some b))).
  { assert (Ev : exists o, v = GoMap (map_name fd) o).
    { clear -R Etyp. destruct R as [fd v0 K1 K2|fd s0 K1 K2|fd s0 m0 xs vs a0 fp K1 K2 K3 K4 K5|fd K1 K2|fd xs vs a0 fp K1 K2 K3 K4 K5|fd k0 v0 K1|fd k0 v0 l vs a0 fp K1 K2 K3]; eauto.
      - exfalso. rewrite Etyp in K2. cbn in K2. discriminate K2.
      - congruence.
      - congruence.
      - unfold is_map in K2. rewrite Etyp in K2. discriminate K2.
      - unfold is_map in K2. rewrite Etyp in K2. discriminate K2. }
    destruct Ev as (o & ->). cbn [fit]. rewrite orb_true_r. reflexivity. }
  rewrite (store_my P room prim callee T a fs fd s3 v (GoMap [] (Some b)) (GoMap (map_name fd) (Some b)) Hx2 Ha3 Hf Fv). cbn [ebind].
  set (s4 := set_heap s3 (set_at a (OStruct (set_name (goname fd) (GoMap (map_name fd) (Some b)) fs)) (heap s3))).
  (* err = x.F.decode(d, size) *)
  assert (Ha4 : nth_error (heap s4) a = Some (OStruct (set_name (goname fd) (GoMap (map_name fd) (Some b)) fs))) by (cbn [s4 heap set_heap]; exact (nth_set_at_same _ _ _ _ Ha3)).
  assert (Hb4 : nth_error (heap s4) b = Some (OMap [])) by (cbn [s4 heap set_heap]; rewrite nth_set_at_other by lia; apply nth_new).
  rewrite seq_cons. cbn [exec eval]. rewrite (one_my P room prim callee T a _ fd s4 (GoMap (map_name fd) (Some b)) Hx2 Ha4); [|exact (find_set_same _ _ _ _ Hf)]. cbn [ebind each].
  rewrite (one_var P room prim callee n_d GoDecoder s4 Hd2). cbn [ebind]. rewrite (one_var P room prim callee SZ (GoBase (VU32 size)) s4 Hsz2). cbn [ebind method].
  pose proof (DECMAP size b s4 Hb4) as D. change (inp s4) with r2 in D. cbn [tbind].
  assert (Fin : forall l s5, (exists vs fp', nth_error (heap s5) b = Some (OMap (combine (map fst l) vs)) /\ reps ms (heap s5) (repeat (map_value fd vt) (length l)) (map snd l) vs fp' /\
       NoDup (b :: fp') /\ only_at (heap s4) (heap s5) [b] (b :: fp') /\ env s5 = env s4) -> forall o,
     exec P room prim callee check (set_env s5 (set_name n_err (GoError o) (env s5))) = (match o with None => Fine (Next, set_env s5 (set_name n_err (GoError o) (env s5))) | Some e => Fine (Ret [GoError (Some e)], set_env s5 (set_name n_err (GoError o) (env s5))) end) /\
     ok (GMap (Some l)) (set_env s5 (leave (env s1) (set_name n_err (GoError o) (env s5))))).
  { intros l s5 (vs & fp' & H1 & H2 & H3 & H4 & H5) o. assert (En : set_name n_err (GoError o) (env s5) = (n_err, GoError o) :: (SZ, GoBase (VU32 size)) :: env s) by (rewrite H5; reflexivity). split.
    - apply exec_check. rewrite En. reflexivity.
    - rewrite En. assert (El : leave (env s1) ((n_err, GoError o) :: (SZ, GoBase (VU32 size)) :: env s) = env s).
      { unfold leave. cbn [length s1 env set_inp]. replace (S (S (length (env s))) - length (env s))%nat with 2%nat by lia. reflexivity. }
      rewrite El. exists (GoMap (map_name fd) (Some b)), (b :: fp'). cbn [heap env set_env]. split; [exact Sc|].
      assert (Na : ~ In a (b :: fp')).
      { intros K. destruct H4 as (_ & _ & H4). destruct (H4 a K) as [[K'|[]]|K']; [lia|]. cbn [s4 heap set_heap] in K'. rewrite set_at_length in K'. cbn [s3 heap set_heap] in K'. rewrite app_length in K'. unfold b in Hb. lia. }
      split; [|split; [|split]].
      + destruct H4 as (_ & H4 & _). rewrite H4; [exact Ha4|exact (nth_bound _ _ _ Ha4)|]. intros [K|[]]. lia.
      + eapply rep_map; [exact Etyp|exact H1|exact H2].
      + constructor; [exact Na|exact H3].
      + eapply (only_trans _ (heap s4) _ _ (a :: [b])).
        * cbn [s4 heap set_heap s3 s2 set_env set_inp s1 add_made]. split; [rewrite set_at_length, app_length; lia|]. split.
          -- intros c Hc Hn'. rewrite nth_set_at_other by (intros ->; apply Hn'; left; reflexivity). apply nth_error_app1. exact Hc.
          -- intros c [<-|[<-|[]]]; [left; left; reflexivity|right; unfold b; cbn [s2 heap set_env set_inp s1]; lia].
        * apply (only_frame _ _ [a] [b] (b :: fp') []) in H4. cbn [app] in H4. rewrite app_nil_r in H4. exact H4. }
  unfold runs, returns, agrees in *.
  destruct (t_entries v2 prim Sch n (t_decode room v2 prim Sch n) (kind_of kt) (ftype_of ms vt) (Z.to_nat size) [] r2) as (l & [r3 y|e9 y| | |]); cbn [snd fst tbind ret app] in *; try (rewrite D; reflexivity); [| |exact I].
  - destruct D as (s5 & -> & Ei & Ho & M5 & O5). destruct (Fin y s5 Ho None) as (E5 & F5). cbn [ebind stores].
    rewrite (store_var P room prim callee n_err s5 (GoError None) GoNil (GoError None)); [|destruct Ho as (? & ? & _ & _ & _ & _ & ->); reflexivity|reflexivity]. cbn [ebind].
    rewrite seq_one, E5. cbn [ebind]. eexists. split; [reflexivity|]. cbn [inp set_env out made env]. split; [exact Ei|]. split; [exact F5|]. split; [|exact O5].
    rewrite app_nil_r, M5. cbn [s4 made set_heap s3 add_made s2 set_env set_inp s1]. rewrite <- app_assoc. reflexivity.
  - destruct D as (s5 & -> & Ho & M5 & O5). destruct (Fin y s5 Ho (Some e9)) as (E5 & F5). cbn [ebind stores].
    rewrite (store_var P room prim callee n_err s5 (GoError None) (GoError (Some e9)) (GoError (Some e9))); [|destruct Ho as (? & ? & _ & _ & _ & _ & ->); reflexivity|reflexivity]. cbn [ebind].
    rewrite seq_one, E5. cbn [ebind]. eexists. split; [reflexivity|]. cbn [inp set_env out made env]. split; [exact F5|]. split; [|exact O5].
    rewrite M5. cbn [s4 made set_heap s3 add_made s2 set_env set_inp s1]. rewrite <- app_assoc. reflexivity.
Qed.
End Field.
End Msgs.
