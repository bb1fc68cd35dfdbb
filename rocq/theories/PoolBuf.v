(** The buffer pool and the decoder pool as instances. *)
From Verif Require Import Base Spec SpecProofs BufSpec GoBuf GoBuf2 GoThms3 PoolModel PoolSpec PoolProofs.
From Verif Require V1Model V2Model.
Import V2Model.

(** ** every operation keeps length = capacity *)
Definition full (b : buffer) : Prop := blen b = zlen (arr b).
Definition okp {A} (P : A -> Prop) (x : res A) : Prop := forall a, x = Ok a -> P a.
Lemma okp_bind {A B} (Q : A -> Prop) (P : B -> Prop) x f :
  okp Q x -> (forall a, Q a -> okp P (f a)) -> okp P (bind x f).
Proof. intros Hx Hf b H. destruct x as [a|]; [|discriminate]. cbn in H. apply (Hf a (Hx a eq_refl) b H). Qed.
Lemma okp_ok {A} (P : A -> Prop) a : P a -> okp P (Ok a).
Proof. intros H b E. injection E as <-. exact H. Qed.
Lemma okp_panic {A} (P : A -> Prop) : okp P Panic.
Proof. intros b E. discriminate. Qed.
Lemma okp_if {A} (P : A -> Prop) (c : bool) x y : okp P x -> okp P y -> okp P (if c then x else y).
Proof. destruct c; auto. Qed.
Lemma store_full b i c : full b -> okp full (store b i c).
Proof.
  unfold full, store. intros Hb. destruct ((i <? 0) || (blen b <=? i)) eqn:E; [apply okp_panic|].
  apply okp_ok. cbn. rewrite zlen_splice; [exact Hb|lia|]. rewrite zlen_cons, zlen_nil. lia.
Qed.
Lemma copy_full b i p : full b -> okp (fun x => full (fst x)) (copy_at b i p).
Proof.
  unfold full, copy_at. intros Hb. destruct ((i <? 0) || (blen b <? i)) eqn:E; [apply okp_panic|].
  apply okp_ok. cbn. pose proof (zlen_nonneg p). rewrite zlen_splice; [exact Hb|lia|]. rewrite zlen_ztake; lia.
Qed.
Lemma set_full b o : full b -> full (set_off b o).
Proof. exact (fun H => H). Qed.
Lemma Grow_keeps g b n : full b -> okp full (Grow g b n).
Proof.
  unfold Grow. intros Hb. apply okp_if; [|apply okp_ok; exact Hb].
  apply (okp_bind (fun _ => True)); [intros ? _; exact I|]. intros b' _. apply okp_ok. reflexivity.
Qed.
Lemma Write_keeps g b p : full b -> okp full (Write g b p).
Proof.
  unfold Write. intros Hb. apply (okp_bind full); [apply Grow_keeps; exact Hb|]. intros b' Hb'.
  destruct ((off b' <? 0) || (Cap b' <? off b')) eqn:E; [apply okp_panic|]. apply okp_ok. unfold full, Cap in *. cbn.
  pose proof (zlen_nonneg p). rewrite zlen_splice; [exact Hb'|lia|]. rewrite zlen_ztake; lia.
Qed.
Ltac wp := repeat first
  [ progress cbv zeta
  | match goal with
    | x : (buffer * Z)%type |- _ => destruct x; cbn [fst snd] in *
    | |- okp _ (bind (Grow _ _ _) _) => apply (okp_bind full); [apply Grow_keeps; assumption|intros]
    | |- okp _ (bind (store _ _ _) _) => apply (okp_bind full); [apply store_full; assumption|intros]
    | |- okp _ (bind (copy_at _ _ _) _) => apply (okp_bind (fun x => full (fst x))); [apply copy_full; assumption|intros]
    | |- okp _ (bind (if _ then _ else _) _) => first [apply (okp_bind (fun x : buffer * Z => full (fst x))) | apply (okp_bind full)]; [|intros]
    | |- okp _ (if _ then _ else _) => apply okp_if
    | |- okp _ (Ok _) => apply okp_ok
    | |- full (set_off _ _) => apply set_full
    | |- full (fst (_, _)) => cbn [fst]
    | H : full (fst (_, _)) |- _ => cbn [fst] in H
    | |- full _ => assumption
    end ].
Lemma encode_keeps g b v : full b -> okp full (encode g b v).
Proof.
  intros Hb. destruct v; cbn [encode].
  - unfold encodeNil. wp.
  - unfold encodeMap. wp.
  - unfold encodeSlice. wp.
  - unfold encodeBytes. wp.
  - unfold encodeString. wp.
  - unfold encodeError. wp.
  - unfold encodeBool. wp.
  - unfold encodeUint8. wp.
  - unfold encodeUint16. wp.
  - unfold encodeUint32. wp.
  - unfold encodeUint64. wp.
  - unfold encodeInt32. wp.
  - unfold encodeInt64. wp.
  - unfold encodeFloat32. wp.
  - unfold encodeFloat64. wp.
Qed.

Lemma apply_keeps g b o : full b -> okp full (apply g b o).
Proof.
  intros Hb. destruct o; cbn [apply].
  - apply encode_keeps; exact Hb.
  - apply Write_keeps; exact Hb.
  - apply okp_ok. exact Hb.
  - apply Grow_keeps; exact Hb.
  - apply okp_ok. exact Hb.
Qed.
Lemma buf_op_full o b b' : buf_op o b b' -> full b -> full b'.
Proof.
  intros H Hb. destruct H as [g b' H|g a' _ H].
  - exact (apply_keeps g b o Hb b' H).
  - unfold full in *. cbn. lia.
Qed.
Lemma new_full n : 0 <= n -> full (NewBufferSize n).
Proof. intros H. unfold full, NewBufferSize. cbn. rewrite zlen_repeat. lia. Qed.

(** ** C28 *)
Lemma reset_empty b : Bytes (Reset b) = Ok [] /\ Len (Reset b) = 0.
Proof.
  unfold Bytes, Reset, Len, Cap. cbn. pose proof (zlen_nonneg (arr b)). split; [|reflexivity].
  destruct (zlen (arr b) <? 0) eqn:E; [lia|]. reflexivity.
Qed.
Lemma reset_wf b : full b -> wf (Reset b).
Proof. unfold full, wf, Reset. cbn. pose proof (zlen_nonneg (arr b)). lia. Qed.
Lemma orderly_app {A O X} (tr tr' : list (event A O X)) : forall h,
  orderly h (tr ++ tr') <-> orderly h tr /\ orderly (fold_left note tr h) tr'.
Proof.
  induction tr as [|e tr IH]; intros h; cbn [app orderly fold_left]; [tauto|]. rewrite IH. tauto.
Qed.

Lemma pool_get_empty tr t a x s : orderly nothing (tr ++ [EGet t a x]) ->
  buf_steps empty_pool (tr ++ [EGet t a x]) s ->
  exists b, heap s a = Some b /\ Bytes b = Ok [] /\ Len b = 0.
Proof.
  intros Ho H. pose proof (inv_reach buf_mk buf_reuse buf_clear buf_op (fun _ => True) (fun _ => True)
    (fun _ => I) (fun _ _ _ => I) (fun _ _ _ _ _ => I) (fun _ _ _ _ => I) _ _ Ho
    (proj2 (Forall_forall _ _) (fun _ _ => I)) H) as Iv.
  assert (E : histories (tr ++ [EGet t a x]) t a = Some (inl x, [])).
  { unfold histories. rewrite fold_left_app. cbn. apply assign_same. }
  destruct (i_own _ _ _ _ _ _ _ Iv _ _ _ _ E) as (_ & o0 & o & Hs & Hr & Hh & _).
  exists o. split; [exact Hh|]. inversion Hr as [|? ps]; subst; [|destruct ps; discriminate].
  destruct Hs as [-> | (o' & _ & ->)].
  - split; reflexivity.
  - apply reset_empty.
Qed.
Lemma pool_get_fit tr t a x s : orderly nothing (tr ++ [EGet t a x]) -> Forall makes_full tr ->
  buf_steps empty_pool (tr ++ [EGet t a x]) s ->
  exists b, heap s a = Some b /\ wf b /\ Bytes b = Ok [].
Proof.
  intros Ho Hm H. assert (Hm' : Forall makes_full (tr ++ [EGet t a x])) by (apply Forall_app; split; [exact Hm|repeat constructor]).
  assert (N : forall u, full (buf_mk u)) by (intros u; apply new_full; unfold defaultSize; lia).
  pose proof (inv_reach buf_mk buf_reuse buf_clear buf_op full makes_full N (fun _ o H => H)
    buf_op_full (fun _ _ o H => H) _ _ Ho Hm' H) as Iv.
  assert (E : histories (tr ++ [EGet t a x]) t a = Some (inl x, [])).
  { unfold histories. rewrite fold_left_app. cbn. apply assign_same. }
  destruct (i_own _ _ _ _ _ _ _ Iv _ _ _ _ E) as (_ & o0 & o & Hs & Hr & Hh & _).
  exists o. split; [exact Hh|]. inversion Hr as [|? ps]; subst; [|destruct ps; discriminate].
  destruct Hs as [-> | (o' & G & ->)].
  - apply NewBufferSize_ok. unfold defaultSize. lia.
  - split; [apply reset_wf; exact G|apply reset_empty].
Qed.

(** ** C29 *)
(** what a client sees of the buffer it holds: the log of its own operations *)
Lemma runs_log ps : forall o0 o, wf o0 -> Bytes o0 = Ok [] -> ok2_all [] ps -> runs buf_op o0 ps o ->
  wf o /\ Bytes o = Ok (fold_left log2 ps []).
Proof.
  assert (OA : forall ps p l, ok2_all l (ps ++ [p]) <-> ok2_all l ps /\ ok2 (fold_left log2 ps l) p).
  { clear. induction ps as [|q ps IH]; intros p l; cbn [app ok2_all fold_left]; [tauto|]. rewrite IH. tauto. }
  intros o0 o W0 B0 Hok H. induction H as [|o0 ps o1 p o2 H IH Hp]; [split; assumption|].
  apply OA in Hok. destruct Hok as [Hok Hpk]. destruct (IH W0 B0 Hok) as [W1 B1].
  assert (HA : forall g, exists b', apply g o1 p = Ok b' /\ wf b' /\ Bytes b' = Ok (fold_left log2 (ps ++ [p]) [])).
  { intros g. destruct (run2_api g [p] o1 _ W1 B1) as (b' & R & W' & B' & _); [cbn; tauto|].
    exists b'. rewrite fold_left_app. cbn [run fold_left] in *. destruct (apply g o1 p); [|discriminate R].
    cbn in R. injection R as ->. split; [reflexivity|split; assumption]. }
  destruct Hp as [g b' E|g a' E _]; destruct (HA g) as (b'' & E' & W' & B'); rewrite E in E'; [|discriminate].
  injection E' as <-. split; assumption.
Qed.
(** clients that only make calls covered by the log, on buffers that are empty to begin with *)
Definition logged (h : history buffer op unit) : Prop :=
  forall t a x ps, h t a = Some (x, ps) -> ok2_all [] ps /\ (forall b, x = inr b -> Bytes b = Ok []).
Lemma pool_private tr s : orderly nothing tr -> Forall makes_full tr -> buf_steps empty_pool tr s ->
  (forall t t' a, histories tr t a <> None -> histories tr t' a <> None -> t = t') /\
  (forall t a x ps, histories tr t a = Some (x, ps) -> ~ In a (free s)) /\
  (forall t a x ps, histories tr t a = Some (x, ps) ->
     ok2_all [] ps -> (forall b, x = inr b -> Bytes b = Ok []) ->
     exists b, heap s a = Some b /\ wf b /\ Bytes b = Ok (fold_left log2 ps [])).
Proof.
  intros Ho Hm H.
  assert (N : forall u, full (buf_mk u)) by (intros u; apply new_full; unfold defaultSize; lia).
  pose proof (inv_reach buf_mk buf_reuse buf_clear buf_op full makes_full N (fun _ o H => H)
    buf_op_full (fun _ _ o H => H) _ _ Ho Hm H) as Iv.
  split; [apply (i_excl _ _ _ _ _ _ _ Iv)|]. split.
  - intros t a x ps E. destruct (i_own _ _ _ _ _ _ _ Iv _ _ _ _ E) as (Hn & _). rewrite in_app_iff in Hn. tauto.
  - intros t a x ps E Hok Hx. destruct (i_own _ _ _ _ _ _ _ Iv _ _ _ _ E) as (_ & o0 & o & Hs & Hr & Hh & _).
    exists o. split; [exact Hh|]. apply (runs_log ps o0); try assumption.
    + destruct x as [u|b]; cbn in Hs.
      * destruct Hs as [-> | (o' & G & ->)]; [apply NewBufferSize_ok; unfold defaultSize; lia|apply reset_wf; exact G].
      * destruct Hs as [-> G]. specialize (Hx _ eq_refl). unfold Bytes in Hx.
        destruct ((off b <? 0) || (Cap b <? off b)) eqn:Eo; [discriminate|]. unfold Cap in Eo. split; [exact G|lia].
    + destruct x as [u|b]; cbn in Hs.
      * destruct Hs as [-> | (o' & G & ->)]; [reflexivity|apply reset_empty].
      * destruct Hs as [-> G]. apply Hx. reflexivity.
Qed.

(** ** C30 *)
Lemma dec_get_start W tr t a b s : dec_steps W empty_pool (tr ++ [EGet t a b]) s -> heap s a = Some b.
Proof.
  intros H. remember (tr ++ [EGet t a b]) as l eqn:E. revert tr E. induction H as [s|s e s1 tr' s2 H1 H2 IH]; intros tr E.
  - destruct tr; discriminate.
  - destruct tr as [|e' tr].
    + cbn in E. injection E as -> ->. inversion H2; subst. inversion H1; subst; cbn; apply set_same.
    + cbn in E. injection E as -> ->. eapply IH. reflexivity.
Qed.
Lemma runs_reading W ps : forall b0 b, runs (dec_op W) b0 ps b -> own_outcomes W b0 ps /\ b = reading b0 ps.
Proof.
  assert (RA : forall ps p b, reading b (ps ++ [p]) = match rest_of (snd p) with Some r => r | None => reading b ps end).
  { clear. induction ps as [|[q o] ps IH]; intros [q' o'] b; cbn [app reading snd]; [reflexivity|]. apply IH. }
  assert (OA : forall ps q o b, own_outcomes W b (ps ++ [(q, o)]) <->
            own_outcomes W b ps /\ o = V1Model.decode W None q (reading b ps)).
  { clear. induction ps as [|[q' o'] ps IH]; intros q o b; cbn [app own_outcomes reading]; [tauto|]. rewrite IH. tauto. }
  intros b0 b H. induction H as [b0|b0 ps b1 [q o] b2 H [IH1 IH2] Hp].
  - split; [exact I|reflexivity].
  - destruct Hp as [Hp]. cbn [fst snd] in *. rewrite OA, RA. cbn [snd]. subst b1. repeat split; assumption.
Qed.
Lemma decoder_private W tr s : orderly nothing tr -> dec_steps W empty_pool tr s ->
  (forall t t' a, histories tr t a <> None -> histories tr t' a <> None -> t = t') /\
  (forall t a x ps, histories tr t a = Some (x, ps) ->
     ~ In a (free s) /\ own_outcomes W (input_of x) ps /\ heap s a = Some (reading (input_of x) ps)).
Proof.
  intros Ho H.
  pose proof (inv_reach dec_mk dec_reuse dec_clear (dec_op W) (fun _ => True) (fun _ => True)
    (fun _ => I) (fun _ _ _ => I) (fun _ _ _ _ _ => I) (fun _ _ _ _ => I) _ _ Ho
    (proj2 (Forall_forall _ _) (fun _ _ => I)) H) as Iv.
  split; [apply (i_excl _ _ _ _ _ _ _ Iv)|].
  intros t a x ps E. destruct (i_own _ _ _ _ _ _ _ Iv _ _ _ _ E) as (Hn & o0 & o & Hs & Hr & Hh & _).
  rewrite in_app_iff in Hn. split; [tauto|].
  assert (o0 = input_of x) as ->.
  { destruct x as [b|b]; cbn in *; [destruct Hs as [-> | (o' & _ & ->)]; reflexivity|apply Hs]. }
  apply runs_reading in Hr. destruct Hr as [R1 R2]. split; [exact R1|]. rewrite Hh, R2. reflexivity.
Qed.

(** ** what lies in the pools *)
Lemma nodup_front {A} (l l' : list A) : NoDup (l ++ l') -> NoDup l.
Proof.
  induction l as [|x l IH]; cbn; intros H; [constructor|]. inversion H; subst. constructor; [|auto].
  intros Hx. apply H2. apply in_app_iff. left. exact Hx.
Qed.
Lemma pool_idle tr s : orderly nothing tr -> buf_steps empty_pool tr s ->
  NoDup (free s) /\ forall a, In a (free s) -> exists b, heap s a = Some b /\ Bytes b = Ok [].
Proof.
  intros Ho H. pose proof (inv_reach buf_mk buf_reuse buf_clear buf_op (fun _ => True) (fun _ => True)
    (fun _ => I) (fun _ _ _ => I) (fun _ _ _ _ _ => I) (fun _ _ _ _ => I) _ _ Ho
    (proj2 (Forall_forall _ _) (fun _ _ => I)) H) as Iv. split.
  - pose proof (i_nodup _ _ _ _ _ _ _ Iv) as N. exact (nodup_front _ _ N).
  - intros a Ha. destruct (i_idle _ _ _ _ _ _ _ Iv a) as (o & _ & Hh); [apply in_app_iff; left; exact Ha|].
    exists (buf_clear o). split; [exact Hh|]. apply reset_empty.
Qed.
Lemma decoders_idle W tr s : orderly nothing tr -> dec_steps W empty_pool tr s ->
  NoDup (free s) /\ forall a, In a (free s) -> heap s a = Some [].
Proof.
  intros Ho H.
  pose proof (inv_reach dec_mk dec_reuse dec_clear (dec_op W) (fun _ => True) (fun _ => True)
    (fun _ => I) (fun _ _ _ => I) (fun _ _ _ _ _ => I) (fun _ _ _ _ => I) _ _ Ho
    (proj2 (Forall_forall _ _) (fun _ _ => I)) H) as Iv. split.
  - pose proof (i_nodup _ _ _ _ _ _ _ Iv) as N. exact (nodup_front _ _ N).
  - intros a Ha. destruct (i_idle _ _ _ _ _ _ _ Iv a) as (o & _ & Hh); [apply in_app_iff; left; exact Ha|]. exact Hh.
Qed.
