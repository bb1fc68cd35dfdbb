(** Proofs for C87: sequences of calls. *)
From Verif Require Import Base Spec SpecProofs GoSpec GoThms2 GoThms3 AliasModel AliasSpec AliasThms2.
From Verif Require V1Model V2Model.

Definition memory_of (s t : slice) : Prop := sarr t = sarr s /\ lo t = lo s /\ scap t = scap s.
Lemma dests_cons c cs : dests (c :: cs) = match dst_of c with Some s => [s] | None => [] end ++ dests cs.
Proof. destruct c as [[s|]|q]; reflexivity. Qed.
Section Seq.
Variable W : Z.
Variable dec : option bytes -> request -> bytes -> outcome.
Variable step : heap -> slice -> hcall -> hres.
Hypothesis HS : forall h d c, (forall s, dst_of c = Some s -> sound h s) -> bytes_ok (content h d) -> int_ok W (content h d) ->
  step_ok dec step h d c.
Hypothesis HSuf : forall o q b r v, bytes_ok b -> int_ok W b -> dec o q b = Done r v -> exists c, b = c ++ r.

Lemma read_calls_same h h' cs b : (forall s, In s (dests cs) -> content h' s = content h s) ->
  read_calls dec h' cs b = read_calls dec h cs b.
Proof.
  revert b. induction cs as [|c cs IH]; intros b H; [reflexivity|]. cbn [read_calls].
  assert (H2 : forall s, In s (dests cs) -> content h' s = content h s).
  { intros s Hs. apply H. rewrite dests_cons. apply in_or_app. right. exact Hs. }
  assert (E : (match c with CBytes (Some s) => Some (content h' s) | _ => None end) =
              (match c with CBytes (Some s) => Some (content h s) | _ => None end)).
  { destruct c as [[s|]|q]; try reflexivity. rewrite (H s); [reflexivity|left; reflexivity]. }
  rewrite E. destruct (dec _ (req c) b) as [r v| |]; try reflexivity. rewrite (IH r H2). reflexivity.
Qed.
Lemma apart_tail d k c cs : 0 <= k <= slen d -> apart d (c :: cs) -> apart (from d k) cs.
Proof.
  intros Hk [A1 A2]. rewrite dests_cons in *. split.
  - intros s a i Hs Ho Hsh. apply (A1 s a i); [apply in_or_app; right; exact Hs|exact Ho|].
    destruct Hsh as [S1 S2]. cbn [from sarr lo slen] in *. split; [exact S1|lia].
  - intros i j s t a n Hi Hj O1 O2. destruct (dst_of c) as [u|]; cbn [app] in A2.
    + specialize (A2 (S i) (S j) s t a n Hi Hj O1 O2). lia.
    + exact (A2 i j s t a n Hi Hj O1 O2).
Qed.
Lemma apart_head c cs u d : dst_of c = Some u -> apart d (c :: cs) ->
  forall s a i, In s (dests cs) -> owns u a i -> ~ owns s a i.
Proof.
  intros Hc [_ A2] s a i Hs O1 O2. rewrite dests_cons, Hc in A2. cbn [app] in A2.
  destruct (In_nth_error _ _ Hs) as [j Hj]. specialize (A2 0%nat (S j) u s a i eq_refl Hj O1 O2). discriminate A2.
Qed.
Lemma sound_grow h h' s : (length h <= length h')%nat -> (forall a, (a < length h)%nat -> zlen (array h' a) = zlen (array h a)) ->
  sound h s -> sound h' s.
Proof. intros L Z (S1 & S2 & S3 & S4). unfold sound. rewrite Z by exact S1. split; [lia|auto]. Qed.

Definition good (cs : list hcall) (h : heap) (d : slice) (h' : heap) (d' : slice) (vs : list hval) : Prop :=
  content h' d = content h d /\
  (length h <= length h')%nat /\
  (forall a, (a < length h)%nat -> zlen (array h' a) = zlen (array h a)) /\
  (forall a i, (a < length h)%nat -> 0 <= i -> (forall s, In s (dests cs) -> ~ owns s a i) -> cell h' a i = cell h a i) /\
  (forall t, In (HSlice (Some t)) vs -> sound h' t /\
     ((length h <= sarr t)%nat \/ exists s, In s (dests cs) /\ memory_of s t)) /\
  (forall i j t u a k, nth_error vs i = Some (HSlice (Some t)) -> nth_error vs j = Some (HSlice (Some u)) ->
     owns t a k -> owns u a k -> i = j).
Lemma calls_ok cs : forall h d, sound h d -> bytes_ok (content h d) -> int_ok W (content h d) ->
  (forall s, In s (dests cs) -> sound h s) -> apart d cs ->
  match read_calls dec h cs (content h d) with
  | None => steps step h d cs = None
  | Some (ws, r) => exists h' d' vs, steps step h d cs = Some (h', d', vs) /\ content h' d' = r /\
      map (final h') vs = ws /\ good cs h d h' d' vs
  end.
Proof.
  induction cs as [|c cs IH]; intros h d Hd Hb Hi Hs Ha.
  { cbn [read_calls steps]. exists h, d, []. split; [reflexivity|]. split; [reflexivity|]. split; [reflexivity|].
    split; [reflexivity|]. split; [lia|]. split; [reflexivity|]. split; [reflexivity|]. split; [intros t []|].
    intros i j t u a k Hn. destruct i; discriminate Hn. }
  assert (Hs1 : forall s, dst_of c = Some s -> sound h s).
  { intros s E. apply Hs. rewrite dests_cons, E. left. reflexivity. }
  assert (Hs2 : forall s, In s (dests cs) -> sound h s).
  { intros s E. apply Hs. rewrite dests_cons. apply in_or_app. right. exact E. }
  pose proof (HS h d c Hs1 Hb Hi) as ST. unfold step_ok in ST. cbn [read_calls steps].
  assert (E0 : (match c with CBytes (Some s) => Some (content h s) | _ => None end) =
               (match dst_of c with Some s => Some (content h s) | None => None end)) by (destruct c as [[s|]|q]; reflexivity).
  rewrite E0. clear E0.
  destruct (dec _ (req c) (content h d)) as [r v|r e|] eqn:ED; [|rewrite ST; reflexivity|rewrite ST; reflexivity].
  destruct ST as (h1 & x & -> & Fx & L1 & Z1 & C1 & T1).
  destruct (HSuf _ _ _ _ _ Hb Hi ED) as [pre Epre].
  pose proof (content_len h d Hd) as Ld. pose proof Hd as (D1 & D2 & D3 & D4).
  pose proof (zlen_nonneg r) as Lr. pose proof (zlen_nonneg pre) as Lp.
  assert (Lk : slen d - zlen r = zlen pre) by (rewrite <- Ld, Epre, zlen_app; lia).
  set (k := slen d - zlen r) in *. set (d1 := from d k).
  (* the input is unchanged *)
  assert (In1 : content h1 d = content h d).
  { apply content_same; [lia|]. intros i Hr. apply C1; [exact D1|lia|]. intros s Es O.
    destruct Ha as [A1 _]. apply (A1 s (sarr d) i); [rewrite dests_cons, Es; left; reflexivity|exact O|split; [reflexivity|lia]]. }
  assert (Ed1 : content h1 d1 = r).
  { unfold d1. rewrite content_from by lia. rewrite In1, Epre, Lk. apply zdrop_app_exact. }
  (* destinations of later calls are unchanged *)
  assert (Dc : forall s, In s (dests cs) -> content h1 s = content h s).
  { intros s Es. pose proof (Hs2 s Es) as (S1 & S2 & S3 & S4). apply content_same; [lia|]. intros i Hr. apply C1; [exact S1|lia|].
    intros u Eu O. apply (apart_head c cs u d Eu Ha s (sarr s) i Es O). split; [reflexivity|lia]. }
  rewrite <- (read_calls_same h h1 cs r Dc). rewrite <- Ed1.
  assert (Hd1 : sound h1 d1).
  { unfold sound, d1, from; cbn [sarr lo slen scap]. rewrite Z1 by exact D1. lia. }
  assert (Hs1' : forall s, In s (dests cs) -> sound h1 s) by (intros s Es; apply (sound_grow h h1); auto).
  assert (Hb1 : bytes_ok (content h1 d1)).
  { rewrite Ed1. unfold bytes_ok in *. rewrite Epre in Hb. apply Forall_app in Hb. apply Hb. }
  assert (Hi1 : int_ok W (content h1 d1)).
  { rewrite Ed1. destruct Hi as [Hi1 Hi2]. split; [exact Hi1|]. rewrite Epre, zlen_app in Hi2. lia. }
  specialize (IH h1 d1 Hd1 Hb1 Hi1 Hs1' ltac:(unfold d1; eapply apart_tail; [lia|exact Ha])).
  destruct (read_calls dec h1 cs (content h1 d1)) as [[ws r']|]; [|rewrite IH; reflexivity].
  destruct IH as (h' & d' & vs & -> & Er & Fv & G1 & G2 & G3 & G4 & G5 & G6).
  assert (TT : forall t, x = HSlice (Some t) -> forall s a i, In s (dests cs) -> owns t a i -> ~ owns s a i).
  { intros t Et s a i Es O1 O2. destruct (T1 t Et) as [_ [Hf|(u & Eu & M1 & M2 & M3)]].
    - destruct (Hs2 s Es) as (S1 & _). destruct O1 as [<- _]. destruct O2 as [E _]. lia.
    - apply (apart_head c cs u d Eu Ha s a i Es); [|exact O2]. destruct O1 as [O1 O1']. split; [congruence|rewrite <- M2, <- M3; exact O1']. }
  assert (Fx' : final h' x = final h1 x).
  { destruct x as [[t|]|w]; try reflexivity. cbn [final ocontent]. f_equal. destruct (T1 t eq_refl) as [(S1 & S2 & S3 & S4) _].
    apply content_same; [lia|]. intros i Hr. apply G4; [exact S1|lia|]. intros s Es O.
    apply (TT t eq_refl s (sarr t) i Es); [split; [reflexivity|lia]|exact O]. }
  exists h', d', (x :: vs). split; [reflexivity|]. split; [exact Er|]. split; [cbn [map]; rewrite Fx', Fx, Fv; reflexivity|].
  split.
  { rewrite <- In1. apply content_same; [lia|]. intros i Hr. apply G4; [lia|lia|]. intros s Es O.
    destruct Ha as [A1 _]. apply (A1 s (sarr d) i); [rewrite dests_cons; apply in_or_app; right; exact Es|exact O|split; [reflexivity|lia]]. }
  split; [lia|]. split; [intros a La; rewrite G3, Z1 by lia; reflexivity|]. split.
  { intros a i La Hi0 HN. rewrite G4; [|lia|exact Hi0|].
    - apply C1; [exact La|exact Hi0|]. intros s Es. apply HN. rewrite dests_cons, Es. left. reflexivity.
    - intros s Es. apply HN. rewrite dests_cons. apply in_or_app. right. exact Es. }
  split.
  { intros t [->|Ht].
    - destruct (T1 t eq_refl) as [St HT]. split; [apply (sound_grow h1 h'); auto|]. destruct HT as [HT|(u & Eu & M)]; [left; exact HT|].
      right. exists u. split; [rewrite dests_cons, Eu; left; reflexivity|exact M].
    - destruct (G5 t Ht) as [St HT]. split; [exact St|]. destruct HT as [HT|(u & Eu & M)]; [left; lia|].
      right. exists u. split; [rewrite dests_cons; apply in_or_app; right; exact Eu|exact M]. }
  assert (XV : forall j t u a n, x = HSlice (Some t) -> nth_error vs j = Some (HSlice (Some u)) -> owns t a n -> ~ owns u a n).
  { intros j t u a n Et Hj O1 O2. destruct (G5 u (nth_error_In _ _ Hj)) as [_ [Hf|(s & Es & M1 & M2 & M3)]].
    - destruct (T1 t Et) as [(S1 & _) _]. destruct O1 as [<- _]. destruct O2 as [E _]. lia.
    - apply (TT t Et s a n Es O1). destruct O2 as [O2 O2']. split; [congruence|rewrite <- M2, <- M3; exact O2']. }
  intros [|i] [|j] t u a n Hi0 Hj0 O1 O2; cbn [nth_error] in Hi0, Hj0.
  - reflexivity.
  - injection Hi0 as Hx. destruct (XV j t u a n Hx Hj0 O1 O2).
  - injection Hj0 as Hx. destruct (XV i u t a n Hx Hi0 O2 O1).
  - f_equal. exact (G6 i j t u a n Hi0 Hj0 O1 O2).
Qed.

(** memory that existed before and is no destination may be overwritten afterwards *)
Lemma overwrite h h' cs vs d d' a i p : good cs h d h' d' vs ->
  (a < length h)%nat -> (forall s, In s (dests cs) -> sarr s <> a) ->
  map (final (put h' a i p)) vs = map (final h') vs.
Proof using Type. clear HS HSuf step dec W.
  intros (_ & _ & _ & _ & G5 & _) La Hn. apply map_ext_in. intros v Hv. destruct v as [[t|]|w]; try reflexivity.
  cbn [final ocontent]. f_equal. unfold content. rewrite put_other; [reflexivity|].
  destruct (G5 t Hv) as [_ [Hf|(s & Es & M1 & _)]]; [lia|]. rewrite M1. intros E. exact (Hn s Es (eq_sym E)).
Qed.
End Seq.

Lemma dec1_suf W o q b r v : bytes_ok b -> int_ok W b -> V1Model.decode W o q b = Done r v -> exists c, b = c ++ r.
Proof.
  intros Hb Hi E. assert (N : forall r v, V1Model.decode W None q b = Done r v -> exists c, b = c ++ r).
  { intros r' v' E'. apply (dec1_suffix W q b r' Hb Hi). rewrite E'. reflexivity. }
  destruct q; try (eapply N; exact E). destruct o as [dst|]; [|eapply N; exact E].
  destruct (V1Model.decode W None Spec.RBytes b) as [r' v'|r' e'|] eqn:EN.
  - assert (exists p, v' = VBytes p) as [p ->].
    { cbn [V1Model.decode] in EN. unfold V1Model.out in EN. destruct (V1Model.decodeBytes W b None) as [[[r0 x] [e|]]|]; try discriminate EN.
      injection EN as _ <-. eauto. }
    rewrite (dst1 W dst b r' p Hb Hi EN) in E. injection E as <- _. eapply N. reflexivity.
  - rewrite (dst1_nofail W dst b Hb Hi) in E; [rewrite EN in E; discriminate E|]. intros r0 v0. rewrite EN. discriminate.
  - rewrite (dst1_nofail W dst b Hb Hi) in E; [rewrite EN in E; discriminate E|]. intros r0 v0. rewrite EN. discriminate.
Qed.
Lemma dec2_suf W q b r v : bytes_ok b -> int_ok W b -> V2Model.decode W [] q b = Done r v -> exists c, b = c ++ r.
Proof. intros Hb Hi E. apply (dec2_suffix W [] q b r Hb Hi). rewrite E. reflexivity. Qed.

(** ** The theorems *)
Lemma read_calls_all f h cs b : read_calls (fun _ => f) h cs b = read_all f (map req cs) b.
Proof. revert b. induction cs as [|c cs IH]; intros b; [reflexivity|]. cbn [read_calls map read_all]. destruct (f (req c) b); auto. rewrite IH. reflexivity. Qed.
Lemma good_preserved cs h d h' d' vs : good cs h d h' d' vs -> preserved cs h h'.
Proof.
  intros (_ & _ & _ & G4 & _) s (S1 & S2 & S3 & S4) H. apply content_same; [lia|]. intros i Hr. apply G4; [exact S1|lia|].
  intros t Ht O. apply (H t (sarr s) i Ht O). split; [reflexivity|lia].
Qed.
Lemma calls1 W sp h d cs : sound h d -> bytes_ok (content h d) -> int_ok W (content h d) ->
  (forall s, In s (dests cs) -> sound h s) -> apart d cs ->
  match read_calls (V1Model.decode W) h cs (content h d) with
  | None => steps (step1 W sp) h d cs = None
  | Some (ws, r) => exists h' d' vs, steps (step1 W sp) h d cs = Some (h', d', vs) /\ content h' d' = r /\
      map (final h') vs = ws /\ good cs h d h' d' vs
  end.
Proof. apply calls_ok; [intros; apply step1_ok; assumption|]. intros. eapply dec1_suf; eassumption. Qed.
Lemma calls2 W sp h d cs : sound h d -> bytes_ok (content h d) -> int_ok W (content h d) ->
  (forall s, In s (dests cs) -> sound h s) -> apart d cs ->
  match read_all (V2Model.decode W []) (map req cs) (content h d) with
  | None => steps (step2 W sp) h d cs = None
  | Some (ws, r) => exists h' d' vs, steps (step2 W sp) h d cs = Some (h', d', vs) /\ content h' d' = r /\
      map (final h') vs = ws /\ good cs h d h' d' vs
  end.
Proof.
  intros. rewrite <- (read_calls_all _ h). apply (calls_ok W (fun _ => V2Model.decode W []) (step2 W sp)); try assumption; [intros; apply step2_ok; assumption|].
  intros. eapply dec2_suf; eassumption.
Qed.
Lemma put_view h s p : sound h s -> zlen p <= scap s ->
  content (put h (sarr s) (lo s) p) s = ztake (slen s) (p ++ zdrop (zlen p) (content h s)).
Proof.
  intros (S1 & S2 & S3 & S4) H. pose proof (zlen_nonneg p) as Hp. apply ne_ext. intros k. rewrite ne_content by lia.
  unfold ztake. rewrite ne_firstn. destruct (Nat.ltb_spec k (Z.to_nat (slen s))) as [Hk|Hk]; [|reflexivity].
  unfold cell. rewrite put_same by exact S1. destruct (Z.ltb_spec (Z.of_nat k) (zlen p)) as [Hn|Hn].
  - rewrite nth_error_app1 by (unfold zlen in Hn; lia). rewrite <- (splice_in (array h (sarr s)) p (lo s) (zlen p)) at 2; [|lia|lia|lia].
    unfold ztake. rewrite ne_firstn. destruct (Nat.ltb_spec k (Z.to_nat (zlen p))); [|lia]. unfold zdrop. rewrite ne_skipn. f_equal. lia.
  - rewrite nth_error_app2 by (unfold zlen in Hn; lia). rewrite splice_out by lia. unfold zdrop. rewrite ne_skipn.
    rewrite ne_content by lia. unfold zlen in *. replace (Z.to_nat (Z.of_nat (length p)) + (k - length p))%nat with k by lia.
    destruct (Nat.ltb_spec k (Z.to_nat (slen s))); [reflexivity|lia].
Qed.
Lemma reuse2 W sp h d t r p : sound h t -> bytes_ok (content h d) -> int_ok W (content h d) ->
  V2Model.decode W [] Spec.RBytes (content h d) = Done r (VBytes p) -> zlen p <= scap t ->
  exists h' d' u, step2 W sp h d (CBytes (Some t)) = HDone h' d' (HSlice (Some u)) /\ content h' u = p /\
    content h' t = ztake (slen t) (p ++ zdrop (zlen p) (content h t)).
Proof.
  intros St Hb Hi E L. cbn [step2]. rewrite dec2_mem. cbn [V2Model.decode] in E.
  destruct (V2Model.decodeBytes W [] (content h d)) as [[[r' [p' m]] [e|]]|]; [discriminate E| |discriminate E].
  cbn [V2Model.out fst] in E. injection E as -> ->. unfold append0. destruct (Z.leb_spec (zlen p) (scap t)); [|lia].
  unfold of_bytes; cbn [hb_err hb_heap hb_left hb_val]. eexists _, _, _. split; [reflexivity|]. split; [apply put_final; assumption|].
  apply put_view; assumption.
Qed.
Lemma in_place2 W sp h d dst r p : (forall s, dst = Some s -> sound h s) -> bytes_ok (content h d) -> int_ok W (content h d) ->
  V2Model.decode W [] Spec.RBytes (content h d) = Done r (VBytes p) ->
  exists h' d' s, step2 W sp h d (CBytes dst) = HDone h' d' (HSlice s) /\ ocontent h' s = p.
Proof.
  intros Hs Hb Hi E. pose proof (step2_ok W sp h d (CBytes dst) Hs Hb Hi) as ST. unfold step_ok in ST. cbn [dst_of req] in ST.
  rewrite E in ST. destruct ST as (h' & x & E1 & F & _). cbn [step2] in *. rewrite E1. unfold of_bytes in E1.
  destruct (decodeBytes2 W sp h d dst) as [rr|]; [|discriminate E1]. destruct (hb_err rr); [discriminate E1|]. injection E1 as Eh _ Ex.
  subst x. eexists _, _, _. split; [reflexivity|]. cbn [final] in F. injection F as F. exact F.
Qed.
Lemma in_place1 W sp h d dst r p : (forall s, dst = Some s -> sound h s) -> bytes_ok (content h d) -> int_ok W (content h d) ->
  V1Model.decode W (option_map (content h) dst) Spec.RBytes (content h d) = Done r (VBytes p) ->
  exists h' d' s, step1 W sp h d (CBytes dst) = HDone h' d' (HSlice s) /\ ocontent h' s = p.
Proof.
  intros Hs Hb Hi E. pose proof (step1_ok W sp h d (CBytes dst) Hs Hb Hi) as ST. unfold step_ok in ST. cbn [dst_of req] in ST.
  replace (match dst with Some s => Some (content h s) | None => None end) with (option_map (content h) dst) in ST by (destruct dst; reflexivity).
  rewrite E in ST. destruct ST as (h' & x & E1 & F & _). cbn [step1] in *. rewrite E1. unfold of_bytes in E1.
  destruct (decodeBytes1 W sp h d dst) as [rr|]; [|discriminate E1]. destruct (hb_err rr); [discriminate E1|]. injection E1 as Eh _ Ex.
  subst x. eexists _, _, _. split; [reflexivity|]. cbn [final] in F. injection F as F. exact F.
Qed.
Lemma good_unaffected cs h d h' d' vs : good cs h d h' d' vs -> independent cs h h' vs.
Proof. intros G. split; [intros a i p Ha Hd; exact (overwrite _ _ _ _ _ _ a i p G Ha Hd)|apply G]. Qed.
