(** Decoding what the generated Encode wrote: the exact result. *)
From Coq Require Import String.
From Verif Require Import Base Spec SpecProofs GoIdeal GoProps GoThms GenTables GenModel GenSpec GenLemmas GenFields.

Lemma wires_app a b : wires (a ++ b) = wires a ++ wires b.
Proof. unfold wires. rewrite map_app, concat_app. reflexivity. Qed.
Lemma wires_one v : wires [v] = wire v.
Proof. unfold wires. cbn. apply app_nil_r. Qed.
Lemma wire_head v r t : v <> VNil -> wire v ++ r <> 0 :: t.
Proof. destruct v; cbn; congruence. Qed.

Lemma nth_error_set i x l j : (i < length l)%nat ->
  nth_error (set_nth i x l) j = if Nat.eq_dec i j then Some x else nth_error l j.
Proof.
  revert i j. induction l as [|y l IH]; intros i j H; [cbn in H; lia|]. destruct i, j; cbn [set_nth nth_error].
  - destruct (Nat.eq_dec 0 0); [reflexivity|congruence].
  - destruct (Nat.eq_dec 0 (S j)); [discriminate|reflexivity].
  - destruct (Nat.eq_dec (S i) 0); [discriminate|reflexivity].
  - cbn in H. rewrite IH by lia. destruct (Nat.eq_dec i j), (Nat.eq_dec (S i) (S j)); congruence.
Qed.
Lemma set_nth_length i x l : length (set_nth i x l) = length l.
Proof. revert i. induction l; intros [|i]; cbn; congruence. Qed.
Lemma nth_error_ext {A} (a b : list A) : (forall i, nth_error a i = nth_error b i) -> a = b.
Proof.
  revert b. induction a as [|x a IH]; intros [|y b] H.
  - reflexivity.
  - specialize (H O). discriminate.
  - specialize (H O). discriminate.
  - pose proof (H O) as H0. cbn in H0. injection H0 as ->. f_equal. apply IH. intros i. apply (H (S i)).
Qed.

Lemma dm_v2 v2 prim S fuel rec m old b : v2 = true -> dec_message v2 prim S fuel rec (One (Msg m)) old b =
  if_nil prim b (fun r => GDone r old) (fun b =>
    gbind (New v2 S fuel m) (fun _ s => gbind (rec m s b) (fun r s => GDone r (GMsg (Some s))))).
Proof. intros ->. reflexivity. Qed.
Lemma dm_v1 v2 prim S fuel rec m old b : v2 = false -> dec_message v2 prim S fuel rec (One (Msg m)) old b =
  gbind (or_new v2 S fuel m old) (fun _ s => gbind (rec m s b) (fun r s => GDone r (GMsg (Some s)))).
Proof. intros ->. reflexivity. Qed.
Lemma if_t {A} (b : bool) (x y : A) : b = true -> (if b then x else y) = x.
Proof. intros ->. reflexivity. Qed.
Lemma if_f {A} (b : bool) (x y : A) : b = false -> (if b then x else y) = y.
Proof. intros ->. reflexivity. Qed.
Lemma bool_cases (b : bool) : b = true \/ b = false.
Proof. destruct b; auto. Qed.

Section RT.
Variable v2 : bool.
Variable prim : option bytes -> request -> bytes -> outcome.
Variable S : schema.
Variable W : Z.
Variable K : nat.
Variable blank : nat -> list gval.
Hypothesis HC : compiles S = true.
Hypothesis Hprim : forall dst v r, (v2 = false -> dst = None) -> valid v -> bytes_ok r ->
  int_ok W (wire v ++ r) -> prim dst (want v) (wire v ++ r) = Done r v.
Hypothesis Hnil : forall b, (forall r, b <> 0 :: r) -> prim None RNil b = Fail b ENotNil.
Hypothesis Hnew : forall m fuel, (m < length S)%nat -> (K <= fuel)%nat -> exists r, New v2 S fuel m = GDone r (blank m).
Hypothesis Hblank : forall m, (m < length S)%nat -> sent_struct S (blank m) m.

Local Notation dec := (decode v2 prim S).
Local Notation over := (overlay v2 S blank).

(** The passes. *)
Lemma pass_ok step fs xs res : forall is x vs r,
  NoDup is -> length x = length fs -> bytes_ok r ->
  (forall i, In i is -> exists f o y ws, nth_error fs i = Some f /\ nth_error x i = Some o /\
     nth_error res i = Some y /\ nth i (zw (calls S) xs fs) None = Some ws /\ Forall valid ws /\
     forall r, bytes_ok r -> int_ok W (wires ws ++ r) -> step f o (wires ws ++ r) = GDone r y) ->
  all_some (map (fun i => nth i (zw (calls S) xs fs) None) is) = Some vs ->
  int_ok W (wires vs ++ r) ->
  exists x', pass step fs is x (wires vs ++ r) = GDone r x' /\ length x' = length fs /\
    forall j, nth_error x' j = if in_dec Nat.eq_dec j is then nth_error res j else nth_error x j.
Proof.
  induction is as [|i is IH]; intros x vs r ND Lx Hr Hi E HW.
  - cbn in E. injection E as <-. exists x. repeat split; auto.
  - cbn [map] in E. apply all_some_cons in E. destruct E as (a & b & Ea & Eb & ->).
    destruct (Hi i (or_introl eq_refl)) as (f & o & y & ws & Ef & Eo & Ey & Ews & Vws & Hs).
    rewrite Ews in Ea. injection Ea as <-.
    assert (Vb : Forall valid b).
    { clear - Hi Eb. assert (exists vs, all_some (map (fun i => nth i (zw (calls S) xs fs) None) is) = Some vs /\ Forall valid vs) as (vs & E1 & E2).
      { apply all_some_ok. intros z Hz. apply in_map_iff in Hz. destruct Hz as (j & <- & Hj).
        destruct (Hi j (or_intror Hj)) as (f & o & y & ws & _ & _ & _ & E & V & _). eauto. }
      rewrite Eb in E1. injection E1 as <-. exact E2. }
    assert (Hbr : bytes_ok (wires b ++ r)). { apply bytes_ok_app. split; [apply wires_ok; exact Vb|exact Hr]. }
    rewrite wires_app, <- app_assoc in *.
    cbn [pass]. rewrite Ef, Eo, Hs by assumption. cbn [gbind].
    inversion ND as [|? ? Hni ND']; subst.
    destruct (IH (set_nth i y x) b r) as (x' & Ex & Lx' & Hx'); auto.
    + rewrite set_nth_length. exact Lx.
    + intros j Hj. destruct (Hi j (or_intror Hj)) as (f' & o' & y' & ws' & H1 & H2 & H3).
      exists f', o', y', ws'. split; [exact H1|]. split; [|exact H3].
      rewrite nth_error_set by (apply nth_error_Some; congruence).
      destruct (Nat.eq_dec i j); [congruence|exact H2].
    + apply (int_ok_app _ _ _ HW).
    + exists x'. split; [exact Ex|]. split; [exact Lx'|]. intros j. rewrite Hx'.
      rewrite nth_error_set by (apply nth_error_Some; congruence).
      destruct (in_dec Nat.eq_dec j is) as [I1|I1], (in_dec Nat.eq_dec j (i :: is)) as [I2|I2]; try reflexivity.
      * exfalso. apply I2. right; exact I1.
      * destruct I2 as [->|I2]; [|contradiction]. destruct (Nat.eq_dec j j); [congruence|congruence].
      * destruct (Nat.eq_dec i j) as [->|]; [|reflexivity]. exfalso. apply I2. left; reflexivity.
Qed.

(** One slice element or map value. *)
Definition elem (fuel : nat) (t : ftype) (x : gval) (b : bytes) : gres gval :=
  match t with
  | Msg m => gbind (or_new v2 S fuel m x) (fun _ s => gbind (dec fuel m s b) (fun r s => GDone r (GMsg (Some s))))
  | Scalar k => gbind (dec_call prim None k b) (fun r v => GDone r (GPrim v))
  end.
Definition step (fuel : nat) (f : field) (old : gval) (b : bytes) : gres gval :=
  match f with
  | One (Scalar _) => dec_other v2 prim f old b
  | Many _ => dec_slice v2 prim S fuel (dec fuel) f old b
  | _ => dec_message v2 prim S fuel (dec fuel) f old b
  end.

Lemma call_ok {A} dst v r (k : bytes -> value -> gres A) : (v2 = false -> dst = None) -> valid v ->
  bytes_ok r -> int_ok W (wire v ++ r) -> call prim dst (want v) (wire v ++ r) k = k r v.
Proof. intros. unfold call. rewrite Hprim by assumption. reflexivity. Qed.
Lemma nil_yes {A} r (yes no : bytes -> gres A) : bytes_ok r -> int_ok W (0 :: r) -> if_nil prim (0 :: r) yes no = yes r.
Proof.
  intros Hr HW. unfold if_nil. change (prim None RNil (0 :: r)) with (prim None (want VNil) (wire VNil ++ r)). rewrite Hprim; auto. exact I.
Qed.
Lemma nil_no {A} b (yes no : bytes -> gres A) : (forall r, b <> 0 :: r) -> if_nil prim b yes no = no b.
Proof. intros H. unfold if_nil. rewrite Hnil by exact H. reflexivity. Qed.

Lemma elems_ok fuel t : forall xs olds vs r,
  Forall (fun x => forall old ws r, sent_type S old (One t) -> calls S x (One t) = Some ws -> bytes_ok r ->
     int_ok W (wires ws ++ r) -> elem fuel t old (wires ws ++ r) = GDone r (over false (collapse x) (One t) old)) xs ->
  Forall (fun x => exists ws, calls S x (One t) = Some ws /\ Forall valid ws) xs ->
  Forall (fun o => sent_type S o (One t)) olds -> length olds = length xs ->
  all_some (map (fun x => calls S x (One t)) xs) = Some vs -> bytes_ok r -> int_ok W (wires vs ++ r) ->
  dec_elems v2 prim S fuel (dec fuel) t olds (wires vs ++ r) =
  GDone r (zw (fun x o => over false x (One t) o) (map collapse xs) olds).
Proof.
  induction xs as [|x xs IH]; intros [|o olds] vs r HX HV HO L E Hr HW; try discriminate L.
  - cbn in E. injection E as <-. reflexivity.
  - cbn [map] in E. apply all_some_cons in E. destruct E as (a & b & Ea & Eb & ->).
    inversion HX as [|? ? Hx HX']; subst. inversion HO as [|? ? Ho HO']; subst. inversion HV as [|? ? Hv HV']; subst.
    rewrite wires_app, <- app_assoc in *.
    assert (Hbr : bytes_ok (wires b ++ r)).
    { apply bytes_ok_app. split; [|exact Hr]. apply wires_ok.
      destruct (all_some_ok valid (map (fun x => calls S x (One t)) xs)) as (b' & Eb' & Vb).
      { intros z Hz. apply in_map_iff in Hz. destruct Hz as (y & <- & Hy). rewrite Forall_forall in HV'. apply HV'. exact Hy. }
      congruence. }
    specialize (Hx o a (wires b ++ r) Ho Ea Hbr HW). unfold elem in Hx.
    cbn [dec_elems]. rewrite Hx. cbn [gbind].
    injection L as L. rewrite IH; auto. apply (int_ok_app _ _ _ HW).
Qed.

Lemma insert_new k v l : ~ In k (map fst l) -> insert k v l = l ++ [(k, v)].
Proof.
  induction l as [|[k' v'] l IH]; cbn; intros H; [reflexivity|].
  destruct (value_eq_dec k k') as [->|]; [exfalso; auto|]. rewrite IH by auto. reflexivity.
Qed.
Lemma entries_ok fuel kk t : forall l acc vs r, (K <= fuel)%nat -> field_compiles S (One t) = true ->
  Forall (fun e => forall old ws r, sent_type S old (One t) -> calls S (snd e) (One t) = Some ws -> bytes_ok r ->
     int_ok W (wires ws ++ r) -> elem fuel t old (wires ws ++ r) = GDone r (over false (collapse (snd e)) (One t) old)) l ->
  Forall (fun e => sent_type S (snd e) (One t)) l -> Forall (fun e => holds kk (fst e)) l ->
  all_some (map (fun e : value * gval => let (k, v) := e in
     match enc_call kk k, calls S v (One t) with Some k, Some vs => Some (k :: vs) | _, _ => None end) l) = Some vs ->
  bytes_ok r -> int_ok W (wires vs ++ r) ->
  dec_entries v2 prim S fuel (dec fuel) kk t (length l) acc (wires vs ++ r) =
  GDone r (fold_left (fun a e => insert (fst e) (snd e) a) (map (fun e => (fst e, over false (collapse (snd e)) (One t) (GMsg None))) l) acc).
Proof.
  induction l as [|[k x] l IH]; intros acc vs r HK FC HX HT HH E Hr HW.
  - cbn in E. injection E as <-. reflexivity.
  - cbn [map] in E. apply all_some_cons in E. destruct E as (a & b & Ea & Eb & ->).
    inversion HX as [|? ? Hx HX']; subst. inversion HT as [|? ? Tx HT']; subst. inversion HH as [|? ? Hk HH']; subst.
    cbn [fst snd] in *. rewrite (enc_call_holds _ _ Hk) in Ea.
    destruct (calls_sent S HC x (One t) Tx FC) as (ws & Ews & Vws). rewrite Ews in Ea. injection Ea as <-.
    cbn [app] in *. rewrite wires_cons, wires_app in *. rewrite <- !app_assoc in *.
    assert (Vb : Forall valid b).
    { destruct (all_some_ok valid (map (fun e : value * gval => let (k, v) := e in
         match enc_call kk k, calls S v (One t) with Some k, Some vs => Some (k :: vs) | _, _ => None end) l)) as (b' & Eb' & Vb).
      { intros z Hz. apply in_map_iff in Hz. destruct Hz as ([ky y] & <- & Hy).
        rewrite Forall_forall in HT', HH'. specialize (HT' _ Hy). specialize (HH' _ Hy). cbn [fst snd] in *.
        rewrite (enc_call_holds _ _ HH'). destruct (calls_sent S HC y (One t) HT' FC) as (wy & -> & Vy).
        eexists. split; [reflexivity|]. constructor; [apply HH'|exact Vy]. }
      congruence. }
    assert (Hbr : bytes_ok (wires b ++ r)). { apply bytes_ok_app. split; [apply wires_ok; exact Vb|exact Hr]. }
    assert (Hbr2 : bytes_ok (wires ws ++ wires b ++ r)). { apply bytes_ok_app. split; [apply wires_ok; exact Vws|exact Hbr]. }
    pose proof (int_ok_app _ _ _ HW) as HW2. pose proof (int_ok_app _ _ _ HW2) as HW3.
    cbn [length dec_entries]. rewrite (dec_call_holds _ _ _ k _ Hk). rewrite call_ok; auto; [|apply Hk]. cbn [gbind].
    (* the value *)
    assert (EV : (match t with
       | Scalar kt => gbind (dec_call prim None kt (wires ws ++ wires b ++ r)) (fun r v => GDone r (GPrim v))
       | Msg m => gbind (New v2 S fuel m) (fun _ s => gbind (dec fuel m s (wires ws ++ wires b ++ r)) (fun r s => GDone r (GMsg (Some s))))
       end) = GDone (wires b ++ r) (over false (collapse x) (One t) (GMsg None))).
    { destruct t as [kt|m].
      - assert (TO : exists v, x = GPrim v). { destruct x; cbn in Tx; try contradiction. eauto. }
        destruct TO as (v & ->). specialize (Hx (GPrim v) ws (wires b ++ r) Tx Ews Hbr HW2). exact Hx.
      - assert (m < length S)%nat as Lm. { cbn [field_compiles] in FC. apply Nat.ltb_lt in FC. exact FC. }
        specialize (Hx (GMsg None) ws (wires b ++ r) Lm Ews Hbr HW2). exact Hx. }
    rewrite EV. cbn [gbind].
    rewrite IH; auto.
Qed.

(** One message, given its fields. *)
Lemma message_ok fuel xs m : forall old vs r,
  sent_struct S xs m -> readable S (GMsg (Some xs)) (One (Msg m)) -> sent_struct S old m ->
  Forall2 (fun x f => forall o ws r, sent_type S o f -> calls S x f = Some ws -> bytes_ok r ->
     int_ok W (wires ws ++ r) -> step fuel f o (wires ws ++ r) = GDone r (over v2 (collapse x) f o)) xs (fields_of S m) ->
  calls S (GMsg (Some xs)) (One (Msg m)) = Some vs -> bytes_ok r -> int_ok W (wires vs ++ r) ->
  dec (Datatypes.S fuel) m old (wires vs ++ r) = GDone r (zw3 (over v2) (map collapse xs) (fields_of S m) old).
Proof.
  intros old vs r HT HR HO HX E Hr HW.
  destruct (calls_sent_head S HC _ _ _ HT HR E) as (v & ws & EV & Nv); [discriminate|].
  apply st_msg in HT. destruct HT as [L HT]. apply st_msg in HO. destruct HO as [_ HO].
  pose proof (Forall2_length _ _ _ HT) as Len. pose proof (Forall2_length _ _ _ HO) as LenO.
  cbn [decode]. rewrite nil_no.
  2: { intros t. rewrite EV, wires_cons, <- app_assoc. apply wire_head. exact Nv. }
  rewrite (fields_nth S m L). rewrite (getFields_sel S) by (auto using compiles_msg).
  set (fs := fields_of S m) in *. set (res := zw3 (over v2) (map collapse xs) fs old).
  rewrite calls_order in E by assumption. fold fs in E. unfold order in E.
  rewrite !map_app, !all_some_app in E.
  destruct (all_some (map _ (sel p_val fs 0))) as [va|] eqn:EA; [|discriminate].
  destruct (all_some (map _ (sel p_slice fs 0))) as [vb|] eqn:EB; [|discriminate].
  destruct (all_some (map _ (sel p_msg fs 0))) as [vc|] eqn:EC; [|discriminate].
  injection E as E'. subst vs. rewrite !wires_app, <- !app_assoc in *. clear EV.
  (* facts about one index *)
  assert (IDX : forall p i o, In i (sel p fs 0) -> nth_error old i = Some o ->
     exists f y ws, p f = true /\ nth_error fs i = Some f /\ nth_error res i = Some y /\
       nth i (zw (calls S) xs fs) None = Some ws /\ Forall valid ws /\
       forall r, bytes_ok r -> int_ok W (wires ws ++ r) -> step fuel f o (wires ws ++ r) = GDone r y).
  { intros p i o Hi Eo. apply sel_in in Hi. rewrite Nat.sub_0_r in Hi. destruct Hi as (_ & f & Ef & Pf).
    assert (Hlt : (i < length xs)%nat). { rewrite Len. apply nth_error_Some. congruence. }
    destruct (nth_error_ex xs i Hlt) as [x Ex].
    pose proof (Forall2_nth _ _ _ _ _ _ HT Ex Ef) as Tx. pose proof (Forall2_nth _ _ _ _ _ _ HO Eo Ef) as To.
    destruct (calls_sent S HC x f Tx (compiles_field _ _ _ _ HC Ef)) as (wx & Ewx & Vwx).
    exists f, (over v2 (collapse x) f o), wx. split; [exact Pf|]. split; [exact Ef|]. split.
    { unfold res. rewrite nth_error_zw3, nth_error_map, Ex, Ef, Eo. reflexivity. }
    split; [rewrite (nth_zw_calls _ _ _ _ _ _ Ex Ef); exact Ewx|]. split; [exact Vwx|].
    intros r' Hr' HW'. exact (Forall2_nth _ _ _ _ _ _ HX Ex Ef o wx r' To Ewx Hr' HW'). }
  assert (VV : forall p vs, all_some (map (fun i => nth i (zw (calls S) xs fs) None) (sel p fs 0)) = Some vs -> Forall valid vs).
  { intros p vs E. destruct (all_some_ok valid (map (fun i => nth i (zw (calls S) xs fs) None) (sel p fs 0))) as (vs' & E' & V).
    { intros z Hz. apply in_map_iff in Hz. destruct Hz as (i & <- & Hi).
      assert (Hlt : (i < length old)%nat).
      { rewrite LenO. pose proof Hi as Hi'. apply sel_in in Hi'. rewrite Nat.sub_0_r in Hi'. destruct Hi' as (_ & f & Ef & _). apply nth_error_Some. fold fs. congruence. }
      destruct (nth_error_ex old i Hlt) as [o Eo]. destruct (IDX p i o Hi Eo) as (f & y & w & _ & _ & _ & E1 & V1 & _). eauto. }
    congruence. }
  assert (Vc : bytes_ok (wires vc ++ r)). { apply bytes_ok_app. split; [apply wires_ok, (VV p_msg); exact EC|exact Hr]. }
  assert (Vbc : bytes_ok (wires vb ++ wires vc ++ r)). { apply bytes_ok_app. split; [apply wires_ok, (VV p_slice); exact EB|exact Vc]. }
  pose proof (int_ok_app _ _ _ HW) as HWb. pose proof (int_ok_app _ _ _ HWb) as HWc.
  assert (OLD : forall p i, In i (sel p fs 0) -> exists o, nth_error old i = Some o).
  { intros p i Hi. apply nth_error_ex. rewrite LenO. apply sel_in in Hi. rewrite Nat.sub_0_r in Hi.
    destruct Hi as (_ & f & Ef & _). apply nth_error_Some. fold fs. congruence. }
  pose proof (order_nodup fs) as OND. unfold order in OND.
  assert (DAB : forall i, In i (sel p_slice fs 0) -> ~ In i (sel p_val fs 0)).
  { intros i H1 H2. apply sel_in in H1, H2. rewrite Nat.sub_0_r in *. destruct H1 as (_ & f & Ef & Pf), H2 as (_ & g & Eg & Pg).
    rewrite Ef in Eg. injection Eg as <-. destruct f as [[|]|[|]|]; discriminate. }
  assert (DAC : forall i, In i (sel p_msg fs 0) -> ~ In i (sel p_val fs 0)).
  { intros i H1 H2. apply sel_in in H1, H2. rewrite Nat.sub_0_r in *. destruct H1 as (_ & f & Ef & Pf), H2 as (_ & g & Eg & Pg).
    rewrite Ef in Eg. injection Eg as <-. destruct f as [[|]|[|]|]; discriminate. }
  assert (DBC : forall i, In i (sel p_msg fs 0) -> ~ In i (sel p_slice fs 0)).
  { intros i H1 H2. apply sel_in in H1, H2. rewrite Nat.sub_0_r in *. destruct H1 as (_ & f & Ef & Pf), H2 as (_ & g & Eg & Pg).
    rewrite Ef in Eg. injection Eg as <-. destruct f as [[|]|[|]|]; discriminate. }
  destruct (pass_ok (dec_other v2 prim) fs xs res (sel p_val fs 0) old va (wires vb ++ wires vc ++ r)) as (x1 & P1 & L1 & N1); auto.
  { apply sel_nodup. }
  { intros i Hi. destruct (OLD _ _ Hi) as [o Eo]. destruct (IDX _ _ _ Hi Eo) as (f & y & w & Pf & Ef & Ey & Ew & Vw & Hs).
    exists f, o, y, w. repeat (split; [assumption|]). intros r' Hr' HW'. specialize (Hs r' Hr' HW').
    destruct f as [[|]|[|]|]; try discriminate Pf. exact Hs. }
  rewrite P1. cbn [gbind].
  destruct (pass_ok (dec_slice v2 prim S fuel (dec fuel)) fs xs res (sel p_slice fs 0) x1 vb (wires vc ++ r)) as (x2 & P2 & L2 & N2); auto.
  { apply sel_nodup. }
  { intros i Hi. destruct (OLD _ _ Hi) as [o Eo]. destruct (IDX _ _ _ Hi Eo) as (f & y & w & Pf & Ef & Ey & Ew & Vw & Hs).
    exists f, o, y, w. split; [exact Ef|]. split.
    { rewrite N1. destruct (in_dec Nat.eq_dec i (sel p_val fs 0)) as [I1|]; [|exact Eo]. exfalso. apply (DAB i Hi I1). }
    repeat (split; [assumption|]). intros r' Hr' HW'. specialize (Hs r' Hr' HW').
    destruct f as [[|]|t|]; try discriminate Pf. exact Hs. }
  rewrite P2. cbn [gbind].
  destruct (pass_ok (dec_message v2 prim S fuel (dec fuel)) fs xs res (sel p_msg fs 0) x2 vc r) as (x3 & P3 & L3 & N3); auto.
  { apply sel_nodup. }
  { intros i Hi. destruct (OLD _ _ Hi) as [o Eo]. destruct (IDX _ _ _ Hi Eo) as (f & y & w & Pf & Ef & Ey & Ew & Vw & Hs).
    exists f, o, y, w. split; [exact Ef|]. split.
    { rewrite N2. destruct (in_dec Nat.eq_dec i (sel p_slice fs 0)) as [I1|]; [exfalso; apply (DBC i Hi I1)|].
      rewrite N1. destruct (in_dec Nat.eq_dec i (sel p_val fs 0)) as [I2|]; [exfalso; apply (DAC i Hi I2)|exact Eo]. }
    repeat (split; [assumption|]). intros r' Hr' HW'. specialize (Hs r' Hr' HW').
    destruct f as [[|]|t|]; try discriminate Pf; exact Hs. }
  rewrite P3. f_equal. apply nth_error_ext. intros j. fold res.
  destruct (Nat.lt_ge_cases j (length fs)) as [Hj|Hj].
  - apply order_in in Hj. unfold order in Hj. rewrite !in_app_iff in Hj.
    rewrite N3. destruct (in_dec Nat.eq_dec j (sel p_msg fs 0)); [reflexivity|].
    rewrite N2. destruct (in_dec Nat.eq_dec j (sel p_slice fs 0)); [reflexivity|].
    rewrite N1. destruct (in_dec Nat.eq_dec j (sel p_val fs 0)); [reflexivity|]. exfalso. tauto.
  - assert (nth_error x3 j = None) as -> by (apply nth_error_None; lia).
    symmetry. apply nth_error_None. unfold res. rewrite zw3_length; [lia|rewrite map_length; exact Len|exact LenO].
Qed.

Lemma base_type m old : (m < length S)%nat -> sent_type S old (One (Msg m)) -> sent_struct S (base blank m old) m.
Proof.
  intros L H. destruct old as [| | |[s|]]; cbn [base]; try (apply Hblank; exact L). exact H.
Qed.
Lemma or_new_ok fuel m old : (m < length S)%nat -> (K <= fuel)%nat -> sent_type S old (One (Msg m)) ->
  exists r, or_new v2 S fuel m old = GDone r (base blank m old).
Proof.
  intros L HK H. destruct old as [| | |[s|]]; try contradiction H; cbn [or_new base].
  - eauto.
  - apply Hnew; assumption.
Qed.

Theorem decode_exact : forall x,
  (forall t old vs r fuel, sent_type S x (One t) -> readable S x (One t) -> sent_type S old (One t) ->
     field_compiles S (One t) = true -> calls S x (One t) = Some vs -> bytes_ok r -> int_ok W (wires vs ++ r) ->
     (depth x + K <= fuel)%nat -> elem fuel t old (wires vs ++ r) = GDone r (over false (collapse x) (One t) old)) /\
  (forall f old vs r fuel, sent_type S x f -> readable S x f -> sent_type S old f ->
     field_compiles S f = true -> calls S x f = Some vs -> bytes_ok r -> int_ok W (wires vs ++ r) ->
     (depth x + K <= fuel)%nat -> step fuel f old (wires vs ++ r) = GDone r (over v2 (collapse x) f old)).
Proof.
  assert (FEL : forall t, field_compiles S (Many t) = true -> field_compiles S (One t) = true).
  { intros [k|m] H; [|exact H]. cbn [field_compiles] in *. apply andb_prop in H. destruct H as [H _]. destruct k; try discriminate H; reflexivity. }
  assert (FME : forall k t, field_compiles S (MapOf k t) = true -> field_compiles S (One t) = true).
  { intros k [k2|m] H; cbn [field_compiles] in *; apply andb_prop in H; destruct H as [_ H]; [|exact H]. destruct k2; try discriminate H; reflexivity. }
  induction x using gval_ind'.
  - (* scalar *)
    split.
    + intros [k|m] old vs r fuel HT HR HO FC E Hr HW HF; [|contradiction HT]. cbn [sent_type] in HT. cbn [calls] in E.
      rewrite (enc_call_holds _ _ HT) in E. injection E as <-. rewrite wires_one in *. cbn [elem].
      rewrite (dec_call_holds _ _ _ _ _ HT). rewrite call_ok; try assumption; [reflexivity|auto|apply HT].
    + intros f old vs r fuel HT HR HO FC E Hr HW HF. destruct f as [[k|m]|t|k t]; try contradiction HT. cbn [sent_type] in HT. cbn [calls] in E.
      rewrite (enc_call_holds _ _ HT) in E. injection E as <-. rewrite wires_one in *. cbn [step dec_other].
      rewrite (dec_call_holds _ _ _ _ _ HT). rewrite call_ok; try assumption; [reflexivity|intros ->; reflexivity|apply HT].
  - (* slice *)
    split; [intros [k|m] old vs r fuel HT; contradiction HT|].
    intros f old vs r fuel HT HR HO FC E Hr HW HF. destruct f as [[k|m]|t|k t]; try contradiction HT.
    pose proof (FEL t FC) as FCt.
    destruct old as [|ys|[|]|[|]]; try contradiction HO.
    apply st_many in HT. destruct HT as [HL HT]. apply st_many in HO. destruct HO as [HLo HO].
    unfold readable in HR. apply ev_many in HR.
    assert (HF' : Forall (fun x => (depth x <= fuel - K)%nat) xs). { apply depth_list. lia. }
    cbn [calls] in E.
    assert (KK : exists z, isbyte z /\ match t with Msg _ => kind_number (Some "polyglot.AnyKind"%string) | Scalar k => kind_number (go_kindLUT k) end = Some z
                 /\ kind_number (go_GetKind (tkind t)) = Some z).
    { destruct t as [k|m].
      - cbn [field_compiles] in FC. apply andb_prop in FC. destruct FC as [FC _].
        destruct (kind_call _ _ _ FC) as ((z & E1 & B) & E2). exists z. split; [exact B|]. split; [congruence|exact E1].
      - exists 3. split; [unfold isbyte; lia|]. split; reflexivity. }
    destruct KK as (z & Bz & Kz & Gz). rewrite Kz in E.
    apply all_some_cons in E. destruct E as (a & b & Ea & Eb & ->). injection Ea as <-. cbn [app] in *.
    rewrite u32_len in * by exact HL. rewrite wires_cons, <- app_assoc in *.
    assert (HV : Forall (fun x => exists ws, calls S x (One t) = Some ws /\ Forall valid ws) xs).
    { eapply Forall_impl; [|exact HT]. cbn. intros x Tx. exact (calls_sent S HC x (One t) Tx FCt). }
    assert (Vb : Forall valid b).
    { destruct (all_some_ok valid (map (fun x => calls S x (One t)) xs)) as (b' & Eb' & Vb).
      { intros w Hw. apply in_map_iff in Hw. destruct Hw as (x & <- & Hx). rewrite Forall_forall in HV. apply HV. exact Hx. }
      congruence. }
    assert (Hbr : bytes_ok (wires b ++ r)). { apply bytes_ok_app. split; [apply wires_ok; exact Vb|exact Hr]. }
    assert (Vs : valid (VSlice (zlen xs) z)). { cbn. pose proof (zlen_nonneg xs). split; [lia|exact Bz]. }
    cbn [step dec_slice]. rewrite Gz. change (RSlice z) with (want (VSlice (zlen xs) z)).
    rewrite call_ok; auto.
    rewrite u32_len by exact HLo.
    set (olds := if zlen ys =? zlen xs then ys else repeat (zero (One t)) (Z.to_nat (zlen xs))).
    assert (OL : olds = if (length ys =? length xs)%nat then ys else repeat (zero (One t)) (length xs)).
    { unfold olds, zlen. rewrite Nat2Z.id.
      destruct (Z.eqb_spec (Z.of_nat (length ys)) (Z.of_nat (length xs))), (Nat.eqb_spec (length ys) (length xs)); try reflexivity; lia. }
    assert (OT : Forall (fun o => sent_type S o (One t)) olds /\ length olds = length xs).
    { rewrite OL. destruct (Nat.eqb_spec (length ys) (length xs)); [split; assumption|].
      split; [|apply repeat_length]. apply Forall_forall. intros o Ho. apply repeat_spec in Ho. subst o.
      destruct t as [k|m].
      - cbn [field_compiles] in FCt. destruct k; try discriminate FCt; cbn; repeat split; auto; cbn; try lia; constructor.
      - cbn in *. apply Nat.ltb_lt in FC. exact FC. }
    destruct OT as [OT OLen].
    rewrite (elems_ok fuel t xs olds b r); auto.
    + cbn [gbind]. cbn [collapse]. rewrite overlay_many, map_length, <- OL. reflexivity.
    + rewrite Forall_forall in *. intros x Hx old ws r' To Ews Hr' HW'. destruct (H x Hx) as [HA _]. apply HA; auto; [apply HR; exact Hx|]. specialize (HF' x Hx). cbv beta in HF'. lia.
    + apply (int_ok_app _ _ _ HW).
  - (* nil map *)
    split; [intros [k|m] old vs r fuel HT; contradiction HT|].
    intros f old vs r fuel HT HR HO FC E Hr HW HF. destruct f as [[k|m]|t|k t]; try contradiction HT.
    cbn [calls] in E.
    cbn [field_compiles] in FC. pose proof FC as FC'. apply andb_prop in FC. destruct FC as [FC1 FC2]. apply andb_prop in FC1. destruct FC1 as [_ FC1].
    destruct (kind_call _ _ _ FC1) as ((z1 & E1 & B1) & _).
    assert (KT : kind_ok (kind_number (go_GetKind (tkind t)))).
    { destruct t as [k2|m]; [apply (kind_call _ _ _ FC2)|]. exists 3. split; [reflexivity|unfold isbyte; lia]. }
    destruct KT as (z2 & E2 & B2). rewrite E1, E2 in E. injection E as <-. rewrite wires_one in *.
    cbn [step dec_message]. rewrite nil_no by (intros; apply wire_head; discriminate). rewrite E1, E2.
    change (RMap z1 z2) with (want (VMap 0 z1 z2)). rewrite call_ok; auto.
    cbn. repeat split; try lia; first [apply B1|apply B2].
  - (* map *)
    split; [intros [k|m] old vs r fuel HT; contradiction HT|].
    intros f old vs r fuel HT HR HO FC E Hr HW HF. destruct f as [[k|m]|t|k t]; try contradiction HT.
    pose proof (FME k t FC) as FCt.
    apply st_map in HT. destruct HT as (HL & HT). unfold readable in HR. apply ev_map in HR.
    assert (HF' : Forall (fun e => (depth (snd e) <= fuel - K)%nat) l). { apply depth_map. lia. }
    cbn [calls] in E.
    cbn [field_compiles] in FC. pose proof FC as FC'. apply andb_prop in FC. destruct FC as [FC1 FC2]. apply andb_prop in FC1. destruct FC1 as [_ FC1].
    destruct (kind_call _ _ _ FC1) as ((z1 & E1 & B1) & _).
    assert (KT : kind_ok (kind_number (go_GetKind (tkind t)))).
    { destruct t as [k2|m]; [apply (kind_call _ _ _ FC2)|]. exists 3. split; [reflexivity|unfold isbyte; lia]. }
    destruct KT as (z2 & E2 & B2). rewrite E1, E2 in E.
    apply all_some_cons in E. destruct E as (a & b & Ea & Eb & ->). injection Ea as <-. cbn [app] in *.
    rewrite u32_len in * by exact HL. rewrite wires_cons, <- app_assoc in *.
    assert (HT1 : Forall (fun e => sent_type S (snd e) (One t)) l) by (eapply Forall_impl; [|exact HT]; cbn; tauto).
    assert (HT2 : Forall (fun e => holds k (fst e)) l) by (eapply Forall_impl; [|exact HT]; cbn; tauto).
    assert (Vb : Forall valid b).
    { destruct (all_some_ok valid (map (fun e : value * gval => let (k0, v) := e in
         match enc_call k k0, calls S v (One t) with Some k, Some vs => Some (k :: vs) | _, _ => None end) l)) as (b' & Eb' & Vb).
      { intros z Hz. apply in_map_iff in Hz. destruct Hz as ([ky y] & <- & Hy).
        rewrite Forall_forall in HT1, HT2. specialize (HT1 _ Hy). specialize (HT2 _ Hy). cbn [fst snd] in *.
        rewrite (enc_call_holds _ _ HT2). destruct (calls_sent S HC y (One t) HT1 FCt) as (wy & -> & Vy).
        eexists. split; [reflexivity|]. constructor; [apply HT2|exact Vy]. }
      congruence. }
    assert (Hbr : bytes_ok (wires b ++ r)). { apply bytes_ok_app. split; [apply wires_ok; exact Vb|exact Hr]. }
    assert (Vs : valid (VMap (zlen l) z1 z2)). { cbn. pose proof (zlen_nonneg l). repeat split; try lia; first [apply B1|apply B2]. }
    cbn [step dec_message]. rewrite nil_no by (intros; apply wire_head; discriminate). rewrite E1, E2.
    change (RMap z1 z2) with (want (VMap (zlen l) z1 z2)). rewrite call_ok; auto.
    unfold zlen. rewrite Nat2Z.id. rewrite (entries_ok fuel k t l [] b r); auto.
    + cbn [gbind collapse overlay]. rewrite insert_all. rewrite <- (last_wins_map (fun x => over false x (One t) (GMsg None))), map_map. reflexivity.
    + lia.
    + rewrite Forall_forall in *. intros e He old' ws r' To Ews Hr' HW'. destruct (H e He) as [HA _].
      apply HA; auto; [apply HR; exact He|]. specialize (HF' e He). cbv beta in HF'. lia.
    + apply (int_ok_app _ _ _ HW).
  - (* nil message *)
    assert (ELEM : forall m old r fuel, sent_type S old (One (Msg m)) -> (m < length S)%nat ->
      bytes_ok r -> int_ok W (0 :: r) -> (1 + K <= fuel)%nat ->
      elem fuel (Msg m) old (0 :: r) = GDone r (GMsg (Some (base blank m old)))).
    { intros m old r fuel HO L Hr HW HF. cbn [elem]. destruct (or_new_ok fuel m old L) as [q ->]; [lia|exact HO|]. cbn [gbind].
      destruct fuel as [|fuel]; [lia|]. cbn [decode]. rewrite nil_yes by assumption. reflexivity. }
    split.
    + intros [k|m] old vs r fuel HT HR HO FC E Hr HW HF; [contradiction HT|]. cbn [calls] in E. injection E as <-.
      change (wires [VNil] ++ r) with (0 :: r) in *. cbn [sent_type] in HT. cbn [collapse overlay]. cbn [depth] in HF. apply ELEM; assumption.
    + intros f old vs r fuel HT HR HO FC E Hr HW HF. destruct f as [[k|m]|t|k t]; try contradiction HT.
      cbn [calls] in E. injection E as <-. change (wires [VNil] ++ r) with (0 :: r) in *. cbn [sent_type] in HT.
      cbn [step collapse overlay]. destruct (bool_cases v2) as [Ev|Ev].
      * rewrite dm_v2, if_t by exact Ev. rewrite nil_yes by assumption. reflexivity.
      * rewrite dm_v1, if_f by exact Ev. cbn [depth] in HF. exact (ELEM m old r fuel HO HT Hr HW HF).
  - (* message *)
    assert (MSG : forall m vs r fuel s, sent_type S (GMsg (Some xs)) (One (Msg m)) -> readable S (GMsg (Some xs)) (One (Msg m)) ->
      sent_struct S s m -> calls S (GMsg (Some xs)) (One (Msg m)) = Some vs -> bytes_ok r -> int_ok W (wires vs ++ r) ->
      (depth (GMsg (Some xs)) + K <= fuel)%nat ->
      dec fuel m s (wires vs ++ r) = GDone r (zw3 (over v2) (map collapse xs) (fields_of S m) s)).
    { intros m vs r fuel s HT HR HS E Hr HW HF.
      assert (HF' : (depth (GMsg (Some xs)) <= fuel - K)%nat) by lia.
      apply depth_msg in HF'. destruct HF' as (n & En & Hn). destruct fuel as [|fuel]; [lia|].
      apply message_ok; auto.
      apply st_msg in HT. destruct HT as [L HT]. apply ev_msg in HR; [|exact (Forall2_length _ _ _ HT)]. destruct HR as [_ HR].
      pose proof (compiles_msg S m HC L) as CM. rewrite forallb_forall in CM.
      assert (HFK : (n + K = fuel)%nat) by lia. clear HF En HS.
      clear E. revert H Hn HT HR CM. generalize (fields_of S m) as fs. intros fs H Hn HT HR CM.
      revert H Hn HR. induction HT as [|x f xs fs Tx HT IHT]; intros H Hn HR; [constructor|].
      inversion H as [|? ? [_ Hx] H']; subst. inversion Hn as [|? ? Hnx Hn']; subst. inversion HR as [|? ? ? ? Rx HR']; subst.
      constructor.
      - intros o ws r' To Ews Hr' HW'. apply Hx; auto; [apply CM; left; reflexivity|lia].
      - apply IHT; try assumption. intros g Hg. apply CM. right; exact Hg. }
    split.
    + intros [k|m] old vs r fuel HT HR HO FC E Hr HW HF; [contradiction HT|].
      pose proof HT as HT'. apply st_msg in HT'. destruct HT' as [L _]. cbn [elem].
      destruct (or_new_ok fuel m old L) as [q ->]; [lia|exact HO|]. cbn [gbind].
      rewrite MSG; auto using base_type. cbn [collapse]. rewrite overlay_msg. reflexivity.
    + intros f old vs r fuel HT HR HO FC E Hr HW HF. destruct f as [[k|m]|t|k t]; try contradiction HT.
      pose proof HT as HT'. apply st_msg in HT'. destruct HT' as [L _]. cbn [step].
      cbn [collapse]. rewrite overlay_msg. destruct (bool_cases v2) as [Ev|Ev]; [rewrite dm_v2, if_t by exact Ev|rewrite dm_v1, if_f by exact Ev].
      * destruct (calls_sent_head S HC _ _ _ HT HR E) as (v & ws & EV & Nv); [discriminate|].
        rewrite nil_no by (intros q; rewrite EV, wires_cons, <- app_assoc; apply wire_head; exact Nv).
        destruct (Hnew m fuel L) as [q ->]; [lia|]. cbn [gbind]. rewrite MSG; auto.
      * destruct (or_new_ok fuel m old L) as [q ->]; [lia|exact HO|]. cbn [gbind].
        rewrite MSG; auto using base_type.
Qed.
End RT.
