(** Encode functions: encode.templ, encodeMap.templ. *)
From Coq Require Import String.
From Verif Require Import Base Spec GenTables GenModel GenSpec GenLemmas GenFields GenTrace NameModel NameSpec EmitModel EmitSpec EmitThms PkgThms GoAst GoEmit GoRunSpec GoLink GoFrame GoExec GoScope GoSlices GoMsgs GoMaps GoDecode.

Definition outs (s : st) (l : list value) : st := mkst (env s) (heap s) (inp s) (out s ++ l) (made s).
Definition wrote {A} (a : A) (fits : bool) (l : list value) (s : st) : ex (A * st) := if fits then Fine (a, outs s l) else Deep.
Lemma outs_nil s : outs s [] = s.
Proof. destruct s. unfold outs. cbn. rewrite app_nil_r. reflexivity. Qed.
Lemma outs_outs s a b : outs (outs s a) b = outs s (a ++ b).
Proof. unfold outs. cbn. rewrite app_assoc. reflexivity. Qed.

(** one call of an encoder method *)
Lemma enc_method k w w' : enc_call k w = Some w' -> w' = w /\ scalar_type k = Some (want w) /\ String.eqb (entry (go_encodeLUT k)) "" = false /\
  forall s, encoder_method (entry (go_encodeLUT k)) [GoBase w] s = Fine ([GoBuffer], outs s [w]).
Proof.
  unfold enc_call. destruct k; cbn [go_encodeLUT]; try discriminate;
    match goal with |- match assoc ?n ?l with _ => _ end = _ -> _ => destruct (assoc n l) as [q|] eqn:E; [|discriminate]; vm_compute in E; injection E as <- end;
    (destruct (request_eq_dec _ (want w)) as [Ew|]; [|discriminate]); intros H; injection H as <-;
    (split; [reflexivity|]); (split; [rewrite <- Ew; reflexivity|]); (split; [reflexivity|]); intros s; unfold encoder_method; cbn [entry String.eqb Ascii.eqb Bool.eqb];
    match goal with |- context [assoc ?n ?l] => let v := eval vm_compute in (assoc n l) in change (assoc n l) with v end; cbn iota;
    (destruct (request_eq_dec _ (want w)) as [|N]; [reflexivity|congruence]).
Qed.
Lemma enc_value k v : holds k v -> forall w, enc_call k v = Some w -> w = v.
Proof. intros _ w H. apply enc_method in H. apply H. Qed.

Section Enc.
Variables (v2 : bool) (f : filed) (room : Z -> bool) (prim : option bytes -> request -> bytes -> outcome).
Variable callee : option bytes -> bytes -> list gov -> st -> ex (list gov * st).
Variable n : nat.
Hypothesis NA : names_apart v2 f.
Hypothesis CO : compiles (schema_of f) = true.
Notation P := (go_program v2 f).
Notation ms := (messages_of f).
Notation Sch := (schema_of f).
Notation EV := (eval P room prim callee).
Notation EX := (exec P room prim callee).
Notation SEQ := (seq (exec P room prim callee)).

Definition fits (x : gval) : bool := Nat.leb (depth x) n.
(** calling x.Encode(b) on a message, on a map *)
Definition enc_spec : Prop := forall fd es m x v fp s l, f_many fd = false -> f_typ fd = TMsg es -> nth_error ms (position es ms) = Some m -> m_full m = es ->
  rep ms (heap s) fd x v fp -> has_type Sch x (One (Msg (position es ms))) -> calls Sch x (One (Msg (position es ms))) = Some l ->
  callee (Some (camel es)) (text ".Encode") [v; GoBuffer] s = wrote [] (fits x) l s.
Definition encmap_spec (fd : fieldd) (kt vt : ftyp) : Prop := forall x v fp s l,
  rep ms (heap s) fd x v fp -> has_type Sch x (MapOf (kind_of kt) (ftype_of ms vt)) -> calls Sch x (MapOf (kind_of kt) (ftype_of ms vt)) = Some l ->
  callee (Some (map_name fd)) (text ".Encode") [v; GoBuffer] s = wrote [] (fits x) l s.
Hypothesis ENC : enc_spec.

(** variables of an encode function *)
Record escope (E : list (bytes * gov)) : Prop := {
  es_b : find_name n_b E = Some GoBuffer;
  es_u32 : find_name n_u32 E = None;
  es_len : find_name n_len E = None }.
Lemma eval_encoder s : escope (env s) -> one EV encoder s = Fine (GoBuffer, s).
Proof. intros H. unfold one, encoder. cbn [eval]. rewrite (one_var P room prim callee n_b GoBuffer s (es_b _ H)). reflexivity. Qed.
Lemma eval_enc_call m e v s : escope (env s) -> EV e s = Fine ([v], s) -> EV (Met encoder m [e]) s = encoder_method m [v] s.
Proof. intros H E. cbn [eval]. rewrite (eval_encoder s H). cbn [ebind each]. unfold one. rewrite E. reflexivity. Qed.
Lemma eval_enc_call2 m e v e' v' s : escope (env s) -> EV e s = Fine ([v], s) -> EV e' s = Fine ([v'], s) -> EV (Met encoder m [e; e']) s = encoder_method m [v; v'] s.
Proof. intros H E E'. cbn [eval]. rewrite (eval_encoder s H). cbn [ebind each]. unfold one. rewrite E. cbn [ebind]. rewrite E'. reflexivity. Qed.
Lemma eval_enc_call3 m e v e' v' e2 w s : escope (env s) -> EV e s = Fine ([v], s) -> EV e' s = Fine ([v'], s) -> EV e2 s = Fine ([w], s) -> EV (Met encoder m [e; e'; e2]) s = encoder_method m [v; v'; w] s.
Proof. intros H E E' E2. cbn [eval]. rewrite (eval_encoder s H). cbn [ebind each]. unfold one. rewrite E. cbn [ebind]. rewrite E'. cbn [ebind]. rewrite E2. reflexivity. Qed.
Lemma eval_const kn kk s : assoc kn go_kinds = Some kk -> EV (Const kn) s = Fine ([GoKind kk], s).
Proof. intros H. cbn [eval]. rewrite H. reflexivity. Qed.
Lemma eval_u32 e v z s : escope (env s) -> EV e s = Fine ([v], s) -> v = GoBase (VI64 z) \/ v = GoBase (VU32 z) -> EV (App n_u32 [e]) s = Fine ([GoBase (VU32 (u32 z))], s).
Proof.
  intros H E Hv. cbn [eval each]. unfold one. rewrite E. cbn [ebind]. unfold apply. rewrite (es_u32 _ H). change (same n_u32 (text "len")) with false. change (same n_u32 (text "uint32")) with true. cbn iota.
  destruct Hv as [->| ->]; reflexivity.
Qed.
Lemma eval_len e v z s : escope (env s) -> EV e s = Fine ([v], s) -> length_of s v = Fine z -> EV (App n_len [e]) s = Fine ([GoBase (VI64 z)], s).
Proof.
  intros H E Hv. cbn [eval each]. unfold one. rewrite E. cbn [ebind]. unfold apply. rewrite (es_len _ H). change (same n_len (text "len")) with true. cbn iota. rewrite Hv. reflexivity.
Qed.
Lemma escope_more k v E : escope E -> k <> n_b -> k <> n_u32 -> k <> n_len -> escope ((k, v) :: E).
Proof. intros [H1 H2 H3] N1 N2 N3. constructor; cbn [find_name]; rewrite same_false by congruence; assumption. Qed.

Lemma seq_wrote a b l1 l2 s : (exists c1 c2 o1 o2, SEQ a s = wrote Next c1 o1 s /\ SEQ b (outs s o1) = wrote Next c2 o2 (outs s o1) /\ l1 = (c1 && c2)%bool /\ l2 = o1 ++ o2) ->
  SEQ (a ++ b) s = wrote Next l1 l2 s.
Proof.
  intros (c1 & c2 & o1 & o2 & E1 & E2 & -> & ->). rewrite seq_app, E1. unfold wrote at 1. destruct c1; [|reflexivity]. cbn [ebind andb]. rewrite E2. unfold wrote. destruct c2; [|reflexivity]. rewrite outs_outs. reflexivity.
Qed.
Lemma seq_wrote_cons c b c1 c2 o1 o2 s : EX c s = wrote Next c1 o1 s -> SEQ b (outs s o1) = wrote Next c2 o2 (outs s o1) -> SEQ (c :: b) s = wrote Next (c1 && c2) (o1 ++ o2) s.
Proof. intros E1 E2. apply (seq_wrote [c] b). exists c1, c2, o1, o2. rewrite seq_one. auto. Qed.
Lemma do_wrote e vs c o s : EV e s = wrote vs c o s -> EX (Do e) s = wrote Next c o s.
Proof. intros E. cbn [exec]. rewrite E. unfold wrote. destruct c; reflexivity. Qed.

(** a field of x *)
Variables (T : bytes) (a : nat) (fs : list (bytes * gov)).
Definition here (s : st) : Prop := escope (env s) /\ find_name n_x (env s) = Some (GoPtr T (Some a)) /\ nth_error (heap s) a = Some (OStruct fs).
Lemma here_outs s l : here s -> here (outs s l).
Proof. exact (fun H => H). Qed.

(** values: the chain of calls *)
Lemma value_field fd k x v fp w s : here s -> f_many fd = false -> ftype_of ms (f_typ fd) = Scalar k -> k <> KGroup -> find_name (goname fd) fs = Some v -> rep ms (heap s) fd x v fp ->
  has_type Sch x (One (Scalar k)) -> calls Sch x (One (Scalar k)) = Some w ->
  fits x = true /\ exists u, w = [u] /\ EV (snd (encode_value fd)) s = Fine ([GoBase u], s) /\ forall s', encoder_method (fst (encode_value fd)) [GoBase u] s' = Fine ([GoBuffer], outs s' [u]).
Proof.
  intros (Es & Hx & Ha) M Et NG Hf R HT C. destruct (field_one f fd k M Et NG) as (_ & Ek).
  destruct x as [u| | |]; cbn [calls] in C; try discriminate C. destruct (enc_call k u) as [u'|] eqn:EC; [|discriminate C]. injection C as <-.
  destruct (enc_method k u u' EC) as (-> & Q & _ & Em). destruct (rep_prim_inv f fd k _ _ _ _ _ M Et NG Q R) as (old & E1 & -> & _ & _). injection E1 as <-.
  split; [reflexivity|]. exists u. split; [reflexivity|]. unfold encode_value. rewrite Ek. cbn [fst snd]. split; [|exact Em].
  pose proof (eval_my P room prim callee T a fs fd s _ Hx Ha Hf) as My.
  destruct (is_kind k KEnum) eqn:Ekk; [|exact My]. destruct k; try discriminate Ekk. cbn [has_type] in HT. destruct HT as (Hv & HT). destruct u; try contradiction.
  rewrite (eval_u32 _ _ n0 s Es My) by auto. rewrite u32_small; [reflexivity|exact Hv].
Qed.
Lemma chain_ok s0 l : forall e s s1 us, EV e s = Fine ([GoBuffer], s1) -> env s1 = env s0 -> heap s1 = heap s0 ->
  Forall2 (fun p u => forall s', env s' = env s0 -> heap s' = heap s0 -> EV (snd p) s' = Fine ([GoBase u], s') /\ encoder_method (fst p) [GoBase u] s' = Fine ([GoBuffer], outs s' [u])) l us ->
  EV (fold_left (fun e v => Met e (fst v) [snd v]) l e) s = Fine ([GoBuffer], outs s1 us).
Proof.
  induction l as [|p l IH]; intros e s s1 us E E1 E2 F; inversion F as [|? u ? us' Hp Hl]; subst.
  - cbn [fold_left]. rewrite outs_nil. exact E.
  - cbn [fold_left]. change (u :: us') with ([u] ++ us'). rewrite <- outs_outs. apply IH; auto.
    destruct (Hp s1 E1 E2) as (K1 & K2). cbn [eval]. unfold one at 1. rewrite E. cbn [ebind each]. unfold one. rewrite K1. cbn [ebind]. exact K2.
Qed.

(** loops *)
Lemma block_wrote ns vs body s e c o : declare ns vs s = Fine (set_env s e) -> leave (env s) e = env s -> SEQ body (set_env s e) = wrote Next c o (set_env s e) ->
  block EX ns vs body s = wrote Next c o s.
Proof.
  intros D L E. unfold block. rewrite D. cbn [ebind]. rewrite E. unfold wrote. destruct c; [|reflexivity]. cbn [ebind]. cbn [outs env set_env heap inp out made]. rewrite L. reflexivity.
Qed.
Lemma loop_list body fd1 t (s0 : st) :
  (forall i x v fp s l, env s = env s0 -> heap s = heap s0 -> rep ms (heap s) fd1 x v fp -> has_type Sch x (One t) -> calls Sch x (One t) = Some l ->
     body [GoBase (VI64 i); v] s = wrote Next (fits x) l s) ->
  forall xs vs fp i s l, env s = env s0 -> heap s = heap s0 -> reps ms (heap s) (repeat fd1 (length xs)) xs vs fp -> Forall (fun x => has_type Sch x (One t)) xs ->
    all_some (map (fun x => calls Sch x (One t)) xs) = Some l ->
    loop body (map (fun p => [GoBase (VI64 (fst p)); snd p]) (numbered i vs)) s = wrote Next (forallb fits xs) l s.
Proof.
  intros B. induction xs as [|x xs IH]; intros vs fp i s l E1 E2 R HT C.
  - inversion R; subst. cbn in C. injection C as <-. cbn. unfold wrote. rewrite outs_nil. reflexivity.
  - cbn [length repeat] in R. inversion R as [|? ? v p1 ? ? vs' p2 Rx Rs]; subst. inversion HT as [|? ? Hx Hs]; subst.
    cbn [map] in C. apply all_some_cons in C. destruct C as (l1 & l2 & C1 & C2 & ->).
    cbn [numbered map fst snd loop forallb]. rewrite (B i x v p1 s l1 E1 E2 Rx Hx C1). unfold wrote at 1. destruct (fits x); [|reflexivity]. cbn [ebind andb].
    rewrite (IH vs' p2 (i + 1) (outs s l1) l2 E1 E2 Rs Hs C2). unfold wrote. destruct (forallb fits xs); [|reflexivity]. rewrite outs_outs. reflexivity.
Qed.
Lemma loop_map body fd1 kk t (s0 : st) :
  (forall k x v fp s l, env s = env s0 -> heap s = heap s0 -> rep ms (heap s) fd1 x v fp -> holds kk k -> has_type Sch x (One t) -> enc_call kk k = Some k -> calls Sch x (One t) = Some l ->
     body [GoBase k; v] s = wrote Next (fits x) (k :: l) s) ->
  forall (m : list (value * gval)) vs fp s l, env s = env s0 -> heap s = heap s0 -> reps ms (heap s) (repeat fd1 (length m)) (map snd m) vs fp ->
    Forall (fun e => holds kk (fst e) /\ has_type Sch (snd e) (One t)) m ->
    all_some (map (fun e : value * gval => let (k, v) := e in match enc_call kk k, calls Sch v (One t) with Some k, Some vs => Some (k :: vs) | _, _ => None end) m) = Some l ->
    loop body (map (fun p => [GoBase (fst p); snd p]) (combine (map fst m) vs)) s = wrote Next (forallb (fun e => fits (snd e)) m) l s.
Proof.
  intros B. induction m as [|[k x] m IH]; intros vs fp s l E1 E2 R HT C.
  - cbn in C. injection C as <-. cbn. unfold wrote. rewrite outs_nil. reflexivity.
  - cbn [length repeat map snd] in R. inversion R as [|? ? v p1 ? ? vs' p2 Rx Rs]; subst. inversion HT as [|? ? (Hk & Hx) Hs]; subst. cbn [fst snd] in Hk, Hx.
    cbn [map] in C. apply all_some_cons in C. destruct C as (l1 & l2 & C1 & C2 & ->).
    destruct (enc_call kk k) as [k'|] eqn:EK; [|discriminate C1]. destruct (calls Sch x (One t)) as [lx|] eqn:EX'; [|discriminate C1]. injection C1 as <-.
    assert (k' = k) by (apply enc_method in EK; apply EK). subst k'.
    cbn [map combine fst snd loop forallb]. rewrite (B k x v p1 s lx E1 E2 Rx Hk Hx EK EX'). unfold wrote at 1. destruct (fits x); [|reflexivity]. cbn [ebind andb].
    rewrite (IH vs' p2 (outs s (k :: lx)) l2 E1 E2 Rs Hs C2). unfold wrote. destruct (forallb (fun e => fits (snd e)) m); [|reflexivity]. rewrite outs_outs. reflexivity.
Qed.
Lemma fits_list xs : fits (GList xs) = forallb fits xs.
Proof using Type. clear. unfold fits. cbn [depth]. induction xs as [|x xs IH]; [reflexivity|]. cbn [forallb]. rewrite <- IH. apply eq_true_iff_eq. rewrite andb_true_iff, !Nat.leb_le. lia. Qed.
Lemma fits_map l : fits (GMap (Some l)) = forallb (fun e => fits (snd e)) l.
Proof using Type. clear. unfold fits. cbn [depth]. induction l as [|[k x] l IH]; [reflexivity|]. cbn [forallb snd]. rewrite <- IH. apply eq_true_iff_eq. rewrite andb_true_iff, !Nat.leb_le. lia. Qed.

(** repeated fields *)
Lemma range_ok k v fd t items x s c o : here s -> find_name (goname fd) fs = Some x -> items_of s x = Fine items ->
  loop (fun vs => block EX [k; v] vs t) items s = wrote Next c o s -> EX (Range k v (my fd) t) s = wrote Next c o s.
Proof. intros (Es & Hx & Ha) Hf I L. cbn [exec]. rewrite (one_my P room prim callee T a fs fd s _ Hx Ha Hf). cbn [ebind]. rewrite I. exact L. Qed.
Lemma element_kind fd : kind_of (f_typ (element fd)) = kind_of (f_typ fd). Proof. reflexivity. Qed.

Lemma slice_field fd t x v fp w s : here s -> f_many fd = true -> is_map fd = false -> known_type f (f_typ fd) -> ftype_of ms (f_typ fd) = t ->
  match t with Scalar k => k <> KGroup /\ k <> KBytes /\ k <> KEnum /\ k <> KMessage | Msg _ => True end ->
  find_name (goname fd) fs = Some v -> rep ms (heap s) fd x v fp -> has_type Sch x (Many t) -> calls Sch x (Many t) = Some w ->
  SEQ (encode_slice fd) s = wrote Next (fits x) w s.
Proof.
  intros Hh M NM KN Et Kt Hf R HT C. destruct Hh as (Es & Hx & Ha).
  destruct x as [|xs| |]; try (cbn in HT; contradiction). apply ht_many in HT. destruct HT as (Hl & HT).
  pose proof (eval_my P room prim callee T a fs fd s _ Hx Ha Hf) as My.
  (* the elements *)
  assert (V : exists vs fp', items_of s v = Fine (map (fun p => [GoBase (VI64 (fst p)); snd p]) (numbered 0 vs)) /\ length_of s v = Fine (zlen xs) /\
     reps ms (heap s) (repeat (element fd) (length xs)) xs vs fp').
  { inversion R; subst; try congruence.
    - exists [], []. split; [reflexivity|]. split; [reflexivity|constructor].
    - match goal with H : nth_error _ _ = Some (OArray ?vs), K : reps _ _ _ _ ?vs ?q |- _ => exists vs, q; cbn [items_of length_of]; unfold fetch; rewrite H; cbn [need ebind]; split; [reflexivity|]; split; [|exact K];
        destruct (reps_lengths ms _ _ _ _ _ K) as (_ & L); rewrite repeat_length in L; unfold zlen; rewrite L; reflexivity end. }
  destruct V as (vs & fp' & I & L & Rs). clear R.
  assert (Sz : EV (App n_u32 [App n_len [my fd]]) s = Fine ([GoBase (VU32 (u32 (zlen xs)))], s)).
  { eapply eval_u32; [exact Es|apply (eval_len _ v); [exact Es|exact My|exact L]|left; reflexivity]. }
  cbn [calls] in C.
  assert (Lp : forall body, 
     (forall x v fp s0 l, env s0 = env s -> heap s0 = heap s -> rep ms (heap s0) (element fd) x v fp -> has_type Sch x (One t) -> calls Sch x (One t) = Some l ->
        SEQ body (set_env s0 ((n_v, v) :: env s0)) = wrote Next (fits x) l (set_env s0 ((n_v, v) :: env s0))) ->
     forall kn kk w, assoc kn go_kinds = Some kk -> all_some (Some [VSlice (u32 (zlen xs)) kk] :: map (fun x => calls Sch x (One t)) xs) = Some w ->
     SEQ [Do (Met encoder ".Slice" [App n_u32 [App n_len [my fd]]; Const kn]); Range (text "_") n_v (my fd) body] s = wrote Next (fits (GList xs)) w s).
  { intros body B kn kk w' Kk C'. apply all_some_cons in C'. destruct C' as (l1 & l2 & C1 & C2 & ->). injection C1 as <-.
    rewrite fits_list. rewrite <- (andb_true_l (forallb fits xs)). apply seq_wrote_cons.
    - apply (do_wrote _ [GoBuffer]). rewrite (eval_enc_call2 _ _ _ _ _ s Es Sz (eval_const kn kk s Kk)). reflexivity.
    - rewrite seq_one. apply (range_ok _ _ fd _ _ v (outs s _) _ _ (conj Es (conj Hx Ha)) Hf I).
      apply (loop_list _ (element fd) t (outs s [VSlice (u32 (zlen xs)) kk])) with (fp := fp'); auto.
      intros i y vy fpy s1 l E1 E2 Ry Hy Cy. apply (block_wrote _ _ _ _ ((n_v, vy) :: env s1)).
      + cbn [declare]. change (same (text "_") (text "_")) with true. change (same n_v (text "_")) with false. cbn iota. destruct s1. reflexivity.
      + apply leave_one. reflexivity.
      + apply (B y vy fpy s1 l E1 E2 Ry Hy Cy). }
  assert (En : forall s0 v0, env s0 = env s -> escope ((n_v, v0) :: env s0)).
  { intros s0 v0 E0. rewrite E0. apply escope_more; [exact Es|discriminate|discriminate|discriminate]. }
  unfold encode_slice. destruct (f_typ fd) as [k|es|es|? ?] eqn:Etyp; cbn [ftype_of] in Et; subst t; cbn [kind_of].
  - (* scalars *)
    destruct (kind_number (go_kindLUT k)) as [kk|] eqn:Kk; [|discriminate C].
    destruct Kt as (N1 & N2 & N3 & N4). assert (Em : String.eqb (entry (go_encodeLUT k)) "" && is_kind k KMessage = false) by (destruct k; try congruence; reflexivity). rewrite Em.
    apply (Lp _) with (kk := kk); [|unfold kind_number in Kk; destruct (go_kindLUT k); [exact Kk|discriminate Kk]|exact C].
    intros y vy fpy s1 l E1 E2 Ry Hy Cy. rewrite seq_one.
    destruct y as [u| | |]; cbn [calls] in Cy; try discriminate Cy. destruct (enc_call k u) as [u'|] eqn:EC; [|discriminate Cy]. injection Cy as <-.
    destruct (enc_method k u u' EC) as (-> & Q & _ & Hm). assert (vy = GoBase u) by (inversion Ry; reflexivity). subst vy.
    apply (do_wrote _ [GoBuffer]). rewrite (eval_enc_call _ _ (GoBase u)); [apply Hm|exact (En s1 _ E1)|]. cbn [eval env set_env find_name]. rewrite same_refl. reflexivity.
  - exfalso. destruct Kt as (_ & _ & Kt & _). congruence.
  - (* messages *)
    change (String.eqb (entry (go_encodeLUT KMessage)) "" && is_kind KMessage KMessage) with true. cbn iota.
    destruct (kind_number (Some "polyglot.AnyKind"%string)) as [kk|] eqn:Kk; [|discriminate C].
    apply (Lp _) with (kk := kk); [|exact Kk|exact C].
    intros y vy fpy s1 l E1 E2 Ry Hy Cy. rewrite seq_one. destruct (msg_known f es KN) as (me & Hme & Em & HMe).
    pose proof (ENC (element fd) es me y vy fpy (set_env s1 ((n_v, vy) :: env s1)) l eq_refl Etyp Hme Em Ry Hy Cy) as K.
    assert (Ep : exists o, vy = GoPtr (camel es) o).
    { inversion Ry; subst; cbn [element f_typ f_many] in *; try congruence; rewrite Etyp in *; try discriminate; match goal with H : TMsg _ = TMsg _ |- _ => injection H as <- end; eauto. }
    destruct Ep as (o & ->). apply (do_wrote _ []). cbn [eval]. unfold one at 1. cbn [eval env set_env find_name]. rewrite same_refl. cbn [ebind each]. unfold one. cbn [eval].
    pose proof (es_b _ (En s1 (GoPtr (camel es) o) E1)) as Eb. match goal with |- context [find_name n_b ?e] => change (find_name n_b e) with (find_name n_b ((n_v, GoPtr (camel es) o) :: env s1)) end. rewrite Eb. cbn [ebind method]. exact K.
  - cbn [known_type] in KN. contradiction.
Qed.
(** messages and maps *)
Lemma message_field fd es x v fp w s : here s -> f_many fd = false -> f_typ fd = TMsg es -> known_type f (TMsg es) ->
  find_name (goname fd) fs = Some v -> rep ms (heap s) fd x v fp -> has_type Sch x (One (Msg (position es ms))) -> calls Sch x (One (Msg (position es ms))) = Some w ->
  SEQ (encode_message fd) s = wrote Next (fits x) w s.
Proof.
  intros (Es & Hx & Ha) M Etyp KN Hf R HT C. unfold encode_message. rewrite seq_one. apply (do_wrote _ []). cbn [eval].
  rewrite (one_my P room prim callee T a fs fd s _ Hx Ha Hf). cbn [ebind each]. rewrite (one_var P room prim callee n_b GoBuffer s (es_b _ Es)). cbn [ebind].
  destruct (msg_known f es KN) as (me & Hme & Em & HMe). pose proof (ENC fd es me x v fp s w M Etyp Hme Em R HT C) as K.
  assert (Ep : exists o, v = GoPtr (camel es) o).
  { inversion R; subst; try congruence; try (match goal with H : scalar_type (kind_of (f_typ _)) = _ |- _ => rewrite Etyp in H; discriminate H end); match goal with H : f_typ _ = TMsg _ |- _ => rewrite Etyp in H; injection H as <- end; eauto. }
  destruct Ep as (o & ->). exact K.
Qed.
Lemma map_field fd kt vt x v fp w s : encmap_spec fd kt vt -> here s -> f_typ fd = TMap kt vt -> f_many fd = true ->
  find_name (goname fd) fs = Some v -> rep ms (heap s) fd x v fp -> has_type Sch x (MapOf (kind_of kt) (ftype_of ms vt)) -> calls Sch x (MapOf (kind_of kt) (ftype_of ms vt)) = Some w ->
  SEQ (encode_message fd) s = wrote Next (fits x) w s.
Proof.
  intros EM (Es & Hx & Ha) Etyp M Hf R HT C. unfold encode_message. rewrite seq_one. apply (do_wrote _ []). cbn [eval].
  rewrite (one_my P room prim callee T a fs fd s _ Hx Ha Hf). cbn [ebind each]. rewrite (one_var P room prim callee n_b GoBuffer s (es_b _ Es)). cbn [ebind].
  pose proof (EM x v fp s w R HT C) as K.
  assert (Ep : exists o, v = GoMap (map_name fd) o).
  { inversion R; subst; try congruence; try (match goal with H : is_map _ = false |- _ => unfold is_map in H; rewrite Etyp in H; discriminate H end); eauto. }
  destruct Ep as (o & ->). exact K.
Qed.
End Enc.
