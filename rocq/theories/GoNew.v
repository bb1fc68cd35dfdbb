(** New functions, and calls: the generated program as a whole. *)
From Coq Require Import String.
From Verif Require Import Base Spec GenTables GenModel GenTrace NameModel NameSpec EmitModel EmitSpec EmitThms PkgThms GoAst GoEmit GoRunSpec GoLink GoFrame GoExec GoScope GoSlices GoMsgs GoMaps GoDecode.

(** GenModel.New with a fuel that is not used up, version 1 *)
Fixpoint each_new (S : schema) (fuel : nat) (fs : list field) : gres (list gval) :=
  match fs with
  | [] => GDone [] []
  | f :: fs =>
      gbind (match f with
             | One (Msg m) => gbind (GenModel.New false S fuel m) (fun _ x => GDone [] (GMsg (Some x)))
             | _ => GDone [] (zero f)
             end)
            (fun _ x => gbind (each_new S fuel fs) (fun _ xs => GDone [] (x :: xs)))
  end.
Lemma new_each S fuel m fs : nth_error S m = Some fs -> GenModel.New false S (Datatypes.S fuel) m = each_new S fuel fs.
Proof. intros H. cbn [GenModel.New]. rewrite H. induction fs as [|g fs IH] in |- *; [reflexivity|]. cbn [each_new]. rewrite <- IH. reflexivity. Qed.

Section New.
Variables (v2 : bool) (f : filed) (room : Z -> bool) (prim : option bytes -> request -> bytes -> outcome).
Variable callee : option bytes -> bytes -> list gov -> st -> ex (list gov * st).
Variable n : nat.
Hypothesis NA : names_apart v2 f.
Hypothesis CO : compiles (schema_of f) = true.
Notation names := (go_names (go_file v2 f)).
Notation P := (go_program v2 f).
Notation ms := (messages_of f).
Notation Sch := (schema_of f).
Notation EV := (eval P room prim callee).
Hypothesis NEW : new_spec v2 f callee n.

(** zero values of fields *)
Lemma field_zero m fd s : has_message f m -> In fd (m_fields m) -> env s = [] ->
  exists z, zero_of P s (type_text fd) = Some z /\ forall h, rep ms h fd (zero (field_of ms fd)) z [].
Proof.
  intros HM Hin E0. assert (Hn : forall k, find_name k (env s) = None) by (rewrite E0; reflexivity).
  destruct (shape_of v2 f m fd NA CO HM Hin) as [k B1 B2 B3 B4 B5|t kk B1 B2 B3 B4 B5 B6 B7|es B1 B2 B3 B4|kt vt qk k1 k2 B1 B2 B3 B4 B5 B6 B7 B8 B9 B10 B11].
  - destruct (field_one f fd k B1 B2 B3) as (Ef & Ek). rewrite Ef. cbn [zero]. destruct (f_typ fd) as [k'|es|es|? ?] eqn:Et; cbn [ftype_of] in B2; try discriminate B2.
    + injection B2 as ->. destruct B5 as (N1 & N2). destruct (scalar_zero v2 f fd k s Et B1 B3 B4 N1) as (q & Q1 & Q2). exists (GoBase (zero_prim q)). split; [exact Q2|]. intros h. rewrite Q1.
      apply rep_base; [exact B1|]. rewrite Et. cbn [kind_of]. rewrite Q1, zero_want. reflexivity.
    + injection B2 as <-. exists (GoBase (VU32 0)). split.
      * unfold type_text, FindValue. rewrite Et, B1, camel_ok. apply (enum_zero v2 f NA es s B5 (Hn _)).
      * intros h. change (GPrim match scalar_type KEnum with Some q => zero_prim q | None => VNil end) with (GPrim (VU32 0)). apply rep_base; [exact B1|]. rewrite Et. reflexivity.
    + congruence.
  - rewrite B5. cbn [zero]. exists (GoSlice (type_text (element fd)) None). split; [|intros h; apply rep_empty; assumption].
    destruct (f_typ fd) as [k|es|es|? ?] eqn:Et; cbn [ftype_of] in B4; subst t.
    + destruct B6 as (N1 & N2 & N3 & N4). unfold type_text, FindValue. cbn [element f_typ f_many]. rewrite Et, B1. destruct k; try congruence; reflexivity.
    + exfalso. destruct B6 as (_ & _ & N3 & _). congruence.
    + unfold type_text, FindValue. cbn [element f_typ f_many]. rewrite Et, B1, camel_ok. cbn [bind]. rewrite append2, append3. unfold zero_of. change (base_type (text "[]" ++ text "*" ++ camel es)) with (@None request). cbn iota.
      change (strip (text "[]") (text "[]" ++ text "*" ++ camel es)) with (strip (text "[]") (text "[]" ++ (text "*" ++ camel es))). rewrite strip_app.
      destruct (msg_known f es B3) as (me & Hme & Em & HMe). rewrite (zero_msg v2 f NA es s me B3 (Hn _) HMe Em). reflexivity.
    + contradiction.
  - rewrite B4. cbn [zero]. exists (GoPtr (camel es) None). split; [|intros h; apply rep_nil; assumption].
    unfold type_text, FindValue. rewrite B2, B1, camel_ok. cbn [bind]. rewrite append2. apply (msg_zero v2 f NA es s B3 (Hn _)).
  - rewrite B11. cbn [zero]. exists (GoMap (map_name fd) None). split; [|intros h; eapply rep_nomap; exact B2].
    assert (Ety : type_text fd = map_name fd) by (unfold type_text, FindValue, map_name; rewrite B2, append2, camel_ok, camel_map; reflexivity). rewrite Ety.
    assert (InT : In (DType (map_name fd) (TyMap (type_text (map_key fd kt)) (type_text (map_value fd vt)))) P).
    { apply (in_P_map v2 f m fd _ HM Hin). unfold map_decls. rewrite B2. left. reflexivity. }
    assert (InN : In (map_name fd) names) by (rewrite <- program_names; apply in_flat_map; eexists; split; [exact InT|left; reflexivity]).
    destruct (name_base v2 f NA _ InN) as (C1 & C2 & C3 & C4). unfold zero_of. rewrite C1, C2. unfold zero_plain. rewrite same_false by exact C4. rewrite C1, C3. unfold type_here. rewrite Hn.
    rewrite (find_type_in v2 f (na_once _ _ NA) _ _ InT). reflexivity.
Qed.
Lemma fields_zero m fs s : has_message f m -> (forall fd, In fd fs -> In fd (m_fields m)) -> env s = [] ->
  exists zs, zeros P s (map (fun fd => (goname fd, type_text fd)) fs) = Some (combine (map goname fs) zs) /\ forall h, reps ms h fs (map (fun fd => zero (field_of ms fd)) fs) zs [].
Proof.
  intros HM H E0. induction fs as [|fd fs IH]; [exists []; split; [reflexivity|intros; constructor]|].
  destruct IH as (zs & Z1 & Z2); [intros k Hk; apply H; right; exact Hk|]. destruct (field_zero m fd s HM (H fd (or_introl eq_refl)) E0) as (z & Y1 & Y2).
  exists (z :: zs). cbn [map zeros combine]. rewrite Y1, Z1. split; [reflexivity|]. intros h. apply (reps_cons ms h fd _ z [] _ _ _ []); auto.
Qed.

Definition news (fs : list fieldd) : list (bytes * expr) :=
  flat_map (fun fd => if is_kind (kind_of (f_typ fd)) KMessage && negb (f_many fd) then [(goname fd, App (new_name (message_of fd)) [])] else []) fs.
Lemma message_shape m fd : has_message f m -> In fd (m_fields m) ->
  (exists es me, f_many fd = false /\ f_typ fd = TMsg es /\ field_of ms fd = One (Msg (position es ms)) /\ nth_error ms (position es ms) = Some me /\ m_full me = es /\ has_message f me /\
     is_kind (kind_of (f_typ fd)) KMessage && negb (f_many fd) = true) \/
  (is_kind (kind_of (f_typ fd)) KMessage && negb (f_many fd) = false /\ (forall mi, field_of ms fd <> One (Msg mi))).
Proof.
  intros HM Hin. destruct (shape_of v2 f m fd NA CO HM Hin) as [k B1 B2 B3 B4 B5|t kk B1 B2 B3 B4 B5 B6 B7|es B1 B2 B3 B4|kt vt qk k1 k2 B1 B2 B3 B4 B5 B6 B7 B8 B9 B10 B11].
  - right. destruct (field_one f fd k B1 B2 B3) as (Ef & Ek). rewrite Ek, Ef. split; [destruct k; try reflexivity; congruence|congruence].
  - right. rewrite B1, B5, andb_false_r. split; [reflexivity|congruence].
  - left. destruct (msg_known f es B3) as (me & Hme & Em & HMe). exists es, me. rewrite B1, B2. auto 10.
  - right. rewrite B1, B11, andb_false_r. split; [reflexivity|congruence].
Qed.
Lemma fill_ok m (h0 : list obj) (s0 : st) : has_message f m -> negb v2 = true -> forall todo done xsd vsd zs fpd s, m_fields m = done ++ todo -> reps ms (heap s) done xsd vsd fpd -> NoDup fpd ->
  (forall h, reps ms h todo (map (fun fd => zero (field_of ms fd)) todo) zs []) -> only_at h0 (heap s) [] fpd -> quiet s0 s -> env s = [] ->
  match each_new Sch n (map (field_of ms) todo) with
  | GDone _ xs => exists s' vs fp, fill EV (news todo) (combine (map goname (m_fields m)) (vsd ++ zs)) s = Fine (combine (map goname (m_fields m)) (vsd ++ vs), s') /\
       reps ms (heap s') (m_fields m) (xsd ++ xs) (vsd ++ vs) fp /\ NoDup fp /\ only_at h0 (heap s') [] fp /\ quiet s0 s'
  | GDeep => fill EV (news todo) (combine (map goname (m_fields m)) (vsd ++ zs)) s = Deep
  | GBroken => True
  | _ => False
  end.
Proof.
  intros HM V1. induction todo as [|fd todo IH]; intros done xsd vsd zs fpd s Ef R N Z On Q E0.
  - cbn [map each_new news flat_map fill]. specialize (Z []). inversion Z; subst zs. exists s, [], fpd. rewrite app_nil_r in Ef. rewrite Ef, !app_nil_r. auto.
  - assert (Hin : In fd (m_fields m)) by (rewrite Ef; apply in_or_app; right; left; reflexivity).
    destruct zs as [|z zs']; [exfalso; specialize (Z []); inversion Z|].
    assert (Zh : forall h, rep ms h fd (zero (field_of ms fd)) z [] /\ reps ms h todo (map (fun fd => zero (field_of ms fd)) todo) zs' []).
    { intros h. specialize (Z h). cbn [map] in Z. inversion Z as [|? ? ? q1 ? ? ? q2 Y1 Y2]; subst. match goal with H : _ ++ _ = [] |- _ => apply app_eq_nil in H; destruct H as (-> & ->) end. auto. }
    assert (Ef' : m_fields m = (done ++ [fd]) ++ todo) by (rewrite <- app_assoc; exact Ef).
    cbn [map each_new news flat_map].
    destruct (message_shape m fd HM Hin) as [(es & me & M & Ees & Efo & Hme & Em & HMe & Ek)|(Ek & Nf)]; rewrite Ek.
    + (* x.F: NewM() *)
      rewrite Efo. cbn [app fill]. unfold one.
      replace (message_of fd) with (camel (m_full me)) by (unfold message_of; rewrite Ees, Em; reflexivity).
      rewrite (eval_new v2 f room prim callee NA me s HMe) by (rewrite E0; reflexivity). pose proof (NEW me _ s Hme) as W.
      destruct (GenModel.New false Sch n (position es ms)) as [r0 xs| | | |] eqn:EN; rewrite (proj1 (negb_true_iff v2) V1), EN in W; try contradiction; cbn [gbind]; [|rewrite W; reflexivity|exact I].
      destruct W as [(En & _)|(s3 & c & fp3 & W & Hst & On3 & Q1 & Q2 & Q3 & Q4)].
      { exfalso. rewrite En in EN. cbn [GenModel.New] in EN. destruct (nth_error Sch (position es ms)); discriminate EN. }
      rewrite W. cbn [ebind].
      pose proof (na_fields _ _ NA m HM) as Nd. destruct (reps_lengths ms _ _ _ _ _ R) as (L1 & L2).
      assert (Lz : length zs' = length todo) by (destruct (reps_lengths ms _ _ _ _ _ (proj2 (Zh []))) as (_ & L); exact L).
      assert (Hn : nth_error (map goname (m_fields m)) (length done) = Some (goname fd)).
      { rewrite nth_error_map, Ef, nth_error_app2 by lia. rewrite Nat.sub_diag. reflexivity. }
      assert (Lm : length (vsd ++ z :: zs') = length (map goname (m_fields m))) by (rewrite map_length, Ef, !app_length; cbn [length]; lia).
      rewrite (find_combine _ _ Nd Lm _ _ Hn), nth_error_app2 by lia. rewrite L2, Nat.sub_diag. cbn [nth_error need ebind].
      assert (Ez : z = GoPtr (camel es) None).
      { destruct (Zh []) as (Y & _). rewrite Efo in Y. cbn [zero] in Y. destruct (rep_msg_inv f fd es _ z [] [] M Ees Y ltac:(constructor)) as [(_ & K & _)|(? & ? & ? & ? & K & _)]; [exact K|discriminate K]. }
      replace (fit z) with (fit (GoPtr (camel es) None)) by (rewrite Ez; reflexivity). rewrite Em. cbn [fit]. rewrite same_refl. cbn [need ebind]. rewrite (set_combine _ _ Nd Lm _ _ _ Hn).
      assert (Es : set_at (length done) (GoPtr (camel es) (Some c)) (vsd ++ z :: zs') = (vsd ++ [GoPtr (camel es) (Some c)]) ++ zs').
      { rewrite <- L2, <- app_assoc. clear. induction vsd as [|y vsd IHv]; [reflexivity|]. cbn [app length set_at]. f_equal. exact IHv. }
      rewrite Es. fold (news todo).
      assert (Bd : forall k, In k fpd -> (k < length (heap s))%nat) by (intros k Hk; exact (reps_bound ms (heap s) _ _ _ _ R k Hk)).
      assert (Nb : forall k, In k (c :: fp3) -> (length (heap s) <= k)%nat) by (intros k Hk; destruct On3 as (_ & _ & On3); destruct (On3 k Hk) as [[]|]; assumption).
      assert (R3 : reps ms (heap s3) (done ++ [fd]) (xsd ++ [GMsg (Some xs)]) (vsd ++ [GoPtr (camel es) (Some c)]) (fpd ++ (c :: fp3) ++ [])).
      { apply reps_app.
        - apply (reps_frame ms (heap s)); [exact R|]. intros k Hk. destruct On3 as (_ & On3 & _). apply On3; [apply Bd, Hk|intros []].
        - constructor; [|constructor]. eapply rep_of_struct; eassumption. }
      rewrite app_nil_r in R3.
      assert (N3 : NoDup (fpd ++ c :: fp3)).
      { pose proof (nodup_mid fpd [] (c :: fp3) []) as K. rewrite !app_nil_r in K. cbn [app] in K. apply K; [exact N|destruct Hst as (? & _ & _ & Hst); exact Hst|]. intros k Hk. right. intros K'. apply Bd in K'. apply Nb in Hk. lia. }
      assert (On' : only_at h0 (heap s3) [] (fpd ++ c :: fp3)).
      { eapply only_trans; [exact On|]. apply (only_frame _ _ fpd [] (c :: fp3) []) in On3. rewrite !app_nil_r in On3. exact On3. }
      assert (Q' : quiet s0 s3) by (destruct Q as (P1 & P2 & P3 & P4); unfold quiet; repeat split; congruence).
      specialize (IH (done ++ [fd]) (xsd ++ [GMsg (Some xs)]) (vsd ++ [GoPtr (camel es) (Some c)]) zs' _ s3 Ef' R3 N3 (fun h => proj2 (Zh h)) On' Q' ltac:(congruence)).
      destruct (each_new Sch n (map (field_of ms) todo)) as [r1 ys| | | |]; cbn [gbind]; try exact IH.
      destruct IH as (s' & vs & fp & I1 & I2 & I3 & I4 & I5). exists s', (GoPtr (camel es) (Some c) :: vs), fp. rewrite I1. rewrite <- !app_assoc in I2. rewrite <- app_assoc. auto.
    + (* other fields *)
      assert (Ez : (match field_of ms fd with One (Msg m0) => gbind (GenModel.New false Sch n m0) (fun _ x => GDone [] (GMsg (Some x))) | _ => GDone [] (zero (field_of ms fd)) end) = GDone [] (zero (field_of ms fd))).
      { destruct (field_of ms fd) as [[k|mi]|t|k t]; try reflexivity. exfalso. apply (Nf mi). reflexivity. }
      rewrite Ez. cbn [gbind app]. fold (news todo).
      assert (R3 : reps ms (heap s) (done ++ [fd]) (xsd ++ [zero (field_of ms fd)]) (vsd ++ [z]) (fpd ++ [] ++ [])).
      { apply reps_app; [exact R|]. constructor; [apply Zh|constructor]. }
      cbn [app] in R3. rewrite app_nil_r in R3.
      specialize (IH (done ++ [fd]) _ (vsd ++ [z]) zs' _ s Ef' R3 N (fun h => proj2 (Zh h)) On Q E0). rewrite <- app_assoc in IH. cbn [app] in IH.
      destruct (each_new Sch n (map (field_of ms) todo)) as [r1 ys| | | |]; cbn [gbind]; try exact IH.
      destruct IH as (s' & vs & fp & I1 & I2 & I3 & I4 & I5). exists s', (z :: vs), fp. rewrite <- !app_assoc in I2. cbn [app] in I1, I2. rewrite <- ?app_assoc in I1. cbn [app] in I1. split; [exact I1|]. split; [exact I2|]. auto.
Qed.

(** structs.templ 39-50 (v2: 39-43) *)
Theorem new_func_ok m mi s : nth_error ms mi = Some m ->
  match GenModel.New v2 Sch (S n) mi with
  | GDone _ xs => exists s' a fp, enter P room prim callee (new_func v2 m) [] s = Fine ([GoPtr (camel (m_full m)) (Some a)], s') /\
      struct_at ms (heap s') a m xs fp /\ only_at (heap s) (heap s') [] (a :: fp) /\ quiet s s'
  | GDeep => enter P room prim callee (new_func v2 m) [] s = Deep
  | GBroken => True
  | _ => False
  end.
Proof.
  intros Hm. assert (HM : has_message f m) by (apply ms_has; exact (nth_error_In _ _ Hm)). set (T := camel (m_full m)).
  assert (Es : nth_error Sch mi = Some (map (field_of ms) (m_fields m))) by (unfold schema_of; rewrite nth_error_map, Hm; reflexivity).
  set (s1 := set_env s []). destruct (fields_zero m (m_fields m) s1 HM (fun fd H => H) eq_refl) as (zs & Z1 & Z2).
  destruct (msg_names v2 f NA m HM) as (_ & Ht & _).
  (* the object *)
  assert (Al : forall xs vs fp s', reps ms (heap s') (m_fields m) xs vs fp -> NoDup fp -> only_at (heap s) (heap s') [] fp -> quiet s1 s' ->
     exists s2 a fp2, set_env (set_heap s' (heap s' ++ [OStruct (combine (map goname (m_fields m)) vs)])) (env s) = s2 /\ length (heap s') = a /\ struct_at ms (heap s2) a m xs fp2 /\ only_at (heap s) (heap s2) [] (a :: fp2) /\ quiet s s2).
  { intros xs vs fp s' R N On (Q1 & Q2 & Q3 & Q4). do 2 eexists. exists fp. split; [reflexivity|]. split; [reflexivity|]. cbn [heap set_env set_heap].
    assert (Bd : forall k, In k fp -> (k < length (heap s'))%nat) by (intros k Hk; exact (reps_bound ms (heap s') _ _ _ _ R k Hk)).
    split; [|split; [|unfold quiet; cbn [env inp out made set_env set_heap]; auto]].
    - exists vs. split; [apply nth_new|]. split; [|constructor; [intros K; apply Bd in K; lia|exact N]]. apply (reps_frame ms (heap s')); [exact R|]. intros k Hk. apply nth_error_app1, Bd, Hk.
    - destruct On as (A1 & A2 & A3). split; [rewrite app_length; lia|]. split.
      + intros k Hk _. rewrite nth_error_app1 by lia. apply A2; [exact Hk|intros []].
      + intros k [<-|Hk]; [right; lia|]. exact (A3 k Hk). }
  assert (En : forall fs, enter P room prim callee (mkfunc None (new_name T) [] [] (Some (XText (text "*" ++ T))) [Return [Lit T fs]] true) [] s =
     let? (x, s2) := fill EV fs (combine (map goname (m_fields m)) zs) s1 in Fine ([GoPtr T (Some (length (heap s2)))], set_env (set_heap s2 (heap s2 ++ [OStruct x])) (env s))).
  { intros fs. unfold enter. cbn [fn_params fn_body declare ebind]. rewrite seq_one. cbn [exec eval]. unfold type_here. cbn [env set_env find_name]. fold T in Ht. rewrite Ht. fold s1. rewrite Z1. cbn [need ebind].
    destruct (fill EV fs (combine (map goname (m_fields m)) zs) s1) as [[x s2]| | |]; reflexivity. }
  assert (B2 : exists s' a fp, enter P room prim callee (mkfunc None (new_name T) [] [] (Some (XText (text "*" ++ T))) [Return [Lit T []]] true) [] s = Fine ([GoPtr T (Some a)], s') /\
      struct_at ms (heap s') a m (map zero (map (field_of ms) (m_fields m))) fp /\ only_at (heap s) (heap s') [] (a :: fp) /\ quiet s s').
  { rewrite En. cbn [fill ebind]. destruct (Al (map (fun fd => zero (field_of ms fd)) (m_fields m)) zs [] s1 (Z2 _) ltac:(constructor) (only_refl _ _) ltac:(unfold quiet; auto)) as (s2 & a & fp2 & <- & <- & H).
    do 3 eexists. split; [reflexivity|]. rewrite map_map. exact H. }
  assert (B1 : v2 = false -> match each_new Sch n (map (field_of ms) (m_fields m)) with
     | GDone _ xs => exists s' a fp, enter P room prim callee (mkfunc None (new_name T) [] [] (Some (XText (text "*" ++ T))) [Return [Lit T (news (m_fields m))]] true) [] s = Fine ([GoPtr T (Some a)], s') /\
         struct_at ms (heap s') a m xs fp /\ only_at (heap s) (heap s') [] (a :: fp) /\ quiet s s'
     | GDeep => enter P room prim callee (mkfunc None (new_name T) [] [] (Some (XText (text "*" ++ T))) [Return [Lit T (news (m_fields m))]] true) [] s = Deep
     | GBroken => True | _ => False end).
  { intros V. pose proof (fill_ok m (heap s) s1 HM (proj2 (negb_true_iff v2) V) (m_fields m) [] [] [] zs [] s1 eq_refl ltac:(constructor) ltac:(constructor) Z2 (only_refl _ _) ltac:(unfold quiet; auto) eq_refl) as F.
    cbn [app] in F. rewrite En. destruct (each_new Sch n (map (field_of ms) (m_fields m))) as [r xs| | | |]; try exact F; [|rewrite F; reflexivity].
    destruct F as (s' & vs & fp & F1 & F2 & F3 & F4 & F5). rewrite F1. cbn [ebind]. destruct (Al xs vs fp s' F2 F3 F4 F5) as (s2 & a & fp2 & <- & <- & H). do 3 eexists. split; [reflexivity|exact H]. }
  pose proof (new_each Sch n mi _ Es) as Ne. unfold new_func. fold T. change (flat_map _ (m_fields m)) with (news (m_fields m)).
  assert (G : forall b, (b = false -> v2 = false) -> match GenModel.New b Sch (S n) mi with
     | GDone _ xs => exists s' a fp, enter P room prim callee (mkfunc None (new_name T) [] [] (Some (XText (text "*" ++ T))) [Return [Lit T (if b then [] else news (m_fields m))]] true) [] s = Fine ([GoPtr T (Some a)], s') /\
         struct_at ms (heap s') a m xs fp /\ only_at (heap s) (heap s') [] (a :: fp) /\ quiet s s'
     | GDeep => enter P room prim callee (mkfunc None (new_name T) [] [] (Some (XText (text "*" ++ T))) [Return [Lit T (if b then [] else news (m_fields m))]] true) [] s = Deep
     | GBroken => True | _ => False end).
  { intros [|] V; [|rewrite Ne; exact (B1 (V eq_refl))]. cbn [GenModel.New]. rewrite Es. exact B2. }
  exact (G v2 (fun H => H)).
Qed.
End New.
