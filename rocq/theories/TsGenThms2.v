(** The TypeScript generator: lemmas in the form of the property theorems. *)
From Coq Require Import String.
From Verif Require Import Base NameModel GenTables EmitModel EmitSpec EmitThms TsGenModel TsGenSpec TsGenThms.
Local Open Scope string_scope.
Local Open Scope list_scope.

Lemma type_ok_dec t : type_ok t \/ ~ type_ok t.
Proof.
  induction t as [k|n|n|a IHa b IHb]; cbn [type_ok]; try tauto. destruct k; try (left; discriminate). right; intros H; apply H; reflexivity.
Qed.
Lemma generates_iff fs : Forall file_wf fs ->
  ((exists ts, generate fs = Ok ts) <-> forall f x, In f fs -> field_of f x -> type_ok (f_typ x)).
Proof.
  intros HW. rewrite Forall_forall in HW. split.
  - intros [ts E] f x Hf Hx. destruct (type_ok_dec (f_typ x)) as [H|H]; [exact H|exfalso].
    unfold generate, Generate in E. rewrite (fails_each _ fs f Hf) in E; [discriminate E|].
    eapply fail_file; [exact Hx|apply (HW f Hf x Hx)|exact H].
  - intros H. destruct (run_request fs) with (d := @nil string) as (ts & d' & E & _).
    + apply Forall_forall. intros f Hf x Hx. split; [apply (HW f Hf x Hx)|apply (H f x Hf Hx)].
    + exists ts. unfold generate. rewrite E. reflexivity.
Qed.
Lemma all_good fs ts : Forall file_wf fs -> generate fs = Ok ts -> Forall fgood fs.
Proof.
  intros HW E. pose proof (proj1 (generates_iff fs HW) (ex_intro _ ts E)) as H. rewrite Forall_forall in *.
  intros f Hf x Hx. split; [apply (HW f Hf x Hx)|apply (H f x Hf Hx)].
Qed.
Lemma imports_accumulate fs ts : Forall file_wf fs -> generate fs = Ok ts ->
  map declared ts = map tbody fs /\
  forall k t, nth_error ts k = Some t -> forall n, In n (imported t) <->
    exists j u, (j <= k)%nat /\ nth_error ts j = Some u /\ In n (used u).
Proof.
  intros HW E. pose proof (all_good fs ts HW E) as G. destruct (run_request fs G []) as (ts' & d' & E' & M & P).
  unfold generate in E. rewrite E' in E. injection E as <-. split; [exact M|]. intros k t Ek n. rewrite (P k t Ek n). cbn [In]. tauto.
Qed.
Lemma single_file f ts : file_wf f -> generate [f] = Ok ts -> exists t, ts = [t] /\ declared t = tbody f /\ same_set (imported t) (used t).
Proof.
  intros HW E. destruct (imports_accumulate [f] ts (Forall_cons _ HW (Forall_nil _)) E) as [M P].
  destruct ts as [|t [|t' ts]]; cbn [map] in M; try discriminate M. injection M as M. exists t. split; [reflexivity|]. split; [exact M|].
  intros n. rewrite (P 0%nat t eq_refl n). split.
  - intros (j & u & Hj & Eu & Hn). destruct j; [|lia]. injection Eu as <-. exact Hn.
  - intros Hn. exists 0%nat, t. split; [lia|]. split; [reflexivity|exact Hn].
Qed.
(** classes *)
Lemma class_in f n ps e d a : In (TsClass n ps e d a) (tbody f) <-> exists m, has_message f m /\ TsClass n ps e d a = tclass m.
Proof.
  unfold tbody, body. rewrite in_app_iff, messages_in, in_flat_map. split.
  - intros [(x & _ & [E|[]])|[(t & x & _ & _ & [E|[]])|(t & k & Ht & Hk & [E|[]])]]; try discriminate E.
    exists k. split; [exists t; tauto|symmetry; exact E].
  - intros (m & (t & Ht & Hm) & E). right. right. exists t, m. split; [exact Ht|]. split; [exact Hm|left; symmetry; exact E].
Qed.
Lemma efield_map_value l : map efield (map evalue l) = l.
Proof. induction l as [|x l IH]; [reflexivity|]. cbn. rewrite IH. reflexivity. Qed.
Lemma efield_map_slice l : map efield (map eslice l) = l.
Proof. induction l as [|x l IH]; [reflexivity|]. cbn. rewrite IH. f_equal. unfold eslice. destruct (f_typ x); reflexivity. Qed.
Lemma efield_map_message l : map efield (map emessage l) = l.
Proof. induction l as [|x l IH]; [reflexivity|]. cbn. rewrite IH. f_equal. unfold emessage. destruct (f_typ x); reflexivity. Qed.
Lemma dfield_map_slice l : map dfield (map dslice l) = l.
Proof. induction l as [|x l IH]; [reflexivity|]. cbn. rewrite IH. reflexivity. Qed.
Lemma dfield_map_message l : map dfield (map dmessage l) = l.
Proof. induction l as [|x l IH]; [reflexivity|]. cbn. rewrite IH. f_equal. unfold dmessage. destruct (f_typ x); reflexivity. Qed.
Lemma dfield_map_other l : map dfield (map dother l) = l.
Proof. induction l as [|x l IH]; [reflexivity|]. cbn. rewrite IH. reflexivity. Qed.
Lemma map_fst_pair {A B} (g : A -> B) l : map fst (map (fun f => (f, g f)) l) = l.
Proof. induction l as [|x l IH]; [reflexivity|]. cbn. rewrite IH. reflexivity. Qed.

Lemma nth_declared fs ts k f t : map declared ts = map tbody fs -> nth_error fs k = Some f -> nth_error ts k = Some t -> declared t = tbody f.
Proof.
  intros M Ef Et. apply (map_nth_error tbody) in Ef. apply (map_nth_error declared) in Et. rewrite M, Ef in Et. congruence.
Qed.
Lemma orders fs ts k f t : Forall file_wf fs -> generate fs = Ok ts -> nth_error fs k = Some f -> nth_error ts k = Some t ->
  (forall m, has_message f m -> exists ps e d a, In (TsClass (camel (m_full m)) ps e d a) (declared t) /\ map fst ps = m_fields m) /\
  forall n ps e d a, In (TsClass n ps e d a) (declared t) -> exists m, has_message f m /\ n = camel (m_full m) /\
    map fst ps = m_fields m /\
    map efield e = filter is_single_value (m_fields m) ++ filter is_repeated (m_fields m) ++ filter is_single_message (m_fields m) /\
    map dfield d = filter is_repeated (m_fields m) ++ filter is_single_message (m_fields m) ++ filter is_single_value (m_fields m) /\
    a = filter is_single_value (m_fields m) ++ filter is_repeated (m_fields m) ++ filter is_single_message (m_fields m).
Proof.
  intros HW E Ef Et. destruct (imports_accumulate fs ts HW E) as [M _]. rewrite (nth_declared fs ts k f t M Ef Et). split.
  - intros m Hm. unfold tclass. exists (map (fun f => (f, ty_text f)) (m_fields m)), (estmts (m_fields m)), (dstmts (m_fields m)), (dargs (m_fields m)).
    split; [apply class_in; exists m; split; [exact Hm|reflexivity]|apply map_fst_pair].
  - intros n ps e d a H. apply class_in in H. destruct H as (m & Hm & H). unfold tclass in H. injection H as -> -> -> -> ->.
    exists m. split; [exact Hm|]. split; [reflexivity|]. split; [apply map_fst_pair|].
    unfold estmts, dstmts, dargs. rewrite !map_app, efield_map_value, efield_map_slice, efield_map_message, dfield_map_slice, dfield_map_message, dfield_map_other.
    split; [reflexivity|]. split; reflexivity.
Qed.
(** orders of the three groups *)
Lemma groups x : (is_single_value x = true /\ is_repeated x = false /\ is_single_message x = false /\ rank x = 0%nat) \/
  (is_single_value x = false /\ is_repeated x = true /\ is_single_message x = false /\ rank x = 1%nat) \/
  (is_single_value x = false /\ is_repeated x = false /\ is_single_message x = true /\ rank x = 2%nat).
Proof.
  unfold rank, is_single_value, is_single_message. destruct (is_repeated x); cbn [negb andb]; [tauto|]. destruct (f_typ x); tauto.
Qed.
Lemma head_clash {A} (p : A -> bool) a b : (forall x, In x a -> p x = true) -> (forall x, In x b -> p x = false) ->
  a ++ b = b ++ a -> a = [] \/ b = [].
Proof.
  intros Ha Hb E. destruct a as [|x a]; [tauto|]. destruct b as [|y b]; [tauto|]. injection E as -> _.
  specialize (Ha y (or_introl eq_refl)). specialize (Hb y (or_introl eq_refl)). congruence.
Qed.
Lemma filter_none {A} (p : A -> bool) l : filter p l = [] <-> forall x, In x l -> p x = false.
Proof.
  induction l as [|y l IH]; cbn [filter]; [split; [intros _ x []|reflexivity]|]. destruct (p y) eqn:E.
  - split; [discriminate|]. intros H. rewrite (H y) in E by (left; reflexivity). discriminate E.
  - rewrite IH. split; [intros H x [<-|Hx]; [exact E|apply H, Hx]|intros H x Hx; apply H; right; exact Hx].
Qed.
Lemma write_read_iff fs : filter is_single_value fs ++ filter is_repeated fs ++ filter is_single_message fs =
    filter is_repeated fs ++ filter is_single_message fs ++ filter is_single_value fs <->
  (forall x, In x fs -> rank x = 0%nat) \/ (forall x, In x fs -> rank x <> 0%nat).
Proof.
  rewrite (app_assoc (filter is_repeated fs)). split.
  - intros E. apply (head_clash is_single_value) in E.
    + destruct E as [E|E].
      * right. intros x Hx. rewrite filter_none in E. specialize (E x Hx). destruct (groups x) as [G|[G|G]]; [destruct G as [G _]; congruence| |]; lia.
      * left. intros x Hx. apply app_eq_nil in E. destruct E as [E1 E2]. rewrite filter_none in E1, E2. specialize (E1 x Hx). specialize (E2 x Hx).
        destruct (groups x) as [G|[G|G]]; [apply G| |]; destruct G as (G1 & G2 & G3 & G4); congruence.
    + intros x Hx. apply filter_In in Hx. apply Hx.
    + intros x Hx. apply in_app_or in Hx. destruct Hx as [Hx|Hx]; apply filter_In in Hx; destruct Hx as [_ Hx];
        destruct (groups x) as [G|[G|G]]; destruct G as (G1 & G2 & G3 & G4); congruence.
  - intros [H|H].
    + assert (filter is_repeated fs = []) as ->.
      { apply filter_none. intros x Hx. specialize (H x Hx). destruct (groups x) as [G|[G|G]]; [apply G| |]; lia. }
      assert (filter is_single_message fs = []) as ->.
      { apply filter_none. intros x Hx. specialize (H x Hx). destruct (groups x) as [G|[G|G]]; [apply G| |]; lia. }
      rewrite app_nil_r. reflexivity.
    + assert (filter is_single_value fs = []) as ->.
      { apply filter_none. intros x Hx. specialize (H x Hx). destruct (groups x) as [G|[G|G]]; [lia| |]; apply G. }
      rewrite app_nil_r. reflexivity.
Qed.
Lemma in_groups_tail x fs : in_groups (x :: fs) -> in_groups fs /\ forall y, In y fs -> (rank x <= rank y)%nat.
Proof.
  intros H. split.
  - intros i j a b L Ea Eb. apply (H (S i) (S j)); [lia|exact Ea|exact Eb].
  - intros y Hy. apply In_nth_error in Hy. destruct Hy as [j Ej]. apply (H 0%nat (S j)); [lia|reflexivity|exact Ej].
Qed.
Lemma in_groups_app a b : (forall x y, In x a -> In y b -> (rank x <= rank y)%nat) -> in_groups a -> in_groups b -> in_groups (a ++ b).
Proof.
  intros HAB HA HB i j x y L Ex Ey. destruct (Nat.lt_ge_cases j (length a)) as [Lj|Lj].
  - rewrite nth_error_app1 in Ex, Ey by lia. apply (HA i j); assumption.
  - rewrite nth_error_app2 in Ey by lia. destruct (Nat.lt_ge_cases i (length a)) as [Li|Li].
    + rewrite nth_error_app1 in Ex by lia. apply HAB; [eapply nth_error_In, Ex|eapply nth_error_In, Ey].
    + rewrite nth_error_app2 in Ex by lia. apply (HB (i - length a)%nat (j - length a)%nat); [lia|exact Ex|exact Ey].
Qed.
Lemma in_groups_const r l : (forall x, In x l -> rank x = r) -> in_groups l.
Proof. intros H i j x y _ Ex Ey. apply nth_error_In in Ex, Ey. rewrite (H x Ex), (H y Ey). lia. Qed.
Lemma constructor_iff fs : fs = filter is_single_value fs ++ filter is_repeated fs ++ filter is_single_message fs <-> in_groups fs.
Proof.
  assert (R : forall x, (In x (filter is_single_value fs) -> rank x = 0%nat) /\ (In x (filter is_repeated fs) -> rank x = 1%nat) /\
            (In x (filter is_single_message fs) -> rank x = 2%nat)).
  { intros x. split; [|split]; intros Hx; apply filter_In in Hx; destruct Hx as [_ Hx];
      destruct (groups x) as [G|[G|G]]; destruct G as (G1 & G2 & G3 & G4); congruence. }
  split.
  - intros ->. apply in_groups_app.
    + intros x y Hx _. apply R in Hx. lia.
    + apply (in_groups_const 0). intros x Hx. apply R, Hx.
    + apply in_groups_app.
      * intros x y Hx Hy. destruct (R x) as (_ & Rx & _). destruct (R y) as (_ & _ & Ry). rewrite (Rx Hx), (Ry Hy). lia.
      * apply (in_groups_const 1). intros x Hx. apply R, Hx.
      * apply (in_groups_const 2). intros x Hx. apply R, Hx.
  - clear R. induction fs as [|x fs IH]; [reflexivity|]. intros H. apply in_groups_tail in H. destruct H as [H HX].
    specialize (IH H). cbn [filter]. destruct (groups x) as [G|[G|G]]; destruct G as (-> & -> & -> & G).
    + cbn [app]. f_equal. exact IH.
    + assert (filter is_single_value fs = []) as E.
      { apply filter_none. intros y Hy. specialize (HX y Hy). destruct (groups y) as [K|[K|K]]; [lia| |]; apply K. }
      rewrite E in *. cbn [app] in *. f_equal. exact IH.
    + assert (filter is_single_value fs = []) as E.
      { apply filter_none. intros y Hy. specialize (HX y Hy). destruct (groups y) as [K|[K|K]]; [lia| |]; apply K. }
      assert (filter is_repeated fs = []) as E2.
      { apply filter_none. intros y Hy. specialize (HX y Hy). destruct (groups y) as [K|[K|K]]; [lia|lia|]; apply K. }
      rewrite E, E2 in *. cbn [app] in *. f_equal. exact IH.
Qed.
(** exports *)
Lemma names_exported f t : file_wf f -> generate [f] = Ok [t] ->
  ((forall n, In n (imported t) -> In n ts_exports) <-> forall x, field_of f x -> only_message x).
Proof.
  intros HW E. destruct (single_file f [t] HW E) as (t' & Et & D & S). injection Et as <-.
  pose proof (all_good [f] [t] (Forall_cons _ HW (Forall_nil _)) E) as G. inversion G as [|? ? Gf _]; subst.
  assert (HU : forall n, In n (used t) <-> exists m, has_message f m /\ In n (decl_names (tclass m))).
  { intros n. unfold used. rewrite D, in_flat_map. split.
    - intros (c & Hc & Hn). destruct c as [|q ps e d a]; [destruct Hn|]. apply class_in in Hc. destruct Hc as (m & Hm & Ec). rewrite Ec in Hn. eauto.
    - intros (m & Hm & Hn). exists (tclass m). split; [|exact Hn]. unfold tclass. apply class_in. exists m. split; [exact Hm|reflexivity]. }
  split.
  - intros H x (m & Hm & Hx). assert (HN : forall n, In n (decl_names (tclass m)) -> In n ts_exports).
    { intros n Hn. apply H, S, HU. exists m. tauto. }
    specialize (Gf x (ex_intro _ m (conj Hm Hx))). cbn [decl_names tclass] in HN. unfold tclass in HN. cbn [decl_names] in HN.
    unfold estmts, dstmts in HN.
    destruct (groups x) as [K|[K|K]]; destruct K as (K1 & K2 & K3 & _).
    + exfalso. assert (In (or_empty (dec_of (f_typ x))) ts_exports) as B.
      { apply HN. rewrite in_app_iff. right. rewrite !flat_map_app, !in_app_iff. right. right. apply in_flat_map_map. exists x.
        split; [apply filter_In; tauto|left; reflexivity]. }
      pose proof (dec_some _ Gf) as Q. unfold is_single_value in K1. destruct Gf as [W O].
      destruct (f_typ x) as [k|q|q|a b]; try (rewrite andb_false_r in K1; discriminate K1).
      * destruct k; cbn in B; cbn in W, O; try tauto; repeat (destruct B as [B|B]; [discriminate B|]); exact B.
      * cbn in B. repeat (destruct B as [B|B]; [discriminate B|]); exact B.
    + exfalso. assert (In "decodeArray" ts_exports) as B.
      { apply HN. rewrite in_app_iff. right. rewrite !flat_map_app, !in_app_iff. left. apply in_flat_map_map. exists x.
        split; [apply filter_In; tauto|left; reflexivity]. }
      cbn in B. repeat (destruct B as [B|B]; [discriminate B|]); exact B.
    + unfold is_single_message in K3. unfold is_repeated in K2. destruct (f_typ x) as [k|q|q|a b] eqn:ET; try (rewrite andb_false_r in K3; discriminate K3).
      * split; [|exists q; exact ET]. unfold is_map in K2. rewrite ET in K2. cbn in K2. rewrite andb_true_r in K2. exact K2.
      * exfalso. assert (In "decodeMap" ts_exports) as B.
        { apply HN. rewrite in_app_iff. right. rewrite !flat_map_app, !in_app_iff. right. left. apply in_flat_map_map. exists x.
          unfold dmessage. rewrite ET. split; [apply filter_In; split; [exact Hx|unfold is_single_message, is_repeated; rewrite K2, ET; reflexivity]|left; reflexivity]. }
        cbn in B. repeat (destruct B as [B|B]; [discriminate B|]); exact B.
  - intros H n Hn. exfalso. apply S, HU in Hn. destruct Hn as (m & Hm & Hn). unfold tclass in Hn. cbn [decl_names] in Hn.
    unfold estmts, dstmts in Hn. rewrite !flat_map_app, !in_app_iff, !in_flat_map_map in Hn.
    assert (HX : forall p x, In x (filter p (m_fields m)) -> f_many x = false /\ (exists q, f_typ x = TMsg q) /\ p x = true).
    { intros p x Hx. apply filter_In in Hx. destruct Hx as [Hx P]. destruct (H x (ex_intro _ m (conj Hm Hx))) as [Q1 Q2]. tauto. }
    repeat match goal with Hn : _ \/ _ |- _ => destruct Hn as [Hn|Hn] end; destruct Hn as (x & Hx & Hn);
      destruct (HX _ _ Hx) as (X1 & [q X2] & X3); unfold is_single_value, is_repeated, emessage, dmessage in *; rewrite ?X1, ?X2 in *;
      cbn in X3; try discriminate X3; cbn in Hn; destruct Hn.
Qed.
(** the statement for each field *)
Lemma item_e t : good t -> (forall a b, t <> TMap a b) -> eitem t = item_with "encode" t.
Proof. intros [W O] N. destruct t as [k|n|n|a b]; [|reflexivity|reflexivity|destruct (N a b eq_refl)]. destruct k; cbn in *; try reflexivity; tauto. Qed.
Lemma item_d t : good t -> (forall a b, t <> TMap a b) -> ditem t = item_with "decode" t.
Proof. intros [W O] N. destruct t as [k|n|n|a b]; [|reflexivity|reflexivity|destruct (N a b eq_refl)]. destruct k; cbn in *; try reflexivity; tauto. Qed.
Lemma kind_named t : good t -> (forall a b, t <> TMap a b) -> ts_getKind (kind_of t) = Some ("Kind." ++ kind_ending t)%string.
Proof. intros [W O] N. destruct t as [k|n|n|a b]; [|reflexivity|reflexivity|destruct (N a b eq_refl)]. destruct k; cbn in *; try reflexivity; tauto. Qed.
Lemma find_named t many : good t -> (forall a b, t <> TMap a b) -> ts_findValue many t = Ok (js_type t ++ (if many then text "[]" else [])).
Proof.
  intros [W O] N. destruct t as [k|n|n|a b]; [| | |destruct (N a b eq_refl)]; cbn [ts_findValue].
  - destruct k; cbn in W, O; try tauto; destruct many; reflexivity.
  - rewrite camel_ok. cbn [bind js_type]. destruct many; [reflexivity|rewrite app_nil_r; reflexivity].
  - rewrite camel_ok. cbn [bind js_type]. destruct many; [reflexivity|rewrite app_nil_r; reflexivity].
Qed.
Lemma map_parts k v : good (TMap k v) -> (good k /\ forall a b, k <> TMap a b) /\ (good v /\ forall a b, v <> TMap a b).
Proof. intros [W O]. cbn in *. unfold good. tauto. Qed.
Lemma write_spec x : good (f_typ x) ->
  (is_single_value x = true -> evalue x = write_of x) /\ (is_repeated x = true -> eslice x = write_of x) /\ (is_single_message x = true -> emessage x = write_of x).
Proof.
  intros G. unfold is_single_value, is_single_message, is_repeated, is_map, evalue, eslice, emessage, write_of.
  destruct (f_typ x) as [k|n|n|k v] eqn:ET; cbn [negb]; rewrite ?andb_true_r, ?andb_false_r; cbn [negb andb].
  - destruct G as [W O]. cbn in W, O. destruct (f_many x); (split; [|split]); try discriminate; intros _; destruct k; try reflexivity; tauto.
  - destruct (f_many x); (split; [|split]); try discriminate; intros _; reflexivity.
  - destruct (f_many x); (split; [|split]); try discriminate; intros _; reflexivity.
  - destruct (map_parts k v G) as [[G1 N1] [G2 N2]]. split; [|split]; try discriminate; intros _.
    rewrite (kind_named k G1 N1), (kind_named v G2 N2), (item_e k G1 N1), (item_e v G2 N2). reflexivity.
Qed.
Lemma read_spec x : good (f_typ x) ->
  (is_single_value x = true -> dother x = read_of x) /\ (is_repeated x = true -> dslice x = read_of x) /\ (is_single_message x = true -> dmessage x = read_of x).
Proof.
  intros G. unfold is_single_value, is_single_message, is_repeated, is_map, dother, dslice, dmessage, read_of.
  destruct (f_typ x) as [k|n|n|k v] eqn:ET; cbn [negb]; rewrite ?andb_true_r, ?andb_false_r; cbn [negb andb].
  - destruct G as [W O]. cbn in W, O. destruct (f_many x); (split; [|split]); try discriminate; intros _; destruct k; try reflexivity; tauto.
  - destruct (f_many x); (split; [|split]); try discriminate; intros _; reflexivity.
  - destruct (f_many x); (split; [|split]); try discriminate; intros _; reflexivity.
  - destruct (map_parts k v G) as [[G1 N1] [G2 N2]]. split; [|split]; try discriminate; intros _.
    rewrite (item_d k G1 N1), (item_d v G2 N2). reflexivity.
Qed.
Lemma type_spec x : good (f_typ x) -> ty_text x = field_type x.
Proof.
  intros G. unfold ty_text, field_type. destruct (f_typ x) as [k|n|n|k v] eqn:ET; try (rewrite find_named; [reflexivity|exact G|discriminate]).
  destruct (map_parts k v G) as [[G1 N1] [G2 N2]]. cbn [ts_findValue]. rewrite (find_named k false G1 N1), (find_named v false G2 N2).
  cbn [bind]. rewrite !app_nil_r. reflexivity.
Qed.
Lemma statements fs ts k f t n ps e d a : Forall file_wf fs -> generate fs = Ok ts -> nth_error fs k = Some f -> nth_error ts k = Some t ->
  In (TsClass n ps e d a) (declared t) ->
  e = map write_of (map efield e) /\ d = map read_of (map dfield d) /\ ps = map (fun x => (x, field_type x)) (map fst ps).
Proof.
  intros HW E Ef Et H. destruct (imports_accumulate fs ts HW E) as [M _]. rewrite (nth_declared fs ts k f t M Ef Et) in H.
  apply class_in in H. destruct H as (m & Hm & H). unfold tclass in H. injection H as -> -> -> -> ->.
  assert (G : forall x, In x (m_fields m) -> good (f_typ x)).
  { intros x Hx. pose proof (all_good fs ts HW E) as G. rewrite Forall_forall in G. apply (G f (nth_error_In _ _ Ef)). exists m. tauto. }
  assert (GF : forall p x, In x (filter p (m_fields m)) -> good (f_typ x) /\ p x = true).
  { intros p x Hx. apply filter_In in Hx. split; [apply G|]; apply Hx. }
  split; [|split].
  - unfold estmts. rewrite !map_app, efield_map_value, efield_map_slice, efield_map_message.
    f_equal; [|f_equal]; apply map_ext_in; intros x Hx; apply GF in Hx; apply write_spec; apply Hx.
  - unfold dstmts. rewrite !map_app, dfield_map_slice, dfield_map_message, dfield_map_other.
    f_equal; [|f_equal]; apply map_ext_in; intros x Hx; apply GF in Hx; apply read_spec; apply Hx.
  - rewrite map_fst_pair. apply map_ext_in. intros x Hx. rewrite type_spec; [reflexivity|apply G, Hx].
Qed.
