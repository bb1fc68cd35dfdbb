(** Proofs about the TypeScript generator. *)
From Coq Require Import String.
From Verif Require Import Base NameModel GenTables EmitModel EmitSpec EmitThms TsGenModel TsGenSpec.
Local Open Scope string_scope.
Local Open Scope list_scope.

(** ---- running template actions ---- *)
Definition runs {A} (x : gen A) (a : A) (ns : list string) : Prop :=
  forall d, exists d', x d = Ok (a, d') /\ forall s, In s d' <-> In s ns \/ In s d.
Definition fails {A} (x : gen A) : Prop := forall d, x d = Panic.
Lemma runs_ret {A} (a : A) : runs (ret a) a [].
Proof. intros d. exists d. split; [reflexivity|]. intros s. cbn. tauto. Qed.
Lemma runs_track s : runs (trackDependency s) s [s].
Proof. intros d. exists (s :: d). split; [reflexivity|]. intros t. cbn. tauto. Qed.
Lemma runs_bind {A B} (x : gen A) (f : A -> gen B) a b n1 n2 : runs x a n1 -> runs (f a) b n2 -> runs (andthen x f) b (n1 ++ n2).
Proof.
  intros H1 H2 d. destruct (H1 d) as (d1 & E1 & I1). destruct (H2 d1) as (d2 & E2 & I2).
  exists d2. unfold andthen. rewrite E1. split; [exact E2|]. intros s. rewrite I2, I1, in_app_iff. tauto.
Qed.
Lemma runs_eq {A} (x : gen A) a ns ns' : runs x a ns -> same_set ns ns' -> runs x a ns'.
Proof.
  intros H S d. destruct (H d) as (d' & E & I). exists d'. split; [exact E|]. intros s. rewrite I, (S s). tauto.
Qed.
Lemma runs_each {A B} (f : A -> gen B) g h l : (forall x, In x l -> runs (f x) (g x) (h x)) ->
  runs (each f l) (map g l) (flat_map h l).
Proof.
  induction l as [|x l IH]; intros H; cbn [each map flat_map].
  - apply runs_ret.
  - eapply runs_bind; [apply H; left; reflexivity|].
    eapply runs_eq; [eapply runs_bind; [apply IH; intros y Hy; apply H; right; exact Hy|apply runs_ret]|].
    intros s. rewrite app_nil_r. tauto.
Qed.
Lemma fails_bind {A B} (x : gen A) (f : A -> gen B) : fails x -> fails (andthen x f).
Proof. intros H d. unfold andthen. rewrite H. reflexivity. Qed.
Lemma fails_after {A B} (x : gen A) (f : A -> gen B) : (forall a, fails (f a)) -> fails (andthen x f).
Proof. intros H d. unfold andthen. destruct (x d) as [[a d']|]; [apply H|reflexivity]. Qed.
Lemma fails_each {A B} (f : A -> gen B) l x : In x l -> fails (f x) -> fails (each f l).
Proof.
  induction l as [|y l IH]; intros Hi Hf; [destruct Hi|]. cbn [each]. destruct Hi as [->|Hi].
  - apply fails_bind, Hf.
  - apply fails_after. intros a. apply fails_bind, IH; assumption.
Qed.

(** ---- what the actions produce ---- *)
Definition is_enum (t : ftyp) : bool := match kind_of t with KEnum => true | _ => false end.
Definition enc_of (t : ftyp) : option string := ts_encodeLUT (kind_of t).
Definition dec_of (t : ftyp) : option string := ts_decodeLUT (kind_of t).
Definition or_empty (o : option string) : string := match o with Some n => n | None => "" end.
Definition evalue (f : fieldd) : estmt := EValue (or_empty (enc_of (f_typ f))) f (is_enum (f_typ f)).
Definition eslice (f : fieldd) : estmt :=
  match f_typ f with
  | TMsg _ => ESliceMsg "encodeArray" "Kind.Any" f
  | t => ESlice "encodeArray" f (ts_kindLUT (kind_of t)) (enc_of t)
  end.
Definition eitem (t : ftyp) : item :=
  match t with TMsg _ | TMap _ _ => IMessage | TEnum _ => IEnum "encodeUint32" | TScalar _ => IValue (or_empty (enc_of t)) end.
Definition emessage (f : fieldd) : estmt :=
  match f_typ f with
  | TMap k v => EMap "encodeMap" f (or_empty (ts_getKind (kind_of k))) (or_empty (ts_getKind (kind_of v))) (eitem k) (eitem v)
  | _ => EMsg f
  end.
Definition ditem (t : ftyp) : item :=
  match t with TMsg _ | TMap _ _ => IMessage | TEnum _ => IEnum "decodeUint32" | TScalar _ => IValue (or_empty (dec_of t)) end.
Definition dslice (f : fieldd) : dstmt := DSlice "decodeArray" f (ditem (f_typ f)).
Definition dmessage (f : fieldd) : dstmt :=
  match f_typ f with TMap k v => DMap "decodeMap" f (ditem k) (ditem v) | _ => DMsg f end.
Definition dother (f : fieldd) : dstmt := DValue (or_empty (dec_of (f_typ f))) f (is_enum (f_typ f)).
Definition estmts (fs : list fieldd) : list estmt :=
  map evalue (filter is_single_value fs) ++ map eslice (filter is_repeated fs) ++ map emessage (filter is_single_message fs).
Definition dstmts (fs : list fieldd) : list dstmt :=
  map dslice (filter is_repeated fs) ++ map dmessage (filter is_single_message fs) ++ map dother (filter is_single_value fs).
Definition dargs (fs : list fieldd) : list fieldd :=
  filter is_single_value fs ++ filter is_repeated fs ++ filter is_single_message fs.
Definition ty_text (f : fieldd) : bytes := match ts_findValue (f_many f) (f_typ f) with Ok v => v | Panic => [] end.
Definition tclass (m : msgd) : tsdecl :=
  TsClass (camel (m_full m)) (map (fun f => (f, ty_text f)) (m_fields m)) (estmts (m_fields m)) (dstmts (m_fields m)) (dargs (m_fields m)).
Definition tbody (f : filed) : list tsdecl := body (fun e => [ts_enum e]) (fun m => [tclass m]) f.

Definition good (t : ftyp) : Prop := type_wf t /\ type_ok t.

Lemma find_ok t : forall many, good t -> exists v, ts_findValue many t = Ok v.
Proof.
  induction t as [k|n|n|k IHk v IHv]; intros many [W O]; cbn [ts_findValue].
  - destruct k; cbn in *; try (eexists; reflexivity); tauto.
  - rewrite camel_ok. cbn [bind]. eexists; reflexivity.
  - rewrite camel_ok. cbn [bind]. eexists; reflexivity.
  - cbn [type_wf type_ok] in *. destruct (IHk false) as [a ->]; [split; tauto|]. destruct (IHv false) as [b ->]; [split; tauto|].
    cbn [bind]. eexists; reflexivity.
Qed.
Lemma find_panic t : forall many, type_wf t -> ~ type_ok t -> ts_findValue many t = Panic.
Proof.
  induction t as [k|n|n|k IHk v IHv]; intros many W O; cbn [ts_findValue type_ok type_wf] in *; try tauto.
  - destruct k; cbn; try reflexivity; exfalso; apply O; discriminate.
  - destruct (ts_findValue false k) as [a|] eqn:E; cbn [bind]; [|reflexivity].
    rewrite IHv; [reflexivity|tauto|]. intros Ov. apply O. split; [|exact Ov].
    clear - E IHk W. assert (type_ok k \/ ~ type_ok k) as [H|H].
    { clear. induction k as [k|n|n|a IHa b IHb]; cbn [type_ok]; try tauto. destruct k; try (left; discriminate). right; intros H; apply H; reflexivity. }
    { exact H. } { rewrite IHk in E by tauto. discriminate E. }
Qed.
Lemma run_find f : good (f_typ f) -> runs (FindValue f) (ty_text f) [].
Proof.
  intros H d. unfold FindValue, ty_text. destruct (find_ok _ (f_many f) H) as [v ->]. exists d. split; [reflexivity|]. intros s; cbn; tauto.
Qed.
Lemma run_find_of t : good t -> exists v, runs (FindValueOf t) v [].
Proof.
  intros H. destruct (find_ok _ false H) as [v E]. exists v. intros d. unfold FindValueOf. rewrite E. exists d. split; [reflexivity|]. intros s; cbn; tauto.
Qed.
Lemma run_enc k : runs (getLUTEncoder k) (ts_encodeLUT k) (option_names (ts_encodeLUT k)).
Proof.
  unfold getLUTEncoder. destruct (ts_encodeLUT k) as [e|]; [|apply runs_ret].
  eapply runs_eq; [eapply runs_bind; [apply runs_track|apply runs_ret]|]. intros s; cbn; tauto.
Qed.
Lemma run_dec k : runs (getLUTDecoder k) (ts_decodeLUT k) (option_names (ts_decodeLUT k)).
Proof.
  unfold getLUTDecoder. destruct (ts_decodeLUT k) as [e|]; [|apply runs_ret].
  eapply runs_eq; [eapply runs_bind; [apply runs_track|apply runs_ret]|]. intros s; cbn; tauto.
Qed.
Lemma run_kind k : k <> KGroup -> runs (getKind k) (or_empty (ts_getKind k)) ["Kind"].
Proof.
  intros H. unfold getKind. destruct (ts_getKind k) as [n|] eqn:E.
  - eapply runs_eq; [eapply runs_bind; [apply runs_track|apply runs_ret]|]. intros s; cbn; tauto.
  - destruct k; try discriminate E. congruence.
Qed.
Lemma good_kind t : good t -> kind_of t <> KGroup.
Proof. intros [W O]. destruct t; cbn in *; congruence || discriminate. Qed.
Lemma enc_some t : good t -> match t with TMsg _ | TMap _ _ => enc_of t = None | _ => exists n, enc_of t = Some n end.
Proof. intros [W O]. destruct t as [k| | |]; cbn; try reflexivity; [|eexists; reflexivity]. destruct k; cbn in *; try (eexists; reflexivity); tauto. Qed.
Lemma dec_some t : good t -> match t with TMsg _ | TMap _ _ => dec_of t = None | _ => exists n, dec_of t = Some n end.
Proof. intros [W O]. destruct t as [k| | |]; cbn; try reflexivity; [|eexists; reflexivity]. destruct k; cbn in *; try (eexists; reflexivity); tauto. Qed.

Ltac sets := intros s; cbn [app In flat_map option_names item_names from_kind option_kind enames dnames or_empty]; rewrite ?in_app_iff; cbn [In]; tauto.

Lemma run_getEnc fs : Forall (fun f => good (f_typ f)) fs ->
  runs (getEncodingFields fs) (mkenc (filter is_single_message fs) (filter is_repeated fs) (map evalue (filter is_single_value fs)))
    (flat_map enames (map evalue (filter is_single_value fs))).
Proof.
  induction 1 as [|f fs Hf _ IH]; cbn [getEncodingFields filter map flat_map]; [apply runs_ret|].
  assert (exists here n, runs (if f_many f && negb (is_map f) then ret (mkenc [] [f] [])
                  else do encoder <- getLUTEncoder (kind_of (f_typ f));
                       match encoder with
                       | None => match kind_of (f_typ f) with KMessage => ret (mkenc [f] [] []) | _ => fail end
                       | Some e => ret (mkenc [] [] [EValue e f (match kind_of (f_typ f) with KEnum => true | _ => false end)])
                       end) here n /\
     here = mkenc (if is_single_message f then [f] else []) (if is_repeated f then [f] else []) (if is_single_value f then [evalue f] else []) /\
     n = (if is_single_value f then enames (evalue f) else [])) as (here & n & R & -> & ->).
  { unfold is_single_message, is_single_value. fold (is_repeated f). destruct (is_repeated f) eqn:ER; cbn [negb andb].
    - eexists _, _. split; [apply runs_ret|]. split; reflexivity.
    - pose proof (enc_some _ Hf) as Henc. pose proof (run_enc (kind_of (f_typ f))) as R1. unfold enc_of in Henc.
      destruct (f_typ f) as [k|n|n|k v] eqn:ET.
      + destruct Henc as [e Ee]. rewrite Ee in R1. eexists _, _.
        split; [eapply runs_bind; [exact R1|]; apply runs_ret|].
        unfold evalue, enc_of, is_enum. rewrite ET, Ee. split; [reflexivity|]. reflexivity.
      + destruct Henc as [e Ee]. rewrite Ee in R1. eexists _, _.
        split; [eapply runs_bind; [exact R1|]; apply runs_ret|].
        unfold evalue, enc_of, is_enum. rewrite ET, Ee. split; [reflexivity|]. reflexivity.
      + rewrite Henc in R1. eexists _, _. split; [eapply runs_bind; [exact R1|]; apply runs_ret|]. split; reflexivity.
      + rewrite Henc in R1. eexists _, _. split; [eapply runs_bind; [exact R1|]; apply runs_ret|]. split; reflexivity. }
  eapply runs_eq.
  - eapply runs_bind; [exact R|]. eapply runs_bind; [exact IH|].
    cbn [e_messages e_slices e_vals].
    match goal with |- runs _ ?a _ => replace a with (mkenc
      ((if is_single_message f then [f] else []) ++ filter is_single_message fs)
      ((if is_repeated f then [f] else []) ++ filter is_repeated fs)
      ((if is_single_value f then [evalue f] else []) ++ map evalue (filter is_single_value fs))) end.
    + apply runs_ret.
    + destruct (is_single_message f), (is_repeated f), (is_single_value f); reflexivity.
  - intros s. rewrite !in_app_iff. destruct (is_single_value f); cbn [map flat_map]; rewrite ?in_app_iff; cbn [In]; tauto.
Qed.
Lemma run_encodeSlice f : good (f_typ f) -> is_repeated f = true ->
  runs (encodeSlice f) (eslice f) (match f_typ f with TMsg _ => ["encodeArray"] | _ => enames (eslice f) end).
Proof.
  intros Hf Hr. unfold encodeSlice, eslice. pose proof (run_enc (kind_of (f_typ f))) as R1.
  pose proof (enc_some _ Hf) as He. unfold enc_of in *.
  assert (is_map f = false) as Hm by (unfold is_repeated in Hr; apply andb_prop in Hr; destruct Hr as [_ Hr]; destruct (is_map f); [discriminate Hr|reflexivity]).
  unfold is_map in Hm. destruct (f_typ f) as [k|n|n|k v] eqn:ET; [| | |discriminate Hm].
  - destruct He as [e Ee]. rewrite Ee in *.
    assert (exists kn, ts_kindLUT k = Some kn /\ from_kind kn = ["Kind"]) as (kn & Hk & Hk2).
    { destruct Hf as [W O]. cbn [type_wf type_ok] in *. destruct k; cbn; try (eexists; split; reflexivity); try tauto. }
    eapply runs_eq; [eapply runs_bind; [exact R1|]|].
    + eapply runs_bind; [apply runs_track|]. eapply runs_bind; [|apply runs_ret].
      unfold getKindLUT. eapply runs_bind; [apply runs_track|]. apply runs_ret.
    + cbn [kind_of]. rewrite Hk. intros s. cbn [enames option_kind option_names]. rewrite Hk2. cbn [app In]. tauto.
  - destruct He as [e Ee]. rewrite Ee in *. eapply runs_eq; [eapply runs_bind; [exact R1|]|].
    + cbn [kind_of]. eapply runs_bind; [apply runs_track|]. eapply runs_bind; [|apply runs_ret].
      unfold getKindLUT. eapply runs_bind; [apply runs_track|]. apply runs_ret.
    + cbn [kind_of]. intros s. cbn [enames option_kind option_names ts_kindLUT]. change (from_kind "Kind.U32") with ["Kind"]. cbn [app In]. tauto.
  - rewrite He in *. cbn [kind_of]. eapply runs_eq; [eapply runs_bind; [exact R1|]|].
    + eapply runs_bind; [apply runs_track|]. apply runs_ret.
    + sets.
Qed.
Lemma run_eitem t : good t -> (forall a b, t <> TMap a b) -> runs (encodeItem t) (eitem t) (item_names (eitem t)).
Proof.
  intros Hf Hn. unfold encodeItem. pose proof (run_enc (kind_of t)) as R1. pose proof (enc_some _ Hf) as He. unfold enc_of in He.
  destruct t as [k|n|n|k v]; [| | |exfalso; eapply Hn; reflexivity].
  - destruct He as [e Ee]. cbn [eitem]. unfold enc_of. cbn [kind_of] in *. rewrite Ee in *. cbn [or_empty].
    eapply runs_eq; [eapply runs_bind; [exact R1|]|].
    + destruct Hf as [W _]; cbn in W. destruct k; try tauto; apply runs_ret.
    + sets.
  - destruct He as [e Ee]. rewrite Ee in *. cbn [kind_of eitem]. cbn in Ee. injection Ee as <-.
    eapply runs_eq; [eapply runs_bind; [exact R1|]; eapply runs_bind; [apply runs_track|apply runs_ret]|]. sets.
  - rewrite He in *. cbn [kind_of eitem]. eapply runs_eq; [eapply runs_bind; [exact R1|]; apply runs_ret|]. sets.
Qed.
Lemma kind_names t : good t -> from_kind (or_empty (ts_getKind (kind_of t))) = ["Kind"].
Proof. intros [W O]. destruct t as [k| | |]; try reflexivity. destruct k; cbn in *; try reflexivity; tauto. Qed.
Lemma run_encodeMessage f : good (f_typ f) -> is_single_message f = true ->
  runs (encodeMessage f) (emessage f) (enames (emessage f)).
Proof.
  intros Hf Hm. unfold encodeMessage, emessage. destruct (f_typ f) as [k|n|n|k v] eqn:ET; try apply runs_ret.
  destruct Hf as [W O]. cbn [type_wf type_ok] in *.
  assert (good k) by (split; tauto). assert (good v) by (split; tauto).
  eapply runs_eq.
  - eapply runs_bind; [apply run_kind, good_kind; assumption|].
    eapply runs_bind; [apply run_kind, good_kind; assumption|].
    eapply runs_bind; [apply runs_track|].
    eapply runs_bind; [apply run_eitem; tauto|]. eapply runs_bind; [apply run_eitem; tauto|]. apply runs_ret.
  - intros s. cbn [enames]. rewrite !kind_names by assumption. cbn [app In]. rewrite ?in_app_iff. cbn [In]. tauto.
Qed.
Lemma run_getDec fs : Forall (fun f => good (f_typ f)) fs ->
  runs (getDecodingFields fs) (mkdec (filter is_single_message fs) (filter is_repeated fs) (filter is_single_value fs))
    (flat_map (fun f => option_names (dec_of (f_typ f))) (filter is_single_value fs)).
Proof.
  induction 1 as [|f fs Hf _ IH]; cbn [getDecodingFields filter map flat_map]; [apply runs_ret|].
  assert (exists here n, runs (if f_many f && negb (is_map f) then ret (mkdec [] [f] [])
                  else do encoder <- getLUTDecoder (kind_of (f_typ f));
                       match encoder with
                       | None => match kind_of (f_typ f) with KMessage => ret (mkdec [f] [] []) | _ => fail end
                       | Some e => ret (mkdec [] [] [f])
                       end) here n /\
     here = mkdec (if is_single_message f then [f] else []) (if is_repeated f then [f] else []) (if is_single_value f then [f] else []) /\
     n = (if is_single_value f then option_names (dec_of (f_typ f)) else [])) as (here & n & R & -> & ->).
  { unfold is_single_message, is_single_value. fold (is_repeated f). destruct (is_repeated f) eqn:ER; cbn [negb andb].
    - eexists _, _. split; [apply runs_ret|]. split; reflexivity.
    - pose proof (dec_some _ Hf) as Henc. pose proof (run_dec (kind_of (f_typ f))) as R1. unfold dec_of in *.
      destruct (f_typ f) as [k|n|n|k v] eqn:ET.
      + destruct Henc as [e Ee]. rewrite Ee in R1. eexists _, _.
        split; [eapply runs_bind; [exact R1|]; apply runs_ret|]. rewrite Ee. split; reflexivity.
      + destruct Henc as [e Ee]. rewrite Ee in R1. eexists _, _.
        split; [eapply runs_bind; [exact R1|]; apply runs_ret|]. rewrite Ee. split; reflexivity.
      + rewrite Henc in R1. eexists _, _. split; [eapply runs_bind; [exact R1|]; apply runs_ret|]. split; reflexivity.
      + rewrite Henc in R1. eexists _, _. split; [eapply runs_bind; [exact R1|]; apply runs_ret|]. split; reflexivity. }
  eapply runs_eq.
  - eapply runs_bind; [exact R|]. eapply runs_bind; [exact IH|].
    cbn [d_messages d_slices d_other].
    match goal with |- runs _ ?a _ => replace a with (mkdec
      ((if is_single_message f then [f] else []) ++ filter is_single_message fs)
      ((if is_repeated f then [f] else []) ++ filter is_repeated fs)
      ((if is_single_value f then [f] else []) ++ filter is_single_value fs)) end.
    + apply runs_ret.
    + destruct (is_single_message f), (is_repeated f), (is_single_value f); reflexivity.
  - intros s. rewrite !in_app_iff. destruct (is_single_value f); cbn [map flat_map]; rewrite ?in_app_iff; cbn [In]; tauto.
Qed.
Lemma run_ditem t : good t -> (forall a b, t <> TMap a b) ->
  runs (decodeItem (kind_of t) (dec_of t)) (ditem t) (match t with TEnum _ => ["decodeUint32"] | _ => [] end).
Proof.
  intros Hf Hn. pose proof (dec_some _ Hf) as He. unfold decodeItem.
  destruct t as [k|n|n|k v]; [| | |exfalso; eapply Hn; reflexivity]; cbn [kind_of ditem].
  - destruct He as [e Ee]. rewrite Ee. destruct Hf as [W _]. cbn in W.
    destruct k; try tauto; apply runs_ret.
  - eapply runs_eq; [eapply runs_bind; [apply runs_track|apply runs_ret]|]. sets.
  - apply runs_ret.
Qed.
Lemma ditem_names t : good t -> (forall a b, t <> TMap a b) -> item_names (ditem t) = option_names (dec_of t).
Proof.
  intros Hf Hn. pose proof (dec_some _ Hf) as He. destruct t as [k|n|n|k v]; [| | |exfalso; eapply Hn; reflexivity]; cbn [ditem item_names].
  - destruct He as [e ->]. reflexivity.
  - reflexivity.
  - reflexivity.
Qed.
Lemma not_map f : is_repeated f = true -> forall a b, f_typ f <> TMap a b.
Proof. unfold is_repeated, is_map. intros H a b E. rewrite E in H. cbn in H. rewrite andb_false_r in H. discriminate H. Qed.
Lemma run_decodeSlice f : good (f_typ f) -> is_repeated f = true -> runs (decodeSlice f) (dslice f) ("Kind" :: dnames (dslice f)).
Proof.
  intros Hf Hr. unfold decodeSlice, dslice. pose proof (not_map f Hr) as Hn.
  eapply runs_eq.
  - eapply runs_bind; [apply run_find, Hf|]. eapply runs_bind; [apply run_kind, good_kind, Hf|].
    eapply runs_bind; [apply run_dec|]. eapply runs_bind; [apply runs_track|].
    eapply runs_bind; [apply (run_ditem (f_typ f) Hf Hn)|apply runs_ret].
  - intros s. cbn [dnames]. rewrite ditem_names by assumption. unfold dec_of.
    destruct (f_typ f) eqn:ET; cbn [app In kind_of]; rewrite ?in_app_iff; cbn [In app option_names ts_decodeLUT]; tauto.
Qed.
Lemma run_decodeMessage f : good (f_typ f) -> is_single_message f = true -> runs (decodeMessage f) (dmessage f) (dnames (dmessage f)).
Proof.
  intros Hf Hm. unfold decodeMessage, dmessage. pose proof (run_find f Hf) as R0.
  destruct (f_typ f) as [k|n|n|k v] eqn:ET;
    try (eapply runs_eq; [eapply runs_bind; [exact R0|apply runs_ret]|]; sets).
  destruct Hf as [W O]. cbn [type_wf type_ok] in *.
  assert (good k) as Gk by (split; tauto). assert (good v) as Gv by (split; tauto).
  destruct (run_find_of k Gk) as [tk Rk]. destruct (run_find_of v Gv) as [tv Rv].
  eapply runs_eq.
  - eapply runs_bind; [exact R0|]. eapply runs_bind; [exact Rk|]. eapply runs_bind; [exact Rv|].
    eapply runs_bind; [apply run_dec|]. eapply runs_bind; [apply run_dec|]. eapply runs_bind; [apply runs_track|].
    eapply runs_bind; [apply (run_ditem k); tauto|]. eapply runs_bind; [apply (run_ditem v); tauto|]. apply runs_ret.
  - intros s. cbn [dnames]. rewrite !ditem_names by tauto. unfold dec_of.
    destruct k, v; cbn [app In kind_of]; rewrite ?in_app_iff; cbn [In app option_names ts_decodeLUT]; rewrite ?in_app_iff; cbn [In app option_names ts_decodeLUT]; tauto.
Qed.
Lemma run_decodeOther f : good (f_typ f) -> is_single_value f = true -> runs (decodeOther f) (dother f) (dnames (dother f)).
Proof.
  intros Hf Hm. unfold decodeOther, dother. pose proof (run_find f Hf) as R0. pose proof (run_dec (kind_of (f_typ f))) as R1.
  pose proof (dec_some _ Hf) as He. unfold dec_of in *. unfold is_single_value in Hm.
  destruct (f_typ f) as [k|n|n|k v] eqn:ET; try (rewrite andb_false_r in Hm; discriminate Hm).
  - destruct He as [e Ee]. rewrite Ee in *. cbn [kind_of] in *. unfold is_enum; cbn [kind_of].
    destruct Hf as [W _]. cbn in W.
    eapply runs_eq; [eapply runs_bind; [exact R0|]; eapply runs_bind; [exact R1|]|].
    + destruct k; try tauto; apply runs_ret.
    + sets.
  - cbn in He. destruct He as [e Ee]. injection Ee as <-. cbn [kind_of ts_decodeLUT or_empty is_enum].
    eapply runs_eq; [eapply runs_bind; [exact R0|]; eapply runs_bind; [exact R1|]|].
    + cbn [kind_of]. eapply runs_bind; [apply runs_track|apply runs_ret].
    + sets.
Qed.

Lemma in_flat_map_map {A B C} (f : A -> B) (g : B -> list C) l s : In s (flat_map g (map f l)) <-> exists x, In x l /\ In s (g (f x)).
Proof.
  rewrite in_flat_map. split.
  - intros (y & Hy & Hs). apply List.in_map_iff in Hy. destruct Hy as (x & <- & Hx). eauto.
  - intros (x & Hx & Hs). exists (f x). split; [apply List.in_map, Hx|exact Hs].
Qed.
Lemma run_class m : Forall (fun f => good (f_typ f)) (m_fields m) -> runs (ts_class m) (tclass m) (decl_names (tclass m)).
Proof.
  intros HF. set (fs := m_fields m) in *. assert (forall x, In x fs -> good (f_typ x)) as G by (apply Forall_forall; exact HF).
  assert (forall p x, In x (filter p fs) -> good (f_typ x) /\ p x = true) as GF.
  { intros p x Hx. apply filter_In in Hx. split; [apply G|]; apply Hx. }
  unfold ts_class. fold fs.
  eapply runs_eq.
  - eapply runs_bind.
    { apply (runs_each _ (fun f => (f, ty_text f)) (fun _ => [])). intros x Hx.
      eapply runs_eq; [eapply runs_bind; [apply run_find, G, Hx|apply runs_ret]|]. sets. }
    eapply runs_bind.
    { unfold encode_method. eapply runs_bind; [apply run_getEnc, HF|]. cbn [e_slices e_messages e_vals].
      eapply runs_bind; [apply (runs_each _ eslice); intros x Hx; apply run_encodeSlice; eapply GF, Hx|].
      eapply runs_bind; [apply (runs_each _ emessage); intros x Hx; apply run_encodeMessage; eapply GF, Hx|].
      apply runs_ret. }
    eapply runs_bind.
    { unfold decode_method. eapply runs_bind; [apply run_getDec, HF|]. cbn [d_slices d_messages d_other].
      eapply runs_bind; [apply (runs_each _ dslice); intros x Hx; apply run_decodeSlice; eapply GF, Hx|].
      eapply runs_bind; [apply (runs_each _ dmessage); intros x Hx; apply run_decodeMessage; eapply GF, Hx|].
      eapply runs_bind; [apply (runs_each _ dother); intros x Hx; apply run_decodeOther; eapply GF, Hx|].
      apply runs_ret. }
    cbn [fst snd]. apply runs_ret.
  - intros s. unfold tclass. fold fs. cbn [decl_names]. unfold estmts, dstmts. rewrite !flat_map_app, !in_app_iff, !in_flat_map_map, !in_flat_map.
    split.
    + intros H. repeat match goal with H : _ \/ _ |- _ => destruct H as [H|H] end; try (destruct H as (x & Hx & H)); try (destruct H; fail).
      * left. left. eauto.
      * left. right. left. exists x. split; [exact Hx|]. unfold eslice in *. destruct (f_typ x); try exact H. destruct H as [<-|[]]. left. reflexivity.
      * left. right. right. eauto.
      * right. right. right. exists x. split; [exact Hx|]. unfold dother. cbn [dnames]. destruct (dec_of (f_typ x)); exact H || destruct H.
      * destruct H as [<-|H]; [|right; left; eauto].
        left. right. left. exists x. split; [exact Hx|]. destruct (GF _ _ Hx) as [Gx Rx]. unfold eslice. pose proof (not_map x Rx) as N.
        destruct Gx as [W O]. destruct (f_typ x) as [k|n|n|k v]; [| | |exfalso; eapply N; reflexivity].
        { destruct k; cbn in *; tauto. } { right. left. reflexivity. } { right. left. reflexivity. }
      * right. right. left. eauto.
      * right. right. right. eauto.
    + intros [[H|[H|H]]|[H|[H|H]]]; destruct H as (x & Hx & H).
      * right. left. left. eauto.
      * destruct (GF _ _ Hx) as [Gx Rx]. unfold eslice in H. destruct (f_typ x) as [k|n|n|k v] eqn:ET.
        { right. left. right. left. exists x. rewrite ET. unfold eslice. rewrite ET. split; [exact Hx|exact H]. }
        { right. left. right. left. exists x. rewrite ET. unfold eslice. rewrite ET. split; [exact Hx|exact H]. }
        { cbn [enames] in H. change (from_kind "Kind.Any") with ["Kind"] in H. destruct H as [<-|[<-|[]]].
          - right. left. right. left. exists x. rewrite ET. split; [exact Hx|left; reflexivity].
          - right. right. left. right. left. exists x. split; [exact Hx|left; reflexivity]. }
        { exfalso. exact (not_map x Rx _ _ ET). }
      * right. left. right. right. left. eauto.
      * right. right. left. right. left. exists x. split; [exact Hx|right; exact H].
      * right. right. left. right. right. left. eauto.
      * right. right. left. right. right. right. left. eauto.
Qed.
Fixpoint all_structs (ns : list msgd) : gen (list tsdecl) :=
  match ns with
  | [] => ret []
  | n :: ns => do a <- (if m_entry n then ret [] else ts_structs n); do b <- all_structs ns; ret (a ++ b)%list
  end.
Lemma ts_structs_eq full entry fields enums nested : ts_structs (mkmsg full entry fields enums nested) =
  (do ns <- all_structs nested; do c <- ts_class (mkmsg full entry fields enums nested); ret (ns ++ [c])%list).
Proof.
  reflexivity.
Qed.
Definition mgood (m : msgd) : Prop := Forall (fun f => good (f_typ f)) (m_fields m).
Lemma run_structs m : (forall k, inside m k -> mgood k) ->
  runs (ts_structs m) (structs (fun m => [tclass m]) m) (flat_map decl_names (structs (fun m => [tclass m]) m)).
Proof.
  induction m as [full entry fields enums nested IH] using msgd_ind'. intros HG. rewrite ts_structs_eq. cbn [structs].
  assert (HN : forall n, In n nested -> m_entry n = false -> forall k, inside n k -> mgood k).
  { intros n Hn En k Hk. apply HG. eapply inside_nested; [exact Hn|exact En|exact Hk]. }
  assert (R : runs (all_structs nested) (flat_map (fun n => if m_entry n then [] else structs (fun m => [tclass m]) n) nested)
                (flat_map decl_names (flat_map (fun n => if m_entry n then [] else structs (fun m => [tclass m]) n) nested))).
  { clear HG. induction nested as [|n ns IHn]; [apply runs_ret|]. inversion IH as [|? ? H1 H2]; subst.
    cbn [all_structs flat_map]. eapply runs_eq.
    - eapply runs_bind.
      { instantiate (2 := if m_entry n then [] else structs (fun m => [tclass m]) n).
        instantiate (1 := flat_map decl_names (if m_entry n then [] else structs (fun m => [tclass m]) n)).
        destruct (m_entry n) eqn:En; [apply runs_ret|]. apply H1. apply HN; [left; reflexivity|exact En]. }
      eapply runs_bind; [apply IHn; [exact H2|intros k Hk; apply HN; right; exact Hk]|]. apply runs_ret.
    - intros s. rewrite flat_map_app, !in_app_iff. cbn [In]. tauto. }
  eapply runs_eq.
  - eapply runs_bind; [exact R|]. eapply runs_bind; [apply run_class; apply HG, inside_self|]. apply runs_ret.
  - intros s. rewrite flat_map_app. cbn [flat_map]. rewrite !in_app_iff. cbn [In]. tauto.
Qed.
Lemma enum_names es : flat_map decl_names (map ts_enum es) = [].
Proof. induction es as [|e es IH]; [reflexivity|exact IH]. Qed.
Lemma flat_single {A B} (g : A -> B) l : flat_map (fun e => [g e]) l = map g l.
Proof. induction l as [|x l IH]; [reflexivity|]. cbn. rewrite IH. reflexivity. Qed.
Definition fgood (f : filed) : Prop := forall x, field_of f x -> good (f_typ x).
Lemma fgood_m f t k : fgood f -> In t (d_msgs f) -> inside t k -> mgood k.
Proof. intros H Ht Hk. apply Forall_forall. intros x Hx. apply H. exists k. split; [exists t; tauto|exact Hx]. Qed.
Lemma run_body f : fgood f -> runs (ts_body f) (tbody f) (flat_map decl_names (tbody f)).
Proof.
  intros HG. unfold ts_body, tbody, body, messages.
  eapply runs_eq.
  - eapply runs_bind.
    { apply (runs_each _ (fun m => map ts_enum (m_enums m) ++ structs (fun m => [tclass m]) m)
               (fun m => flat_map decl_names (structs (fun m => [tclass m]) m))).
      intros m Hm. eapply runs_eq; [eapply runs_bind; [apply run_structs; intros k Hk; eapply fgood_m; [exact HG|exact Hm|exact Hk]|apply runs_ret]|].
      intros s. rewrite app_nil_r. tauto. }
    assert (forall ns, map (fun m => map ts_enum (m_enums m) ++ structs (fun m => [tclass m]) m) ns =
      map (fun m => flat_map (fun e => [ts_enum e]) (m_enums m) ++ structs (fun m => [tclass m]) m) ns) as EM
      by (intros ns; apply map_ext; intros m; rewrite flat_single; reflexivity).
    rewrite EM, <- flat_map_concat_map, flat_single. apply runs_ret.
  - intros s. rewrite app_nil_r, flat_single, flat_map_app, enum_names. cbn [app].
    induction (d_msgs f) as [|m ms IH]; [tauto|]. cbn [flat_map]. rewrite in_app_iff, IH, !flat_map_app, flat_single, enum_names.
    cbn [app]. rewrite in_app_iff. tauto.
Qed.
(** ---- failing ---- *)
Lemma fail_class m x : In x (m_fields m) -> type_wf (f_typ x) -> ~ type_ok (f_typ x) -> fails (ts_class m).
Proof.
  intros Hx W O. unfold ts_class. apply fails_bind. eapply fails_each; [exact Hx|]. apply fails_bind.
  intros d. unfold FindValue. rewrite find_panic by assumption. reflexivity.
Qed.
Lemma fail_structs m k : inside m k -> fails (ts_class k) -> fails (ts_structs m).
Proof.
  intros Hi Hf. induction Hi as [m|m n k Hn En Hi IH].
  - destruct m. rewrite ts_structs_eq. apply fails_after. intros a. apply fails_bind. exact Hf.
  - destruct m as [full entry fields enums nested]. rewrite ts_structs_eq. apply fails_bind. cbn [m_nested] in Hn.
    specialize (IH Hf). clear - Hn En IH. induction nested as [|y ns IHn]; [destruct Hn|]. cbn [all_structs]. destruct Hn as [->|Hn].
    + apply fails_bind. rewrite En. exact IH.
    + apply fails_after. intros a. apply fails_bind, IHn, Hn.
Qed.
Lemma fail_file f x : field_of f x -> type_wf (f_typ x) -> ~ type_ok (f_typ x) -> fails (ExecuteTemplate f).
Proof.
  intros (m & (t & Ht & Hm) & Hx) W O. unfold ExecuteTemplate, ts_body. apply fails_bind, fails_bind.
  eapply fails_each; [exact Ht|]. apply fails_bind. eapply fail_structs; [exact Hm|]. eapply fail_class; eassumption.
Qed.

(** ---- whole requests ---- *)
Lemma run_file f d : fgood f -> exists d', ExecuteTemplate f d = Ok (mktsfile d' (tbody f), d') /\
  forall s, In s d' <-> In s (flat_map decl_names (tbody f)) \/ In s d.
Proof.
  intros H. unfold ExecuteTemplate, andthen. destruct (run_body f H d) as (d' & -> & I). exists d'. split; [reflexivity|exact I].
Qed.
(** the generated files: the declarations of each, and the imports accumulated so far *)
Lemma run_request fs : Forall fgood fs -> forall d, exists ts d', Generate fs d = Ok (ts, d') /\
  map declared ts = map tbody fs /\
  forall k t, nth_error ts k = Some t -> forall s, In s (imported t) <->
    In s d \/ exists j u, (j <= k)%nat /\ nth_error ts j = Some u /\ In s (used u).
Proof.
  induction 1 as [|f fs Hf _ IH]; intros d; unfold Generate in *; cbn [each].
  - exists [], d. split; [reflexivity|]. split; [reflexivity|]. intros [|k] t E; discriminate E.
  - destruct (run_file f d Hf) as (d1 & E1 & I1). destruct (IH d1) as (ts & d2 & E2 & M & P).
    exists (mktsfile d1 (tbody f) :: ts), d2. split; [unfold andthen; rewrite E1; cbn; rewrite E2; reflexivity|].
    split; [cbn [map declared]; rewrite M; reflexivity|].
    intros [|k] t E s; cbn [nth_error] in E.
    + injection E as <-. cbn [imported]. rewrite I1. split.
      * intros [H|H]; [|tauto]. right. exists 0%nat, (mktsfile d1 (tbody f)). split; [lia|]. split; [reflexivity|exact H].
      * intros [H|(j & u & Hj & Eu & H)]; [tauto|]. destruct j; [|lia]. injection Eu as <-. left. exact H.
    + rewrite (P k t E s), I1. split.
      * intros [[H|H]|(j & u & Hj & Eu & H)].
        { right. exists 0%nat, (mktsfile d1 (tbody f)). split; [lia|]. split; [reflexivity|exact H]. } { tauto. }
        { right. exists (S j), u. split; [lia|]. split; assumption. }
      * intros [H|(j & u & Hj & Eu & H)]; [tauto|]. destruct j as [|j].
        { injection Eu as <-. left. left. exact H. } { right. exists j, u. split; [lia|]. split; assumption. }
Qed.
