(** GenTrace refines GenModel.decode; limited memory. *)
From Coq Require Import String.
From Verif Require Import Base Spec GenTables GenModel GenSpec GenTrace TraceSpec.
From Verif Require V1Model V2Model.

Definition er {A} (x : run A) : gres A := outcome_of (snd x).
Lemma er_ret {A} (x : tres A) : er (ret x) = outcome_of x. Proof. reflexivity. Qed.
Lemma er_bind {A B} (x : run A) u (k : bytes -> A -> run B) g h : er x = g -> (forall r a, er (k r a) = h r a) ->
  er (tbind x u k) = gbind g h.
Proof.
  intros <- H. destruct x as [l [r a|e a| | |]]; cbn; try reflexivity. rewrite <- H. destruct (k r a). reflexivity.
Qed.
Lemma er_plain {A B} (x : gres A) (o : B) (k : bytes -> A -> run B) h : (forall r a, er (k r a) = h r a) ->
  er (plain x o k) = gbind x h.
Proof. intros H. destruct x; cbn; try reflexivity. apply H. Qed.

Section Erase.
Variable room : Z -> bool.
Hypothesis Hroom : forall n, room n = true.
Variable v2 : bool.
Variable prim : option bytes -> request -> bytes -> outcome.
Variable S : schema.

Lemma er_nil {A} b (y n : bytes -> run A) y' n' : (forall r, er (y r) = y' r) -> (forall r, er (n r) = n' r) ->
  er (t_nil prim b y n) = if_nil prim b y' n'.
Proof. intros H1 H2. unfold t_nil, if_nil. destruct (prim None RNil b); [apply H1|apply H2|reflexivity]. Qed.
Lemma er_other f old b : er (t_other v2 prim f old b) = dec_other v2 prim f old b.
Proof. unfold t_other. rewrite (er_plain _ _ _ (fun r a => GDone r a)) by reflexivity. destruct (dec_other v2 prim f old b); reflexivity. Qed.

Section Frame.
Variable fuel : nat.
Variable rec' : nat -> list gval -> bytes -> run (list gval).
Variable rec : nat -> list gval -> bytes -> gres (list gval).
Hypothesis HR : forall m x b, er (rec' m x b) = rec m x b.
Lemma er_msg m s b : er (t_msg rec' m s b) = gbind (rec m s b) (fun r s => GDone r (GMsg (Some s))).
Proof. unfold t_msg. apply er_bind; [apply HR|reflexivity]. Qed.
Lemma er_elems t : forall xs b, er (t_elems v2 prim S fuel rec' t xs b) = dec_elems v2 prim S fuel rec t xs b.
Proof.
  induction xs as [|x xs IH]; intros b; [reflexivity|]. cbn [t_elems dec_elems]. apply er_bind.
  - destruct t as [k|m]; apply er_plain; [reflexivity|]. intros; apply er_msg.
  - intros r y. apply er_bind; [apply IH|reflexivity].
Qed.
Lemma er_slice f old b : er (t_slice room v2 prim S fuel rec' f old b) = dec_slice v2 prim S fuel rec f old b.
Proof.
  unfold t_slice, dec_slice. destruct f as [|t|]; try reflexivity. destruct old as [|xs| |]; try reflexivity.
  destruct (kind_number (go_GetKind (tkind t))) as [k|]; [|reflexivity]. unfold call.
  destruct (prim None (RSlice k) b) as [r v| |]; try reflexivity. destruct v; try reflexivity.
  rewrite Hroom.
  assert (E : forall ys, er (tbind (t_elems v2 prim S fuel rec' t ys r) GList (fun r xs => ret (TDone r (GList xs)))) =
    gbind (dec_elems v2 prim S fuel rec t ys r) (fun r xs => GDone r (GList xs))) by (intros ys; apply er_bind; [apply er_elems|reflexivity]).
  destruct (u32 (zlen xs) =? size); [apply E|]. unfold tbind at 1. match goal with |- er (let (_, _) := ?x in _) = _ => destruct x as [l y] eqn:Ex end.
  specialize (E (repeat (zero (One t)) (Z.to_nat size))). cbn iota beta. rewrite Ex in E. exact E.
Qed.
Lemma er_entries kk t : forall n l b, er (t_entries v2 prim S fuel rec' kk t n l b) = dec_entries v2 prim S fuel rec kk t n l b.
Proof.
  induction n as [|n IH]; intros l b; [reflexivity|]. cbn [t_entries dec_entries]. apply er_plain. intros r k. apply er_bind.
  - destruct t as [kt|m]; apply er_plain; [reflexivity|]. intros; apply er_msg.
  - intros r' v. apply IH.
Qed.
Lemma er_message f old b : er (t_message v2 prim S fuel rec' f old b) = dec_message v2 prim S fuel rec f old b.
Proof.
  unfold t_message, dec_message. destruct f as [[k|m]|t|kk t]; try reflexivity.
  - destruct v2.
    + apply er_nil; [reflexivity|]. intros r. apply er_plain. intros; apply er_msg.
    + apply er_plain. intros; apply er_msg.
  - apply er_nil; [reflexivity|]. intros r. destruct (kind_number (go_GetKind kk)) as [k1|]; [|reflexivity].
    destruct (kind_number (go_GetKind (tkind t))) as [k2|]; [|reflexivity]. unfold call.
    destruct (prim None (RMap k1 k2) r) as [r' v| |]; try reflexivity. destruct v; try reflexivity.
    assert (E : er (tbind (t_entries v2 prim S fuel rec' kk t (Z.to_nat size) [] r') (fun l => GMap (Some l)) (fun r l => ret (TDone r (GMap (Some l))))) =
      gbind (dec_entries v2 prim S fuel rec kk t (Z.to_nat size) [] r') (fun r l => GDone r (GMap (Some l)))) by (apply er_bind; [apply er_entries|reflexivity]).
    unfold tbind at 1. match goal with |- er (let (_, _) := ?x in _) = _ => destruct x as [l y] eqn:Ex end. cbv beta in Ex. exact E.
Qed.
End Frame.
Lemma er_pass step' step fs : (forall f old b, er (step' f old b) = step f old b) -> forall is x b, er (t_pass step' fs is x b) = pass step fs is x b.
Proof.
  intros H. induction is as [|i is IH]; intros x b; [reflexivity|]. cbn [t_pass pass]. destruct (nth_error fs i) as [f|]; [|reflexivity].
  destruct (nth_error x i) as [old|]; [|reflexivity]. apply er_bind; [apply H|]. intros r y. apply IH.
Qed.
Theorem erase_decode : forall fuel m x b, er (t_decode room v2 prim S fuel m x b) = decode v2 prim S fuel m x b.
Proof.
  induction fuel as [|fuel IH]; intros m x b; [reflexivity|]. cbn [t_decode decode]. apply er_nil; [reflexivity|]. intros r.
  destruct (nth_error S m) as [fs|]; [|reflexivity]. destruct (getFields go_decodeLUT fs 0) as [[[o s] ms]|]; [|reflexivity].
  apply er_bind; [apply er_pass; intros; apply er_other|]. intros b1 x1.
  apply er_bind; [apply er_pass; intros; apply er_slice; exact IH|]. intros b2 x2.
  apply er_pass; intros; apply er_message; exact IH.
Qed.
End Erase.

(** ** Limited memory *)
Section Limit.
Variable room : Z -> bool.
Lemma refused_app l l' : refused room (l ++ l') =
  match refused room l with Some c => Some c | None => option_map (app l) (refused room l') end.
Proof.
  induction l as [|[n|n] l IH]; cbn [refused app].
  - destruct (refused room l'); reflexivity.
  - destruct (room n); [|reflexivity]. rewrite IH. destruct (refused room l); [reflexivity|]. destruct (refused room l'); reflexivity.
  - rewrite IH. destruct (refused room l); [reflexivity|]. destruct (refused room l'); reflexivity.
Qed.
Lemma lim_ret {A} (x : tres A) : ret x = limit room (ret x). Proof. reflexivity. Qed.
Lemma lim_bind {A B} (x x' : run A) u (k k' : bytes -> A -> run B) : x = limit room x' -> (forall r a, k r a = limit room (k' r a)) ->
  tbind x u k = limit room (tbind x' u k').
Proof.
  intros -> H. destruct x' as [l [r a|e a| | |]]; unfold limit; cbn [fst tbind]; try (destruct (refused room l) as [c|] eqn:E; cbn [tbind fst]; rewrite ?E; reflexivity).
  pose proof (H r a) as Hk. destruct (k' r a) as [l' y] eqn:Ek. unfold limit in Hk. cbn [fst] in Hk |- *. rewrite refused_app.
  destruct (refused room l) as [c|]; cbn [tbind fst]; [reflexivity|]. rewrite Hk. destruct (refused room l'); reflexivity.
Qed.
Lemma lim_plain {A B} (x : gres A) (o : B) (k k' : bytes -> A -> run B) : (forall r a, k r a = limit room (k' r a)) ->
  plain x o k = limit room (plain x o k').
Proof. intros H. destruct x; cbn [plain]; try apply lim_ret. apply H. Qed.
Variable v2 : bool.
Variable prim : option bytes -> request -> bytes -> outcome.
Variable S : schema.
Lemma lim_nil {A} b (y n y' n' : bytes -> run A) : (forall r, y r = limit room (y' r)) -> (forall r, n r = limit room (n' r)) ->
  t_nil prim b y n = limit room (t_nil prim b y' n').
Proof. intros H1 H2. unfold t_nil. destruct (prim None RNil b); [apply H1|apply H2|apply lim_ret]. Qed.
Lemma lim_other f old b : t_other v2 prim f old b = limit room (t_other v2 prim f old b).
Proof. unfold t_other. apply lim_plain. intros. apply lim_ret. Qed.
Section Frame.
Variable fuel : nat.
Variables rec rec' : nat -> list gval -> bytes -> run (list gval).
Hypothesis HR : forall m x b, rec m x b = limit room (rec' m x b).
Lemma lim_msg m s b : t_msg rec m s b = limit room (t_msg rec' m s b).
Proof. unfold t_msg. apply lim_bind; [apply HR|intros; apply lim_ret]. Qed.
Lemma lim_elems t : forall xs b, t_elems v2 prim S fuel rec t xs b = limit room (t_elems v2 prim S fuel rec' t xs b).
Proof.
  induction xs as [|x xs IH]; intros b; [apply lim_ret|]. cbn [t_elems]. apply lim_bind.
  - destruct t as [k|m]; apply lim_plain; intros; [apply lim_ret|apply lim_msg].
  - intros r y. apply lim_bind; [apply IH|intros; apply lim_ret].
Qed.
Lemma lim_slice f old b : t_slice room v2 prim S fuel rec f old b = limit room (t_slice unlimited v2 prim S fuel rec' f old b).
Proof.
  unfold t_slice. destruct f as [|t|]; try apply lim_ret. destruct old as [|xs| |]; try apply lim_ret.
  destruct (kind_number (go_GetKind (tkind t))) as [k|]; [|apply lim_ret].
  destruct (prim None (RSlice k) b) as [r v| |]; try apply lim_ret. destruct v; try apply lim_ret. cbv zeta.
  assert (E : forall ys, tbind (t_elems v2 prim S fuel rec t ys r) GList (fun r xs => ret (TDone r (GList xs))) =
    limit room (tbind (t_elems v2 prim S fuel rec' t ys r) GList (fun r xs => ret (TDone r (GList xs))))).
  { intros ys. apply lim_bind; [apply lim_elems|intros; apply lim_ret]. }
  destruct (u32 (zlen xs) =? size); [apply E|]. unfold unlimited at 1.
  destruct (room size) eqn:Er.
  - apply lim_bind; [|intros; apply E]. unfold limit. cbn. rewrite Er. reflexivity.
  - unfold tbind at 1. match goal with |- _ = limit room (let (_, _) := ?x in _) => destruct x as [l y] end.
    unfold limit. cbn. rewrite Er. reflexivity.
Qed.
Lemma lim_entries kk t : forall n l b, t_entries v2 prim S fuel rec kk t n l b = limit room (t_entries v2 prim S fuel rec' kk t n l b).
Proof.
  induction n as [|n IH]; intros l b; [apply lim_ret|]. cbn [t_entries]. apply lim_plain. intros r k. apply lim_bind.
  - destruct t as [kt|m]; apply lim_plain; intros; [apply lim_ret|apply lim_msg].
  - intros r' v. apply IH.
Qed.
Lemma lim_message f old b : t_message v2 prim S fuel rec f old b = limit room (t_message v2 prim S fuel rec' f old b).
Proof.
  unfold t_message. destruct f as [[k|m]|t|kk t]; try apply lim_ret.
  - destruct v2.
    + apply lim_nil; [intros; apply lim_ret|]. intros r. apply lim_plain. intros; apply lim_msg.
    + apply lim_plain. intros; apply lim_msg.
  - apply lim_nil; [intros; apply lim_ret|]. intros r. destruct (kind_number (go_GetKind kk)) as [k1|]; [|apply lim_ret].
    destruct (kind_number (go_GetKind (tkind t))) as [k2|]; [|apply lim_ret].
    destruct (prim None (RMap k1 k2) r) as [r' v| |]; try apply lim_ret. destruct v; try apply lim_ret.
    apply lim_bind; [reflexivity|]. intros. apply lim_bind; [apply lim_entries|intros; apply lim_ret].
Qed.
End Frame.
Lemma lim_pass step step' fs : (forall f old b, step f old b = limit room (step' f old b)) ->
  forall is x b, t_pass step fs is x b = limit room (t_pass step' fs is x b).
Proof.
  intros H. induction is as [|i is IH]; intros x b; [apply lim_ret|]. cbn [t_pass]. destruct (nth_error fs i) as [f|]; [|apply lim_ret].
  destruct (nth_error x i) as [old|]; [|apply lim_ret]. apply lim_bind; [apply H|]. intros r y. apply IH.
Qed.
Theorem limit_decode : forall fuel m x b, t_decode room v2 prim S fuel m x b = limit room (t_decode unlimited v2 prim S fuel m x b).
Proof.
  induction fuel as [|fuel IH]; intros m x b; [apply lim_ret|]. cbn [t_decode]. apply lim_nil; [intros; apply lim_ret|]. intros r.
  destruct (nth_error S m) as [fs|]; [|apply lim_ret]. destruct (getFields go_decodeLUT fs 0) as [[[o s] ms]|]; [|apply lim_ret].
  apply lim_bind; [apply lim_pass; intros; apply lim_other|]. intros b1 x1.
  apply lim_bind; [apply lim_pass; intros; apply lim_slice; exact IH|]. intros b2 x2.
  apply lim_pass; intros; apply lim_message; exact IH.
Qed.
End Limit.
