(** Proofs about whole requests to the Rust generator. *)
From Coq Require Import String.
From Verif Require Import Base Utf8 NameModel NameSpec NameThms NameThms2 NameThms3 NameThms4 GenTables EmitModel EmitSpec EmitThms EmitThms2 EmitThms3 PkgModel PkgSpec PkgThms PkgThms2 PkgThms3 RsPkgModel RsPkgSpec.

(** ---- the import analysis ---- *)
Section Env.
Variable env : list msgd.
Lemma traverse_each n ts d : traverseFields env (S n) ts d =
  match ts with
  | [] => Some d
  | t :: ts =>
      match match t with
            | TMap k v => traverseFields env n [k; v] true
            | TMsg s => match message_named env s with
                        | Some m => match m_fields m with [] => Some d | f :: fs => traverseFields env n (map f_typ (f :: fs)) d end
                        | None => Some d
                        end
            | _ => Some d
            end with
      | None => None
      | Some d => traverseFields env (S n) ts d
      end
  end.
Proof.
  destruct ts as [|t ts]; [reflexivity|]. cbn [traverseFields]. destruct t as [k|s|s|k v]; try reflexivity.
  destruct (message_named env s) as [m|]; [|reflexivity]. destruct (m_fields m); reflexivity.
Qed.
Lemma traverse_true n : forall ts r, traverseFields env n ts true = Some r -> r = true.
Proof.
  induction n as [|n IH]; intros ts r; [discriminate|]. revert r. induction ts as [|t ts IHt]; intros r; rewrite traverse_each; [intros H; injection H as <-; reflexivity|].
  destruct t as [k|s|s|k v]; try apply IHt.
  - destruct (message_named env s) as [m|]; [|apply IHt]. destruct (m_fields m) as [|f fs]; [apply IHt|].
    destruct (traverseFields env n (map f_typ (f :: fs)) true) as [d|] eqn:E; [|discriminate]. rewrite (IH _ _ E). apply IHt.
  - destruct (traverseFields env n [k; v] true) as [d|] eqn:E; [|discriminate]. rewrite (IH _ _ E). apply IHt.
Qed.
Lemma ahead_sub ts us : (forall t, In t ts -> In t us) -> map_ahead env ts -> map_ahead env us.
Proof. intros H K. inversion K as [? k v I|? s m I E A]; subst; [eapply ma_here, H, I|eapply ma_message; eauto]. Qed.
Lemma ahead_cons t ts : map_ahead env (t :: ts) <-> map_ahead env [t] \/ map_ahead env ts.
Proof.
  split.
  - intros K. inversion K as [? k v I|? s m I E A]; subst; destruct I as [->|I].
    + left. eapply ma_here. left. reflexivity.
    + right. eapply ma_here, I.
    + left. eapply ma_message; [left; reflexivity|exact E|exact A].
    + right. eapply ma_message; eauto.
  - intros [K|K]; revert K; apply ahead_sub; [intros x [<-|[]]; left; reflexivity|intros x Hx; right; exact Hx].
Qed.
Lemma no_ahead_nil : ~ map_ahead env [].
Proof. intros K. inversion K as [? ? ? I|? ? ? I]; destruct I. Qed.
Lemma traverse_false n : forall ts r, traverseFields env n ts false = Some r -> r = true <-> map_ahead env ts.
Proof.
  induction n as [|n IH]; intros ts r; [discriminate|]. revert r. induction ts as [|t ts IHt]; intros r; rewrite traverse_each.
  - intros H; injection H as <-. split; [discriminate|intros K; exfalso; exact (no_ahead_nil K)].
  - rewrite ahead_cons. destruct t as [k|s|s|k v].
    + intros H. rewrite (IHt r H). split; [auto|]. intros [K|K]; [|exact K]. exfalso. inversion K as [? ? ? I|? ? ? I]; subst; destruct I as [I|[]]; discriminate I.
    + intros H. rewrite (IHt r H). split; [auto|]. intros [K|K]; [|exact K]. exfalso. inversion K as [? ? ? I|? ? ? I]; subst; destruct I as [I|[]]; discriminate I.
    + assert (ST : map_ahead env [TMsg s] <-> exists m, message_named env s = Some m /\ map_ahead env (map f_typ (m_fields m))).
      { split.
        - intros K. inversion K as [? ? ? I|? s' m I E A]; subst; destruct I as [I|[]]; [discriminate I|]. injection I as ->. eauto.
        - intros (m & E & A). eapply ma_message; [left; reflexivity|exact E|exact A]. }
      rewrite ST. destruct (message_named env s) as [m|] eqn:Em.
      2:{ intros H. rewrite (IHt r H). split; [auto|]. intros [(m & E & _)|K]; [discriminate E|exact K]. }
      destruct (m_fields m) as [|f fs] eqn:Ef.
      { intros H. rewrite (IHt r H). split; [auto|]. intros [(m' & E & A)|K]; [|exact K]. injection E as <-. rewrite Ef in A. exfalso. exact (no_ahead_nil A). }
      destruct (traverseFields env n (map f_typ (f :: fs)) false) as [d|] eqn:E; [|discriminate]. intros H. apply IH in E. destruct d.
      * apply traverse_true in H. subst r. split; [|auto]. intros _. left. exists m. split; [reflexivity|]. rewrite Ef. apply E. reflexivity.
      * rewrite (IHt r H). split; [auto|]. intros [(m' & E' & A)|K]; [|exact K]. injection E' as <-. rewrite Ef in A. apply E in A. discriminate A.
    + destruct (traverseFields env n [k; v] true) as [d|] eqn:E; [|discriminate]. rewrite (traverse_true _ _ _ E). intros H. apply traverse_true in H. subst r.
      split; [|auto]. intros _. left. eapply ma_here. left. reflexivity.
Qed.
Lemma top_true n ms : forall r, top_messages env n ms true = Some r -> r = true.
Proof.
  induction ms as [|m ms IH]; intros r; cbn [top_messages]; [intros H; injection H as <-; reflexivity|].
  destruct (traverseFields env n (map f_typ (m_fields m)) true) as [d|] eqn:E; [|discriminate]. rewrite (traverse_true _ _ _ E). apply IH.
Qed.
Lemma top_false n ms : forall r, top_messages env n ms false = Some r -> r = true <-> exists m, In m ms /\ map_ahead env (map f_typ (m_fields m)).
Proof.
  induction ms as [|m ms IH]; intros r; cbn [top_messages].
  - intros H; injection H as <-. split; [discriminate|intros (m & [] & _)].
  - destruct (traverseFields env n (map f_typ (m_fields m)) false) as [d|] eqn:E; [|discriminate]. apply traverse_false in E. destruct d.
    + intros H. apply top_true in H. subst r. split; [|auto]. intros _. exists m. split; [left; reflexivity|]. apply E. reflexivity.
    + intros H. rewrite (IH r H). split; intros (k & Hk & A); exists k; (split; [|exact A]); [right; exact Hk|].
      destruct Hk as [->|Hk]; [|exact Hk]. apply E in A. discriminate A.
Qed.
Theorem analysis n f d : DependencyAnalysis env n f = Some d ->
  (dep_maps d = true <-> imports_maps env f) /\ (dep_enums d = true <-> d_enums f <> []).
Proof.
  unfold DependencyAnalysis. destruct (top_messages env n (d_msgs f) false) as [r|] eqn:E; [|discriminate]. intros H. injection H as <-. cbn [dep_maps dep_enums]. split.
  - exact (top_false n (d_msgs f) r E).
  - destruct (d_enums f); split; congruence.
Qed.
Lemma imports_iff n f d : DependencyAnalysis env n f = Some d -> forall x, In x (rs_imports d) <-> imported env f x.
Proof.
  intros H x. apply analysis in H. destruct H as [H1 H2]. unfold rs_imports, imported. rewrite !in_app_iff. change str with text. cbn [map].
  destruct (dep_enums d) eqn:E1, (dep_maps d) eqn:E2.
  - pose proof (proj1 H2 eq_refl). pose proof (proj1 H1 eq_refl). cbn [In]. intuition congruence.
  - pose proof (proj1 H2 eq_refl). assert (~ imports_maps env f) by (intros K; apply H1 in K; discriminate). cbn [In]. intuition congruence.
  - pose proof (proj1 H1 eq_refl). assert (~ d_enums f <> []) by (intros K; apply H2 in K; discriminate). cbn [In]. intuition congruence.
  - assert (~ imports_maps env f) by (intros K; apply H1 in K; discriminate). assert (~ d_enums f <> []) by (intros K; apply H2 in K; discriminate). cbn [In]. intuition congruence.
Qed.
End Env.
