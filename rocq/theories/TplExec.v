(** Executing templates: loops over descriptors, and what the parsed templates are. *)
From Coq Require Import String.
From Verif Require Import Base Spec GenTables NameModel EmitModel EmitThms GoEmit TplText TplModel TplGo.
Local Open Scope list_scope.

Definition T1 : list (string * list node) := Eval vm_compute in templates false.
Definition T2 : list (string * list node) := Eval vm_compute in templates true.
Lemma templates_1 : templates false = T1. Proof. vm_compute; reflexivity. Qed.
Lemma templates_2 : templates true = T2. Proof. vm_compute; reflexivity. Qed.
Definition TT (v2 : bool) := if v2 then T2 else T1.
Lemma templates_ok v2 : templates v2 = TT v2. Proof. destruct v2; [exact templates_2|exact templates_1]. Qed.

Lemma loop_nth {A} (body : Z -> tval -> option bytes) (x : tval) (g : A -> bytes) (l : list A) : forall i,
  (forall j a, nth_error l j = Some a -> body (i + Z.of_nat j) x = Some (g a)) -> loop body i (repeat x (length l)) = Some (flat_map g l).
Proof.
  induction l as [|a l IH]; intros i H; [reflexivity|]. cbn [length repeat loop flat_map]. assert (E := H 0%nat a eq_refl). rewrite Z.add_0_r in E. rewrite E.
  rewrite (IH (i + 1)); [reflexivity|]. intros j b Hj. specialize (H (S j) b Hj). replace (i + 1 + Z.of_nat j) with (i + Z.of_nat (S j)) by lia. exact H.
Qed.
Lemma loop_map {A} (body : Z -> tval -> option bytes) (f : A -> tval) (g : A -> bytes) (l : list A) : forall i,
  (forall j a, In a l -> body j (f a) = Some (g a)) -> loop body i (map f l) = Some (flat_map g l).
Proof.
  induction l as [|a l IH]; intros i H; [reflexivity|]. cbn [map loop flat_map]. rewrite (H i a (or_introl eq_refl)), (IH (i + 1)); [reflexivity|]. intros j b Hb. exact (H j b (or_intror Hb)).
Qed.
Lemma at_nth {A} (l : list A) j a : nth_error l j = Some a -> at_index l (0 + Z.of_nat j) = Some a.
Proof. intros H. unfold at_index. rewrite Z.add_0_l. destruct (Z.ltb_spec (Z.of_nat j) 0); [lia|]. rewrite Nat2Z.id. exact H. Qed.
Lemma iterable {A} (l : list A) : call_of "MakeIterable" [VInt (zlen l)] = Some (VList (repeat VStruct (length l))).
Proof. unfold call_of. cbn [String.eqb Ascii.eqb Bool.eqb]. unfold zlen. destruct (Z.ltb_spec (Z.of_nat (length l)) 0); [lia|]. rewrite Nat2Z.id. reflexivity. Qed.
