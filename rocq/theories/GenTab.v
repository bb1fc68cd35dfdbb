(** The look-up tables of the generators. *)
From Coq Require Import String.
From Verif Require Import Base Spec GenTables GenModel GenSpec.

Lemma go_tables k v : holds k v ->
  exists en dn takes kn c t, go_encodeLUT k = Some en /\ assoc en go_encoder_methods = Some (want v) /\
    go_decodeLUT k = Some dn /\ assoc dn go_decoder_methods = Some (want v, takes) /\
    go_GetKind k = Some kn /\ assoc kn go_kinds = Some c /\ wire v = c :: t /\
    scalar_type k = Some (want v).
Proof.
  intros [_ H]. destruct k, v; try contradiction H; do 6 eexists; repeat split; reflexivity.
Qed.
Lemma rust_tables k v : holds k v ->
  exists en dn kn c t, rs_encodeLUT k = Some en /\ assoc en rs_encoder_methods = Some (want v) /\
    rs_decodeLUT k = Some dn /\ assoc dn rs_decoder_methods = Some (want v) /\
    rs_getKind k = Some kn /\ assoc kn rs_kinds = Some c /\ wire v = c :: t /\
    (k = KEnum \/ exists tn, rs_typeLUT k = Some tn /\ assoc tn rs_types = Some (want v)).
Proof.
  intros [_ H]. destruct k, v; try contradiction H; do 5 eexists; repeat (split; [reflexivity|]);
    first [left; reflexivity | right; eexists; split; reflexivity].
Qed.
Lemma domains k :
  (exists v, holds k v) <-> (go_encodeLUT k <> None /\ go_decodeLUT k <> None /\ go_kindLUT k <> None /\
     rs_encodeLUT k <> None /\ rs_decodeLUT k <> None /\ rs_kindLUT k <> None).
Proof.
  split.
  - intros (v & _ & H). destruct k; try (destruct v; contradiction H); repeat split; discriminate.
  - intros H. pose (v := match scalar_type k with Some q => zero_prim q | None => VNil end). exists v.
    destruct k; try (destruct H as (C & _); exfalso; apply C; reflexivity); subst v; cbn; repeat split; cbn; try lia; constructor.
Qed.
Lemma same_kind k :
  match go_GetKind k, rs_getKind k with
  | Some a, Some b => assoc a go_kinds <> None /\ assoc a go_kinds = assoc b rs_kinds
  | None, None => True
  | _, _ => False
  end.
Proof. destruct k; cbn; try exact I; split; try discriminate; reflexivity. Qed.
Lemma typescript_tables k :
  (forall n, ts_encodeLUT k = Some n \/ ts_decodeLUT k = Some n -> ~ In n ts_exports) /\
  (forall n c, ts_kindLUT k = Some n -> assoc n ts_kinds = Some c ->
     k = KInt32 \/ k = KSint32 \/ k = KSfixed32 \/ k = KString).
Proof.
  split.
  - intros n H HI. assert (D : existsb (String.eqb n) ts_exports = true).
    { apply existsb_exists. exists n. split; [exact HI|apply String.eqb_refl]. }
    destruct k, H as [H|H]; try discriminate H; injection H as <-; vm_compute in D; discriminate D.
  - intros n c H A. destruct k; try discriminate H; injection H as <-; try (vm_compute in A; discriminate A); auto 6.
Qed.
