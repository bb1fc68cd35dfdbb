(** v2 buffers whose slice is shorter than its capacity (C24), moving the offset (C25). *)
From Verif Require Import Base Spec SpecProofs GoLoop BufSpec GoBuf.
From Verif Require Import V2Model V2Enc.

(** ** a row of stores *)
Fixpoint stores (b : buffer) (o : Z) (l : bytes) : res buffer :=
  match l with
  | [] => Ok b
  | c :: l => let! b := store b o c in stores b (o + 1) l
  end.
Lemma stores_app l : forall b o l', stores b o (l ++ l') =
  let! b := stores b o l in stores b (o + zlen l) l'.
Proof.
  induction l as [|c l IH]; intros b o l'; cbn [app stores].
  - rewrite zlen_nil, Z.add_0_r. reflexivity.
  - destruct (store b o c) as [b1|]; [|reflexivity]. cbn [bind]. rewrite IH, zlen_cons, Z.add_assoc.
    reflexivity.
Qed.
Lemma lad_stores {A} (K : buffer -> Z -> res A) k : forall b o v, 0 <= v < 128 ^ (Z.of_nat k + 1) ->
  lad K k b o v = let! b := stores b o (leb k v) in K b (o + zlen (leb k v)).
Proof.
  induction k as [|k IH]; intros b o v Hv; cbn [lad leb].
  - change (128 ^ (Z.of_nat 0 + 1)) with 128 in Hv. rewrite u8_small by lia. cbn [stores].
    destruct (store b o v); reflexivity.
  - destruct (Z.ltb_spec v 128).
    + rewrite u8_small by lia. cbn [stores]. destruct (store b o v); reflexivity.
    + rewrite land_127, u8_small, lor_128 by lia. cbn [stores]. rewrite (Z.add_comm (v mod 128)).
      destruct (store b o (128 + v mod 128)) as [b1|]; [|reflexivity]. cbn [bind].
      replace (Z.of_nat (S k) + 1) with (Z.succ (Z.of_nat k + 1)) in Hv by lia.
      rewrite Z.pow_succ_r in Hv by lia. rewrite shiftr_7, IH by lia.
      rewrite zlen_cons, Z.add_assoc. reflexivity.
Qed.
Lemma lad_varint {A} (K : buffer -> Z -> res A) k b o v : (k <= 9)%nat -> 0 <= v < 128 ^ (Z.of_nat k + 1) ->
  lad K k b o v = let! b := stores b o (varint v) in K b (o + zlen (varint v)).
Proof. intros Hk Hv. rewrite lad_stores by exact Hv. rewrite leb_fuel by assumption. reflexivity. Qed.

Lemma stores_in l : forall b o p, 0 <= o -> o + zlen p + zlen l <= blen b -> blen b <= zlen (arr b) ->
  stores (st b o p) (o + zlen p) l = Ok (st b o (p ++ l)).
Proof.
  induction l as [|c l IH]; intros b o p Ho Hl Hb.
  - rewrite app_nil_r. reflexivity.
  - cbn [stores]. rewrite zlen_cons in Hl. pose proof (zlen_nonneg l).
    rewrite store_st by lia. cbn [bind].
    replace (o + zlen p + 1) with (o + zlen (p ++ [c])) by (rewrite zlen_app; cbn; lia).
    rewrite IH; try assumption.
    + rewrite <- app_assoc. reflexivity.
    + rewrite zlen_app, zlen_cons, zlen_nil. lia.
Qed.
Lemma stores_out l : forall b o, l <> [] -> 0 <= o -> blen b < o + zlen l -> stores b o l = Panic.
Proof.
  induction l as [|c l IH]; intros b o Hl Ho Hb; [congruence|].
  cbn [stores]. rewrite zlen_cons in Hb. unfold store.
  destruct (Z.ltb_spec o 0); [lia|]. destruct (Z.leb_spec (blen b) o); [reflexivity|]. cbn [orb bind].
  apply IH; cbn [blen]; [|lia|lia]. intros ->. rewrite zlen_nil in Hb. lia.
Qed.
Lemma st_nil b o : st b o [] = b.
Proof. unfold st. rewrite splice_nil. destruct b; reflexivity. Qed.

(** ** every encoder: Grow, store the head, copy the payload *)
Definition head (v : value) : bytes :=
  match v with
  | VBytes p => 4 :: 10 :: varint (zlen p)
  | VString p => 5 :: 10 :: varint (zlen p)
  | VError p => 6 :: 5 :: 10 :: varint (zlen p)
  | v => wire v
  end.
Lemma head_wire v : wire v = head v ++ payload_of v.
Proof. destruct v; cbn [wire head payload_of app]; rewrite ?app_nil_r; reflexivity. Qed.
Lemma head_ne v : head v <> [].
Proof. destruct v; discriminate. Qed.
Definition has_payload_v (v : value) : bool :=
  match v with VBytes _ | VString _ | VError _ => true | _ => false end.
Definition normal (g : policy) (b : buffer) (v : value) : res buffer :=
  let! b := Grow g b (max_size v) in
  let o := off b in
  let! b := stores b o (head v) in
  if has_payload_v v
  then let! (b, n) := copy_at b (o + zlen (head v)) (payload_of v) in
       Ok (set_off b (o + zlen (head v) + n))
  else Ok (set_off b (o + zlen (head v))).
Lemma bind_bind {A B C} (x : res A) (f : A -> res B) (h : B -> res C) :
  bind (bind x f) h = bind x (fun a => bind (f a) h).
Proof. destruct x; reflexivity. Qed.
Lemma stores_keep_off l : forall b o b', stores b o l = Ok b' -> off b' = off b.
Proof.
  induction l as [|c l IH]; intros b o b' H; cbn [stores] in H.
  - congruence.
  - destruct (store b o c) as [b1|] eqn:E; cbn [bind] in H; [|discriminate H].
    apply IH in H. rewrite H. unfold store in E. destruct ((o <? 0) || (blen b <=? o)); [discriminate E|].
    injection E as <-. reflexivity.
Qed.
Ltac munch := repeat (cbn [stores bind]; match goal with
  | |- bind (store ?b ?o ?c) _ = bind (bind (store ?b ?o ?c) _) _ =>
      destruct (store b o c); cbn [bind]; [|reflexivity]
  end).
Lemma bind_ext {A B} (x : res A) (f h : A -> res B) : (forall a, f a = h a) -> bind x f = bind x h.
Proof. intros H. destruct x; [apply H|reflexivity]. Qed.
Lemma fin_copy_bind {A} p (x : res A) f : fin_copy p (bind x f) = bind x (fun a => fin_copy p (f a)).
Proof. destruct x; reflexivity. Qed.

Lemma encode_normal g b v : valid v -> fits2 v -> encode g b v = normal g b v.
Proof.
  intros Hv Hf.
  assert (H16 : forall n, 0 <= n < 2 ^ 16 -> 0 <= n < 128 ^ (Z.of_nat 3 + 1)) by (cbn; lia).
  assert (H32 : forall n, 0 <= n < 2 ^ 32 -> 0 <= n < 128 ^ (Z.of_nat 5 + 1)) by (cbn; lia).
  assert (H64 : forall n, 0 <= n < 2 ^ 64 -> 0 <= n < 128 ^ (Z.of_nat 9 + 1)) by (cbn; lia).
  destruct v; cbn [encode valid] in *; unfold normal; cbn [max_size head wire has_payload_v payload_of].
  - unfold encodeNil. apply bind_ext; intros b1. cbv zeta. cbn [stores].
    destruct (store b1 (off b1) NilRawKind) as [b2|] eqn:E; cbn [bind].
    + pose proof (stores_keep_off [0] b1 (off b1) b2) as K. cbn [stores] in K.
      change 0 with NilRawKind in K at 1. rewrite E in K. cbn [bind] in K. rewrite (K eq_refl).
      change NilRawKind with 0 in E. rewrite E. reflexivity.
    + change NilRawKind with 0 in E. rewrite E. reflexivity.
  - rewrite encodeMap_lit. apply bind_ext; intros b1. cbv zeta. munch.
    rewrite lad_varint by (try apply H32; try lia; tauto). apply bind_ext; intros b2.
    unfold Kset. rewrite !zlen_cons. f_equal. f_equal. lia.
  - rewrite encodeSlice_lit. apply bind_ext; intros b1. cbv zeta. munch.
    rewrite lad_varint by (try apply H32; try lia; tauto). apply bind_ext; intros b2.
    unfold Kset. rewrite !zlen_cons. f_equal. f_equal. lia.
  - rewrite encodeBytes_lit. apply bind_ext; intros b1. cbv zeta. munch.
    pose proof (payload_len p Hv) as Hp. rewrite u32_small by exact Hp. cbn [fits2] in Hf.
    rewrite blad_lad by (try change (128 ^ Z.of_nat 4) with (2 ^ 28); lia).
    rewrite lad_varint by (try apply H32; try lia; tauto). rewrite fin_copy_bind. apply bind_ext; intros b2.
    unfold Kpair, fin_copy. cbn [bind]. rewrite !zlen_cons.
    replace (off b1 + 1 + 1 + zlen (varint (zlen p))) with (off b1 + (1 + (1 + zlen (varint (zlen p))))) by lia.
    reflexivity.
  - rewrite encodeString_lit. apply bind_ext; intros b1. cbv zeta. munch.
    pose proof (payload_len p Hv) as Hp. rewrite u32_small by exact Hp.
    rewrite lad_varint by (try apply H32; try lia; tauto). rewrite fin_copy_bind. apply bind_ext; intros b2.
    unfold Kpair, fin_copy. cbn [bind]. rewrite !zlen_cons.
    replace (off b1 + 1 + 1 + zlen (varint (zlen p))) with (off b1 + (1 + (1 + zlen (varint (zlen p))))) by lia.
    reflexivity.
  - rewrite encodeError_lit. apply bind_ext; intros b1. cbv zeta. munch.
    pose proof (payload_len p Hv) as Hp. rewrite u32_small by exact Hp.
    rewrite lad_varint by (try apply H32; try lia; tauto). rewrite fin_copy_bind. apply bind_ext; intros b2.
    unfold Kpair, fin_copy. cbn [bind]. rewrite !zlen_cons.
    replace (off b1 + 1 + 1 + 1 + zlen (varint (zlen p))) with (off b1 + (1 + (1 + (1 + zlen (varint (zlen p)))))) by lia.
    reflexivity.
  - unfold encodeBool. apply bind_ext; intros b1. cbv zeta. cbn [stores]. change BoolRawKind with 7.
    destruct (store b1 (off b1) 7) as [b2|]; cbn [bind]; [|reflexivity].
    destruct b0; [change trueBool with 1|change falseBool with 0];
      destruct (store b2 (off b1 + 1) _) as [b3|]; cbn [bind]; try reflexivity;
      rewrite <- Z.add_assoc; reflexivity.
  - unfold encodeUint8. apply bind_ext; intros b1. cbv zeta. change Uint8RawKind with 8. munch.
    rewrite <- Z.add_assoc; reflexivity.
  - rewrite encodeUint16_lit. apply bind_ext; intros b1. cbv zeta. munch.
    rewrite lad_varint by (try apply H16; try lia; tauto). apply bind_ext; intros b2.
    unfold Kset. rewrite !zlen_cons. f_equal. f_equal. lia.
  - rewrite encodeUint32_lit. apply bind_ext; intros b1. cbv zeta. munch.
    rewrite lad_varint by (try apply H32; try lia; tauto). apply bind_ext; intros b2.
    unfold Kset. rewrite !zlen_cons. f_equal. f_equal. lia.
  - rewrite encodeUint64_lit. apply bind_ext; intros b1. cbv zeta. munch.
    rewrite lad_varint by (try apply H64; try lia; tauto). apply bind_ext; intros b2.
    unfold Kset. rewrite !zlen_cons. f_equal. f_equal. lia.
  - rewrite encodeInt32_lit. apply bind_ext; intros b1. cbv zeta. munch.
    unfold u32. rewrite (zigzag_cast 32) by lia. pose proof (zigzag32 n Hv) as Hz.
    rewrite lad_varint by (try apply H32; try lia; tauto). apply bind_ext; intros b2.
    unfold Kset. rewrite !zlen_cons. f_equal. f_equal. lia.
  - rewrite encodeInt64_lit. apply bind_ext; intros b1. cbv zeta. munch.
    unfold u64. rewrite (zigzag_cast 64) by lia. pose proof (zigzag64 n Hv) as Hz.
    rewrite lad_varint by (try apply H64; try lia; tauto). apply bind_ext; intros b2.
    unfold Kset. rewrite !zlen_cons. f_equal. f_equal. lia.
  - unfold encodeFloat32. apply bind_ext; intros b1. cbv zeta. rewrite !u8_shiftr by lia.
    unfold be4. change (u8 bits) with (bits mod 256). change Float32RawKind with 14. munch.
    f_equal. f_equal. cbn. lia.
  - unfold encodeFloat64. apply bind_ext; intros b1. cbv zeta. rewrite !u8_shiftr by lia.
    unfold be8, be4. cbn [app]. change (u8 bits) with (bits mod 256). change Float64RawKind with 15. munch.
    f_equal. f_equal. cbn. lia.
Qed.

(** ** a slice shorter than its capacity *)
Definition full (b : buffer) : buffer := mkbuf (old b) (arr b) (zlen (arr b)) (off b).
Lemma full_wf b : 0 <= off b <= zlen (arr b) -> wf (full b).
Proof. intros H. unfold wf, full; cbn [blen arr off]. lia. Qed.
Lemma Grow_full g b n : Cap b - off b < n -> Grow g b n = Grow g (full b) n.
Proof.
  intros H. unfold Grow, Cap in *. cbn [full arr off].
  destruct (Z.ltb_spec (zlen (arr b) - off b) n); [|lia]. reflexivity.
Qed.
(** not enough capacity: Grow reallocates and all is well *)
Lemma loose_grow g b v : 0 <= off b <= Cap b -> valid v -> fits2 v -> Cap b - off b < max_size v ->
  exists b', encode g b v = Ok b' /\ wf b' /\ Bytes b' = Ok (content b ++ wire v).
Proof.
  intros Ho Hv Hf Hc. destruct (encode_ok g (full b) v (full_wf b Ho) Hv Hf) as (b' & E & W & _ & C & _).
  exists b'. split; [|split; [exact W|]].
  - rewrite encode_normal in * by assumption. unfold normal in *. rewrite Grow_full by exact Hc. exact E.
  - rewrite Bytes_content by exact W. rewrite C. reflexivity.
Qed.
(** enough capacity: everything depends on the slice's length *)
Lemma loose_room g b v : 0 <= off b -> blen b <= Cap b -> valid v -> fits2 v ->
  max_size v <= Cap b - off b ->
  (blen b < off b + zlen (head v) -> encode g b v = Panic) /\
  (off b + zlen (head v) <= blen b -> exists b', encode g b v = Ok b' /\
     Bytes b' = Ok (content b ++ ztake (blen b - off b) (wire v)) /\
     Cap b' = Cap b /\ blen b' = blen b).
Proof.
  intros Ho Hb Hv Hf Hc. rewrite encode_normal by assumption. unfold normal.
  assert (HG : Grow g b (max_size v) = Ok b).
  { unfold Grow. destruct (Z.ltb_spec (Cap b - off b) (max_size v)); [lia|reflexivity]. }
  rewrite HG. cbn [bind]. cbv zeta. split; intros H.
  - rewrite stores_out; [reflexivity|apply head_ne|exact Ho|exact H].
  - pose proof (stores_in (head v) b (off b) []) as HS. change (zlen (@nil Z)) with 0 in HS. rewrite ?Z.add_0_r in HS. rewrite (st_nil b (off b)) in HS.
    unfold Cap in *. rewrite HS by lia. cbn [bind app]. pose proof (zlen_nonneg (head v)).
    assert (HB : forall p, off b + zlen p <= blen b ->
              Bytes (set_off (st b (off b) p) (off b + zlen p)) = Ok (content b ++ p) /\
              Cap (set_off (st b (off b) p) (off b + zlen p)) = zlen (arr b)).
    { intros p Hp. pose proof (zlen_nonneg p). unfold Bytes, Cap, set_off, st; cbn [arr off blen old].
      rewrite zlen_splice by lia.
      destruct (Z.ltb_spec (off b + zlen p) 0); [lia|].
      destruct (Z.ltb_spec (zlen (arr b)) (off b + zlen p)); [lia|]. cbn [orb]. split; [|reflexivity].
      rewrite ztake_splice_end by lia. reflexivity. }
    destruct (has_payload_v v) eqn:Hp.
    + set (p := payload_of v). pose proof (zlen_nonneg p).
      unfold copy_at. change (blen (st b (off b) (head v))) with (blen b).
      change (arr (st b (off b) (head v))) with (splice (arr b) (off b) (head v)).
      destruct (Z.ltb_spec (off b + zlen (head v)) 0); [lia|].
      destruct (Z.ltb_spec (blen b) (off b + zlen (head v))); [lia|]. cbn [orb bind].
      set (n := Z.min (blen b - (off b + zlen (head v))) (zlen p)).
      assert (Hn : 0 <= n <= zlen p) by lia.
      assert (HT : ztake (blen b - off b) (wire v) = head v ++ ztake n p).
      { rewrite head_wire, ztake_app2 by lia. fold p. f_equal. subst n.
        destruct (Z.le_gt_cases (zlen p) (blen b - (off b + zlen (head v)))) as [Hx|Hx].
        - rewrite !ztake_all by lia. reflexivity.
        - f_equal. lia. }
      rewrite splice_splice_app by lia.
      assert (HL : zlen (head v ++ ztake n p) = zlen (head v) + n)
        by (rewrite zlen_app, zlen_ztake by lia; reflexivity).
      replace (off b + zlen (head v) + n) with (off b + zlen (head v ++ ztake n p)) by lia.
      eexists; split; [reflexivity|]. rewrite HT.
      destruct (HB (head v ++ ztake n p)) as [HB1 HB2]; [lia|].
      split; [exact HB1|]. split; [exact HB2|reflexivity].
    + assert (HP : payload_of v = []) by (destruct v; try reflexivity; discriminate Hp).
      assert (HW : wire v = head v) by (rewrite head_wire, HP, app_nil_r; reflexivity).
      eexists; split; [reflexivity|]. rewrite HW, ztake_all by lia.
      destruct (HB (head v)) as [HB1 HB2]; [lia|]. split; [exact HB1|]. split; [exact HB2|reflexivity].
Qed.
(** Write looks at the capacity only *)
Lemma loose_write g b p : 0 <= off b <= Cap b -> exists b', Write g b p = Ok b' /\
  Bytes b' = Ok (content b ++ p).
Proof.
  intros Ho. pose proof (zlen_nonneg p).
  destruct (Z.le_gt_cases (zlen p) (Cap b - off b)) as [Hx|Hx].
  - assert (HG : Grow g b (zlen p) = Ok b).
    { unfold Grow. destruct (Z.ltb_spec (Cap b - off b) (zlen p)); [lia|reflexivity]. }
    unfold Write. rewrite HG. cbn [bind].
    destruct (Z.ltb_spec (off b) 0); [lia|]. destruct (Z.ltb_spec (Cap b) (off b)); [lia|]. cbn [orb].
    rewrite Z.min_r by lia. rewrite (ztake_all (zlen p) p) by lia. eexists; split; [reflexivity|].
    unfold Bytes, Cap in *; cbn [arr off]. rewrite zlen_splice by lia.
    destruct (Z.ltb_spec (off b + zlen p) 0); [lia|].
    destruct (Z.ltb_spec (zlen (arr b)) (off b + zlen p)); [lia|]. cbn [orb].
    rewrite ztake_splice_end by lia. reflexivity.
  - destruct (GoBuf.Write_ok g (full b) p (full_wf b Ho)) as (b' & E & W & _ & C & _).
    exists b'. split.
    + unfold Write in *. rewrite Grow_full by lia. exact E.
    + rewrite Bytes_content by exact W. rewrite C. reflexivity.
Qed.

(** ** MoveOffset *)
Lemma Bytes_panic b : Bytes b = Panic <-> off b < 0 \/ Cap b < off b.
Proof.
  unfold Bytes. destruct (Z.ltb_spec (off b) 0); [cbn [orb]; tauto|].
  destruct (Z.ltb_spec (Cap b) (off b)); cbn [orb]; [tauto|]. split; [discriminate|lia].
Qed.
Lemma move_bytes b k : 0 <= off b + k <= Cap b ->
  Bytes (MoveOffset b k) = Ok (ztake (off b + k) (arr b)).
Proof.
  intros H. unfold Bytes, MoveOffset, set_off; cbn [off arr Cap]. unfold Cap in *; cbn [arr].
  destruct (Z.ltb_spec (off b + k) 0); [lia|].
  destruct (Z.ltb_spec (zlen (arr b)) (off b + k)); [lia|]. reflexivity.
Qed.
Lemma move_back b l k : Bytes b = Ok l -> 0 <= k <= zlen l -> Bytes (MoveOffset b (- k)) = Ok (ztake (zlen l - k) l).
Proof.
  intros E Hk. unfold Bytes in E. destruct (Z.ltb_spec (off b) 0); [discriminate E|].
  destruct (Z.ltb_spec (Cap b) (off b)); [discriminate E|]. cbn [orb] in E. injection E as <-.
  unfold Cap in *. rewrite zlen_ztake in * by lia. rewrite move_bytes by (unfold Cap; lia).
  rewrite ztake_ztake by lia. do 2 f_equal.
Qed.
Lemma move_forward b l k : Bytes b = Ok l -> 0 <= k -> off b + k <= Cap b ->
  exists q, zlen q = k /\ Bytes (MoveOffset b k) = Ok (l ++ q).
Proof.
  intros E Hk Hc. unfold Bytes in E. destruct (Z.ltb_spec (off b) 0); [discriminate E|].
  destruct (Z.ltb_spec (Cap b) (off b)); [discriminate E|]. cbn [orb] in E. injection E as <-.
  unfold Cap in *. exists (ztake k (zdrop (off b) (arr b))). split.
  - apply zlen_ztake. rewrite zlen_zdrop by lia. lia.
  - rewrite move_bytes by (unfold Cap; lia). f_equal.
    rewrite <- (ztake_zdrop (off b) (arr b)) at 1.
    rewrite ztake_app2 by (rewrite zlen_ztake; lia). rewrite zlen_ztake by lia.
    do 2 f_equal. lia.
Qed.
Lemma move_move b k : MoveOffset (MoveOffset b k) (- k) = b.
Proof. unfold MoveOffset, set_off; destruct b; cbn. f_equal. lia. Qed.
(** writing after moving back overwrites from the new position *)
Lemma move_then_encode g b l k v : wf b -> Bytes b = Ok l -> 0 <= k <= zlen l -> valid v -> fits2 v ->
  exists b', encode g (MoveOffset b (- k)) v = Ok b' /\ Bytes b' = Ok (ztake (zlen l - k) l ++ wire v).
Proof.
  intros Hw E Hk Hv Hf. pose proof (move_back b l k E Hk) as HB.
  assert (HW : wf (MoveOffset b (- k))).
  { rewrite Bytes_content in E by exact Hw. injection E as <-. rewrite content_len in Hk by exact Hw.
    destruct Hw as [W1 W2]. unfold wf, MoveOffset, set_off; cbn [blen arr off]. lia. }
  destruct (encode_ok g _ v HW Hv Hf) as (b' & E' & W' & _ & C & _).
  exists b'. split; [exact E'|]. rewrite Bytes_content in * by assumption. injection HB as HB.
  rewrite C, HB. reflexivity.
Qed.

(** ** Grow and histories through the API only *)
Lemma Grow_api g b n : wf b -> 0 <= n -> exists b', Grow g b n = Ok b' /\ wf b' /\
  Bytes b' = Bytes b /\ Len b' = Len b /\ n <= Cap b' - Len b' /\ Cap b <= Cap b' /\
  (n <= Cap b - Len b -> b' = b) /\
  (Cap b - Len b < n -> n <= Cap b -> 2 * Cap b <= Cap b') /\
  (Cap b < n -> n + Cap b <= Cap b').
Proof.
  intros Hw Hn. destruct (Grow_ok g b n Hw Hn) as (b' & E & (W & O & C & _ & A) & R & R1 & R2 & R3).
  exists b'. split; [exact E|]. split; [exact W|]. rewrite zlen_nil in O. rewrite app_nil_r in C.
  unfold Cap, Len in *. rewrite !Bytes_content, C by assumption. repeat split; try assumption; lia.
Qed.
Lemma run2_api g ops b l : wf b -> Bytes b = Ok l -> ok2_all l ops ->
  exists b', run g b ops = Ok b' /\ wf b' /\ Bytes b' = Ok (fold_left log2 ops l) /\
    Len b' = zlen (fold_left log2 ops l) /\ Cap b <= Cap b'.
Proof.
  intros Hw E Ho. rewrite Bytes_content in E by exact Hw. injection E as <-.
  destruct (run2_ok g ops b Hw Ho) as (b' & R & W & C & A & _).
  exists b'. split; [exact R|]. split; [exact W|]. rewrite Bytes_content, <- C by exact W.
  split; [reflexivity|]. split; [|exact A]. symmetry. apply content_len. exact W.
Qed.
Lemma view2_api g ops b l : wf b -> Bytes b = Ok l -> ok2_all l ops -> Forall appends2 ops ->
  exists b', run g b ops = Ok b' /\ read_view b' (view b) = l.
Proof.
  intros Hw E Ho Ha. rewrite Bytes_content in E by exact Hw. injection E as <-.
  destruct (run2_ok g ops b Hw Ho) as (b' & R & W & C & A & S).
  exists b'. split; [exact R|]. apply view2_stable. apply S. exact Ha.
Qed.
(** after moving back, the next write that fits changes the view *)
Lemma view2_reset g b p : wf b -> zlen p <= Cap b -> Len b <= zlen p ->
  exists b', Write g (Reset b) p = Ok b' /\ read_view b' (view b) = ztake (Len b) p.
Proof.
  intros [W1 W2] Hp Hl. unfold Cap, Len in *. pose proof (zlen_nonneg p).
  unfold Write, Reset, Grow, Cap, set_off; cbn [arr off old blen].
  destruct (Z.ltb_spec (zlen (arr b) - 0) (zlen p)); [lia|]. cbn [bind arr off old blen].
  destruct (Z.ltb_spec 0 0); [lia|]. destruct (Z.ltb_spec (zlen (arr b)) 0); [lia|]. cbn [orb].
  eexists; split; [reflexivity|]. unfold read_view, view; cbn [fst snd arr off old].
  rewrite nth_mid. rewrite Z.min_r by lia. rewrite (ztake_all (zlen p) p) by lia.
  unfold splice. rewrite ztake_0. cbn [app]. apply ztake_app1. exact Hl.
Qed.

Lemma small_fits2 v : small v -> fits2 v.
Proof. intros H. destruct v; cbn [fits2]; auto. Qed.
Lemma head_size v : zlen (head v) = zlen (wire v) - zlen (payload_of v).
Proof. rewrite head_wire, zlen_app. lia. Qed.
Lemma loose_encode g b v l : Bytes b = Ok l -> blen b <= Cap b -> valid v -> small v ->
  (Cap b - Len b < max_size v ->
     exists b', encode g b v = Ok b' /\ Bytes b' = Ok (l ++ wire v)) /\
  (max_size v <= Cap b - Len b -> blen b < Len b + (zlen (wire v) - zlen (payload_of v)) ->
     encode g b v = Panic) /\
  (max_size v <= Cap b - Len b -> Len b + (zlen (wire v) - zlen (payload_of v)) <= blen b ->
     exists b', encode g b v = Ok b' /\ Bytes b' = Ok (l ++ ztake (blen b - Len b) (wire v))).
Proof.
  intros E Hb Hv Hs. apply small_fits2 in Hs.
  assert (Ho : 0 <= off b <= Cap b).
  { unfold Bytes in E. destruct (Z.ltb_spec (off b) 0); [discriminate E|].
    destruct (Z.ltb_spec (Cap b) (off b)); [discriminate E|]. lia. }
  assert (Hl : l = content b).
  { unfold Bytes in E. destruct (Z.ltb_spec (off b) 0); [lia|].
    destruct (Z.ltb_spec (Cap b) (off b)); [lia|]. cbn [orb] in E. injection E as <-. reflexivity. }
  subst l. unfold Len. rewrite <- head_size. split; [|split].
  - intros H. destruct (loose_grow g b v Ho Hv Hs H) as (b' & E' & _ & B). eauto.
  - intros H1 H2. destruct (loose_room g b v) as [A _]; try assumption; try lia. auto.
  - intros H1 H2. destruct (loose_room g b v) as [_ A]; try assumption; try lia.
    destruct (A H2) as (b' & E' & B & _). eauto.
Qed.
