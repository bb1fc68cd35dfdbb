(** The literal v1 decoders equal the compact semantics on every byte input. *)
From Verif Require Import Base Spec SpecProofs GoLoop GoIdeal V1Model.

Lemma loop16_gloop fuel : forall b i x s,
  loop16 fuel b i x s = gloop 16 3 EU32 EU16 (fun u => u) fuel b i x s.
Proof.
  induction fuel as [|f IH]; intros; [reflexivity|]. cbn [loop16 gloop].
  destruct (index b i); [cbn [bind]|reflexivity]. rewrite IH. reflexivity.
Qed.
Lemma loop32_gloop fuel : forall b i x s,
  loop32 fuel b i x s = gloop 32 5 EU32 EU32 (fun u => u) fuel b i x s.
Proof.
  induction fuel as [|f IH]; intros; [reflexivity|]. cbn [loop32 gloop].
  destruct (index b i); [cbn [bind]|reflexivity]. rewrite IH. reflexivity.
Qed.
Lemma loop64_gloop fuel : forall b i x s,
  loop64 fuel b i x s = gloop 64 10 EU64 EU64 (fun u => u) fuel b i x s.
Proof.
  induction fuel as [|f IH]; intros; [reflexivity|]. cbn [loop64 gloop].
  destruct (index b i); [cbn [bind]|reflexivity]. rewrite IH. reflexivity.
Qed.
Definition fin32 (u : Z) : Z :=
  let x := s32 (Z.shiftr u 1) in
  if negb (Z.land u 1 =? 0) then s32 (- s32 (x + 1)) else x.
Definition fin64 (u : Z) : Z :=
  let x := s64 (Z.shiftr u 1) in
  if negb (Z.land u 1 =? 0) then s64 (- s64 (x + 1)) else x.
Lemma loopi32_gloop fuel : forall b i x s,
  loopi32 fuel b i x s = gloop 32 5 EI32 EI32 fin32 fuel b i x s.
Proof.
  induction fuel as [|f IH]; intros; [reflexivity|]. cbn [loopi32 gloop].
  destruct (index b i); [cbn [bind]|reflexivity]. rewrite IH. reflexivity.
Qed.
Lemma loopi64_gloop fuel : forall b i x s,
  loopi64 fuel b i x s = gloop 64 10 EI64 EI64 fin64 fuel b i x s.
Proof.
  induction fuel as [|f IH]; intros; [reflexivity|]. cbn [loopi64 gloop].
  destruct (index b i); [cbn [bind]|reflexivity]. rewrite IH. reflexivity.
Qed.
Lemma fin32_spec u : 0 <= u < 2 ^ 32 -> fin32 u = unzigzag u.
Proof. apply (signed_fin 32); lia. Qed.
Lemma fin64_spec u : 0 <= u < 2 ^ 64 -> fin64 u = unzigzag u.
Proof. apply (signed_fin 64); lia. Qed.

(** unfolding [zlen b > k] on explicit lists *)
Lemma gtb_cons {A} (x : A) l k : (zlen (x :: l) >? k) = (zlen l >? k - 1).
Proof. rewrite zlen_cons. destruct (Z.gtb_spec (1 + zlen l) k), (Z.gtb_spec (zlen l) (k - 1)); lia. Qed.
Lemma gtb_neg {A} (l : list A) k : k < 0 -> (zlen l >? k) = true.
Proof. intros. pose proof (zlen_nonneg l). destruct (Z.gtb_spec (zlen l) k); lia. Qed.
Lemma gtb_nil {A} k : 0 <= k -> (zlen (@nil A) >? k) = false.
Proof. intros. rewrite zlen_nil. destruct (Z.gtb_spec 0 k); lia. Qed.
Lemma slice_from_0 l : slice_from l 0 = Ok l.
Proof. rewrite slice_from_ok by (pose proof (zlen_nonneg l); lia). reflexivity. Qed.
Lemma slice_from_S x l k : 0 <= k -> slice_from (x :: l) (k + 1) = slice_from l k.
Proof.
  intros. unfold slice_from. rewrite zlen_cons, zdrop_cons by lia.
  destruct (Z.ltb_spec (k + 1) 0), (Z.ltb_spec k 0); try lia.
  destruct (Z.ltb_spec (1 + zlen l) (k + 1)), (Z.ltb_spec (zlen l) k); try lia; try reflexivity.
  cbn [orb]. do 2 f_equal. lia.
Qed.
Ltac sl :=
  repeat match goal with
  | |- context [slice_from ?l 0] => rewrite (slice_from_0 l)
  | |- context [slice_from (?x :: ?l) 1] => change (slice_from (x :: l) 1) with (slice_from (x :: l) (0 + 1)); rewrite (slice_from_S x l 0) by lia
  | |- context [slice_from (?x :: ?l) 2] => change (slice_from (x :: l) 2) with (slice_from (x :: l) (1 + 1)); rewrite (slice_from_S x l 1) by lia
  | |- context [slice_from (?x :: ?l) 3] => change (slice_from (x :: l) 3) with (slice_from (x :: l) (2 + 1)); rewrite (slice_from_S x l 2) by lia
  | |- context [slice_from (?x :: ?l) 4] => change (slice_from (x :: l) 4) with (slice_from (x :: l) (3 + 1)); rewrite (slice_from_S x l 3) by lia
  | |- context [slice_from (?x :: ?l) 5] => change (slice_from (x :: l) 5) with (slice_from (x :: l) (4 + 1)); rewrite (slice_from_S x l 4) by lia
  | |- context [slice_from (?x :: ?l) 6] => change (slice_from (x :: l) 6) with (slice_from (x :: l) (5 + 1)); rewrite (slice_from_S x l 5) by lia
  | |- context [slice_from (?x :: ?l) 7] => change (slice_from (x :: l) 7) with (slice_from (x :: l) (6 + 1)); rewrite (slice_from_S x l 6) by lia
  | |- context [slice_from (?x :: ?l) 8] => change (slice_from (x :: l) 8) with (slice_from (x :: l) (7 + 1)); rewrite (slice_from_S x l 7) by lia
  | |- context [slice_from (?x :: ?l) 9] => change (slice_from (x :: l) 9) with (slice_from (x :: l) (8 + 1)); rewrite (slice_from_S x l 8) by lia
  end.
Ltac gt :=
  repeat (rewrite gtb_cons; match goal with |- context [?a - 1] =>
     let v := eval compute in (a - 1) in change (a - 1) with v end);
  rewrite ?gtb_nil by lia; rewrite ?gtb_neg by lia.

Ltac tail_ok H := repeat match type of H with bytes_ok (_ :: _) =>
   let H1 := fresh in apply bytes_ok_cons in H; destruct H as [H1 H] end.

Lemma decodeUint32_sub b : bytes_ok b ->
  decodeUint32 b = match sub32 b with
                   | Sok r n => Ok (r, n, None)
                   | Sfail r => Ok (r, 0, Some EU32)
                   | Scrash => Panic
                   end.
Proof.
  intros Hb. unfold decodeUint32, sub32. destruct b as [|c [|d t]]; gt; try reflexivity.
  cbn [index Z.ltb Z.compare Z.to_nat nth_error bind Uint32Kind].
  change (index (c :: d :: t) 0) with (Ok c). change (index [10] 0) with (Ok 10). cbn [bind].
  destruct (Z.eqb_spec c 10); [|reflexivity].
  rewrite loop32_gloop. apply bytes_ok_cons in Hb. destruct Hb as [_ Hb].
  change (Z.to_nat VarIntLen32) with 5%nat.
  rewrite gloop_start by (try assumption; lia).
  destruct (scan 5 (d :: t)); reflexivity.
Qed.
Lemma sub32_range b r n : sub32 b = Sok r n -> 0 <= n < 2 ^ 32.
Proof.
  unfold sub32. destruct b as [|c [|d t]]; try discriminate.
  destruct (c =? 10); try discriminate. destruct (scan 5 (d :: t)); try discriminate.
  intros H; injection H as <- <-. apply Z.mod_pos_bound; lia.
Qed.
Opaque decodeUint32.

Lemma payload_string W r n : 0 <= n ->
  (if zlen r >? sw W (sw W n - 1) then
     let! r' := slice_from r n in let! p := slice_to r n in Ok (r', p, None)
   else Ok (r, [], Some EString)) =
  match payload W r n with
  | Pok r p => Ok (r, p, None) | Pfail r => Ok (r, [], Some EString) | Pcrash => Panic end.
Proof.
  intros Hn. unfold payload. destruct (zlen r >? sw W (sw W n - 1)); [|reflexivity].
  destruct (Z.leb_spec n (zlen r)).
  - rewrite slice_from_ok, slice_to_ok by lia. reflexivity.
  - rewrite slice_from_panic by lia. reflexivity.
Qed.
Lemma decodeString_sub W b : bytes_ok b ->
  decodeString W b = match stringy W b with
                     | Pok r p => Ok (r, p, None)
                     | Pfail r => Ok (r, [], Some EString)
                     | Pcrash => Panic
                     end.
Proof.
  intros Hb. unfold decodeString, stringy. destruct b as [|c t]; gt; [reflexivity|].
  change (index (c :: t) 0) with (Ok c). change (index StringKind 0) with (Ok 5). cbn [bind].
  destruct (c =? 5); [|reflexivity]. sl. cbn [bind].
  apply bytes_ok_cons in Hb. destruct Hb as [_ Hb]. rewrite decodeUint32_sub by exact Hb.
  destruct (sub32 t) as [r n|r|] eqn:E; cbn [bind]; try reflexivity.
  apply payload_string. apply sub32_range in E. lia.
Qed.
Opaque decodeString.

(** Go slices have lengths representable in int *)

Lemma int_ok_le W b r : int_ok W b -> zlen r <= zlen b -> int_ok W r.
Proof. intros [H1 H2] H. split; [exact H1|lia]. Qed.

Lemma bytes_branch W r n dst : 0 <= n < 2 ^ 32 -> int_ok W r ->
  (if zlen r >? sw W (sw W n - 1) then
     if (match dst with None => 0 | Some d => zlen d end) <? sw W n then
       match dst with
       | None => let! p := slice_to r n in
                 let! r' := slice_from r n in Ok (r', Some p, None)
       | Some _ => let! p := slice_to r n in
                   let! r' := slice_from r n in Ok (r', Some p, None)
       end
     else
       let! p := slice_to r n in
       let! r' := slice_from r n in
       match dst with
       | None => Ok (r', None, None)
       | Some d => let n := Z.min (zlen d) (zlen p) in
                   Ok (r', Some (ztake n p ++ zdrop n d), None)
       end
   else Ok (r, None, Some EBytes)) =
  match payload W r n with
  | Pok r p => Ok (r, match dst with None => if n =? 0 then None else Some p
                      | Some d => Some (bytes_result dst p) end, None)
  | Pfail r => Ok (r, None, Some EBytes)
  | Pcrash => Panic
  end.
Proof.
  intros Hn HW. unfold payload.
  destruct (zlen r >? sw W (sw W n - 1)); [|reflexivity].
  destruct (Z.leb_spec n (zlen r)).
  - assert (Es : sw W n = n) by (destruct HW as [HW HW2]; apply sw_small; lia).
    rewrite Es, slice_from_ok, slice_to_ok by lia. cbn [bind].
    assert (Hp : zlen (ztake n r) = n) by (apply zlen_ztake; lia).
    destruct dst as [d|].
    + unfold bytes_result. rewrite Hp. destruct (Z.ltb_spec (zlen d) n) as [Hd|Hd].
      * destruct (Z.leb_spec (zlen d) n); [reflexivity|lia].
      * cbn zeta. rewrite Z.min_r by lia. rewrite ztake_all by lia.
        destruct (Z.leb_spec (zlen d) n); [|reflexivity].
        rewrite (zdrop_all n d) by lia. rewrite app_nil_r. reflexivity.
    + destruct (Z.ltb_spec 0 n), (Z.eqb_spec n 0); try lia; reflexivity.
  - rewrite slice_to_panic by lia.
    destruct dst; match goal with |- context [?a <? ?b] => destruct (a <? b) end; reflexivity.
Qed.

Lemma sub32_len b r n : sub32 b = Sok r n -> zlen r <= zlen b.
Proof.
  unfold sub32. destruct b as [|c [|d t]]; try discriminate.
  destruct (c =? 10); try discriminate. destruct (scan 5 (d :: t)) eqn:E; try discriminate.
  intros H; injection H as <- <-. apply scan_shape in E. rewrite zlen_cons, E, zlen_app.
  pose proof (zlen_nonneg ds). lia.
Qed.

Lemma scalar_dec w N fuel k ed el (fin : Z -> Z) (C : Z -> value) b :
  16 <= w -> bytes_ok b -> Z.of_nat fuel <= N -> 7 * (Z.of_nat fuel - 1) <= w ->
  out C (if zlen b >? 1 then
           let! b0 := index b 0 in
           let! k := index [k] 0 in
           if b0 =? k then gloop w N ed el fin fuel b 1 0 0 else Ok (b, 0, Some el)
         else Ok (b, 0, Some el)) =
  scalar k fuel (fun n => C (fin (n mod 2 ^ w))) el b.
Proof.
  intros Hw Hb HN Hf. unfold scalar. destruct b as [|c [|d t]]; gt; try reflexivity.
  change (index (c :: d :: t) 0) with (Ok c). change (index [k] 0) with (Ok k). cbn [bind].
  destruct (c =? k); [|reflexivity].
  apply bytes_ok_cons in Hb. destruct Hb as [_ Hb].
  rewrite gloop_start by assumption. destruct (scan fuel (d :: t)); reflexivity.
Qed.

Lemma scalar_ext k n f g e b : (forall x, f x = g x) -> scalar k n f e b = scalar k n g e b.
Proof.
  intros H. unfold scalar. destruct b as [|c [|d t]]; try reflexivity.
  destruct (c =? k); [|reflexivity]. destruct (scan n (d :: t)); try reflexivity. rewrite H. reflexivity.
Qed.

Theorem decode_ideal W dst q b : bytes_ok b -> int_ok W b -> decode W dst q b = ideal1 W dst q b.
Proof.
  intros Hb HW. destruct q; cbn [decode ideal1].
  - unfold decodeNil. destruct b as [|c t]; gt; [reflexivity|].
    change (index (c :: t) 0) with (Ok c). change (index NilKind 0) with (Ok 0). cbn [bind].
    destruct (c =? 0); [|reflexivity]. sl. reflexivity.
  - unfold decodeMap. destruct b as [|a [|x [|y t]]]; gt; try reflexivity.
    change (index (a :: x :: y :: t) 0) with (Ok a). change (index (a :: x :: y :: t) 1) with (Ok x).
    change (index (a :: x :: y :: t) 2) with (Ok y).
    change (index MapKind 0) with (Ok 2). change (index [keyKind] 0) with (Ok keyKind).
    change (index [valueKind] 0) with (Ok valueKind). cbn [bind].
    destruct (a =? 2); [|reflexivity]. cbn [andb]. destruct (x =? keyKind); [|reflexivity].
    cbn [andb]. destruct (y =? valueKind); [|reflexivity]. sl. cbn [bind].
    tail_ok Hb. rewrite decodeUint32_sub by assumption.
    destruct (sub32 t); reflexivity.
  - unfold decodeSlice. destruct b as [|a [|x t]]; gt; try reflexivity.
    change (index (a :: x :: t) 0) with (Ok a). change (index (a :: x :: t) 1) with (Ok x).
    change (index SliceKind 0) with (Ok 1). change (index [kind] 0) with (Ok kind). cbn [bind].
    destruct (a =? 1); [|reflexivity]. cbn [andb]. destruct (x =? kind); [|reflexivity]. sl. cbn [bind].
    tail_ok Hb. rewrite decodeUint32_sub by assumption.
    destruct (sub32 t); reflexivity.
  - unfold decodeBytes. destruct b as [|c t]; gt; [reflexivity|].
    change (index (c :: t) 0) with (Ok c). change (index BytesKind 0) with (Ok 4). cbn [bind].
    destruct (c =? 4); [|reflexivity]. sl. cbn [bind].
    tail_ok Hb. rewrite decodeUint32_sub by assumption.
    destruct (sub32 t) as [r n|r|] eqn:E; cbn [bind]; try reflexivity.
    rewrite bytes_branch; [|eapply sub32_range; eassumption|].
    2:{ eapply int_ok_le; [eassumption|]. apply sub32_len in E. rewrite zlen_cons. lia. }
    destruct (payload W r n) as [r' p|r'|] eqn:EP; try reflexivity.
    destruct dst as [d|]; [reflexivity|]. destruct (Z.eqb_spec n 0) as [->|]; [|reflexivity].
    unfold payload in EP. destruct (zlen r >? sw W (sw W 0 - 1)); [|discriminate].
    destruct (0 <=? zlen r); [|discriminate]. injection EP as <- <-. reflexivity.
  - rewrite decodeString_sub by assumption. destruct (stringy W b); reflexivity.
  - unfold decodeError. destruct b as [|c t]; gt; [reflexivity|].
    change (index (c :: t) 0) with (Ok c). change (index ErrorKind 0) with (Ok 6). cbn [bind].
    destruct (c =? 6); [|reflexivity]. sl. cbn [bind].
    tail_ok Hb. rewrite decodeString_sub by assumption.
    destruct (stringy W t); reflexivity.
  - unfold decodeBool. destruct b as [|c [|x t]]; gt; try reflexivity.
    change (index (c :: x :: t) 0) with (Ok c). change (index (c :: x :: t) 1) with (Ok x).
    change (index BoolKind 0) with (Ok 7). cbn [bind]. sl. unfold trueBool.
    destruct (c =? 7); [|reflexivity]. destruct (x =? 1); reflexivity.
  - unfold decodeUint8. destruct b as [|c [|x t]]; gt; try reflexivity.
    change (index (c :: x :: t) 0) with (Ok c). change (index (c :: x :: t) 1) with (Ok x).
    change (index Uint8Kind 0) with (Ok 8). cbn [bind]. sl.
    destruct (c =? 8); reflexivity.
  - unfold decodeUint16. rewrite loop16_gloop. change (Z.to_nat VarIntLen16) with 3%nat.
    unfold Uint16Kind. rewrite (scalar_dec 16 3 3 9) by (try assumption; lia). reflexivity.
  - Transparent decodeUint32. unfold decodeUint32. rewrite loop32_gloop.
    change (Z.to_nat VarIntLen32) with 5%nat.
    unfold Uint32Kind. rewrite (scalar_dec 32 5 5 10) by (try assumption; lia). reflexivity.
  - unfold decodeUint64. rewrite loop64_gloop. change (Z.to_nat VarIntLen64) with 10%nat.
    unfold Uint64Kind. rewrite (scalar_dec 64 10 10 11) by (try assumption; lia). reflexivity.
  - unfold decodeInt32. rewrite loopi32_gloop. change (Z.to_nat VarIntLen32) with 5%nat.
    unfold Int32Kind. rewrite (scalar_dec 32 5 5 12) by (try assumption; lia).
    apply scalar_ext. intros x. rewrite fin32_spec by (apply Z.mod_pos_bound; lia). reflexivity.
  - unfold decodeInt64. rewrite loopi64_gloop. change (Z.to_nat VarIntLen64) with 10%nat.
    unfold Int64Kind. rewrite (scalar_dec 64 10 10 13) by (try assumption; lia).
    apply scalar_ext. intros x. rewrite fin64_spec by (apply Z.mod_pos_bound; lia). reflexivity.
  - unfold decodeFloat32. destruct b as [|c [|b1 [|b2 [|b3 [|b4 t]]]]]; gt; try reflexivity.
    change (index (c :: b1 :: b2 :: b3 :: b4 :: t) 0) with (Ok c).
    change (index (c :: b1 :: b2 :: b3 :: b4 :: t) 1) with (Ok b1).
    change (index (c :: b1 :: b2 :: b3 :: b4 :: t) 2) with (Ok b2).
    change (index (c :: b1 :: b2 :: b3 :: b4 :: t) 3) with (Ok b3).
    change (index (c :: b1 :: b2 :: b3 :: b4 :: t) 4) with (Ok b4).
    change (index Float32Kind 0) with (Ok 14). cbn [bind]. sl. cbn [bind].
    destruct (c =? 14); [|reflexivity]. tail_ok Hb.
    rewrite be32_read by assumption. reflexivity.
  - unfold decodeFloat64.
    destruct b as [|c [|b1 [|b2 [|b3 [|b4 [|b5 [|b6 [|b7 [|b8 t]]]]]]]]]; gt; try reflexivity.
    set (l := c :: b1 :: b2 :: b3 :: b4 :: b5 :: b6 :: b7 :: b8 :: t).
    change (index l 0) with (Ok c).
    change (index l 1) with (Ok b1). change (index l 2) with (Ok b2).
    change (index l 3) with (Ok b3). change (index l 4) with (Ok b4).
    change (index l 5) with (Ok b5). change (index l 6) with (Ok b6).
    change (index l 7) with (Ok b7). change (index l 8) with (Ok b8).
    change (index Float64Kind 0) with (Ok 15). cbn [bind]. subst l. sl. cbn [bind].
    destruct (c =? 15); [|reflexivity]. tail_ok Hb.
    rewrite be64_read by assumption. reflexivity.
Qed.
