(** The literal v2 decoders equal the compact semantics on every byte input. *)
From Verif Require Import Base Spec SpecProofs GoLoop GoIdeal.
From Verif Require V1Dec.
From Verif Require Import V2Model.
Import V1Dec (int_ok_le, sub32_range, sub32_len, payload_string, scalar_ext,
  gtb_cons, gtb_neg, gtb_nil, slice_from_0, slice_from_S, fin32, fin64, fin32_spec, fin64_spec).
Ltac sl := V1Dec.sl.
Ltac gt := V1Dec.gt.
Ltac tail_ok H := V1Dec.tail_ok H.

(** generic ladder with the [return] as a continuation *)
Fixpoint glad {A} (w : Z) (K : Z -> Z -> res A) (E : res A) (fuel : nat) (b : bytes) (i x s : Z)
  : res A :=
  match fuel with
  | O => E
  | S fuel =>
      let! cb := index b i in
      let cb := cb mod 2 ^ w in
      if cb <? 128 then K (i + 1) (Z.lor x (Z.shiftl cb s mod 2 ^ w))
      else glad w K E fuel b (i + 1) (Z.lor x (Z.shiftl (Z.land cb 127) s mod 2 ^ w)) (s + 7)
  end.

Lemma glad_spec {A} w (K : Z -> Z -> res A) E : 16 <= w ->
  forall fuel pre t x s i,
  bytes_ok t -> i = zlen pre ->
  0 <= s -> 0 <= x < 2 ^ s -> s + 7 * (Z.of_nat fuel - 1) <= w ->
  glad w K E fuel (pre ++ t) i x s =
  match scan fuel t with
  | SDone ds r => K (i + zlen ds) ((x + dval ds * 2 ^ s) mod 2 ^ w)
  | SLong => E
  | STrunc => Panic
  end.
Proof.
  intros Hw. induction fuel as [|fuel IH]; intros pre t x s i Ht Hi Hs Hx Hsw.
  - reflexivity.
  - cbn [glad scan]. assert (0 < 2 ^ s) by (apply Z.pow_pos_nonneg; lia).
    assert (Hw8 : 65536 <= 2 ^ w) by (change 65536 with (2 ^ 16); apply Z.pow_le_mono_r; lia).
    pose proof (zlen_nonneg pre).
    destruct t as [|c t].
    + rewrite index_end by (rewrite app_nil_r; lia). reflexivity.
    + apply bytes_ok_cons in Ht. destruct Ht as [Hc Ht]. unfold isbyte in Hc.
      rewrite index_app1 by exact Hi. cbn [bind]. rewrite (Z.mod_small c) by lia.
      destruct (Z.ltb_spec c 128) as [Hlt|Hge].
      * rewrite lor_shift_wrap by lia. rewrite zlen_cons, zlen_nil, Z.add_0_r.
        cbn [dval]. rewrite (Z.mod_small c) by lia. rewrite Z.mul_0_r, Z.add_0_r. reflexivity.
      * rewrite land_127. assert (Hd : 0 <= c mod 128 < 128) by lia.
        destruct fuel as [|fuel].
        { cbn [glad scan]. reflexivity. }
        rewrite lor_shift_wrap by lia.
        assert (Hs7 : 2 ^ (s + 7) = 128 * 2 ^ s)
          by (rewrite Z.pow_add_r by lia; change (2 ^ 7) with 128; ring).
        assert (2 ^ (s + 7) <= 2 ^ w) by (apply Z.pow_le_mono_r; lia).
        assert (Hx' : 0 <= x + c mod 128 * 2 ^ s < 2 ^ (s + 7)) by nia.
        rewrite (Z.mod_small (x + _)) by lia.
        replace (pre ++ c :: t) with ((pre ++ [c]) ++ t) by (rewrite <- app_assoc; reflexivity).
        rewrite IH; [|assumption|rewrite zlen_app, zlen_cons, zlen_nil; lia|lia|lia|lia].
        destruct (scan (S fuel) t); try reflexivity.
        cbn [dval]. rewrite Hs7, zlen_cons. f_equal; [lia|]. f_equal. ring.
Qed.

(** the first level, where the code omits the shift *)
Lemma glad_start {A} w (K : Z -> Z -> res A) E fuel pre t i :
  16 <= w -> bytes_ok t -> i = zlen pre -> 7 * (Z.of_nat fuel) <= w ->
  (let! cb := index (pre ++ t) i in
   let cb := cb mod 2 ^ w in
   if cb <? 128 then K (i + 1) cb
   else glad w K E fuel (pre ++ t) (i + 1) (Z.land cb 127) 7) =
  match scan (S fuel) t with
  | SDone ds r => K (i + zlen ds) (dval ds mod 2 ^ w)
  | SLong => E
  | STrunc => Panic
  end.
Proof.
  intros Hw Ht Hi Hf.
  transitivity (glad w K E (S fuel) (pre ++ t) i 0 0).
  - cbn [glad]. destruct t as [|c t].
    + rewrite index_end by (rewrite app_nil_r; lia). reflexivity.
    + rewrite index_app1 by exact Hi. cbn [bind].
      apply bytes_ok_cons in Ht. destruct Ht as [Hc Ht]. unfold isbyte in Hc.
      assert (Hw8 : 65536 <= 2 ^ w) by (change 65536 with (2 ^ 16); apply Z.pow_le_mono_r; lia).
      rewrite (Z.mod_small c) by lia. rewrite !Z.shiftl_0_r, !Z.lor_0_l.
      rewrite (Z.mod_small c) by lia. destruct (Z.ltb_spec c 128); [reflexivity|].
      rewrite land_127, (Z.mod_small (c mod 128)) by lia. reflexivity.
  - rewrite glad_spec; try assumption; try lia.
    destruct (scan (S fuel) t); try reflexivity.
    rewrite Z.add_0_l, Z.pow_0_r, Z.mul_1_r. reflexivity.
Qed.

Definition Kret (fin : Z -> Z) (b : bytes) (j x : Z) : res (triple Z) :=
  let! r := slice_from b j in Ok (r, fin x, None).
(** the two returns of the signed decoders *)
Definition Ki (S : Z -> Z) (b : bytes) (j x : Z) : res (triple Z) :=
  if negb (Z.land x 1 =? 0) then
    let! r := slice_from b j in Ok (r, S (- S (S (Z.shiftr x 1) + 1)), None)
  else let! r := slice_from b j in Ok (r, S (Z.shiftr x 1), None).

Lemma slice_from_scan c n d t ds r :
  scan n (d :: t) = SDone ds r -> slice_from (c :: d :: t) (1 + zlen ds) = Ok r.
Proof.
  intros E. apply scan_shape in E. rewrite E. change (c :: ds ++ r) with ([c] ++ ds ++ r).
  rewrite app_assoc. rewrite slice_from_ok.
  - replace (1 + zlen ds) with (zlen ([c] ++ ds)) by (rewrite zlen_app, zlen_cons, zlen_nil; lia).
    rewrite zdrop_app_exact. reflexivity.
  - cbn [app]. rewrite zlen_cons, zlen_app. pose proof (zlen_nonneg r). pose proof (zlen_nonneg ds). lia.
Qed.

Lemma scalar_lit w fuel k el (K1 K : bytes -> Z -> Z -> res (triple Z)) (fin : Z -> Z)
  (C : Z -> value) (b : bytes) :
  16 <= w -> bytes_ok b -> 7 * (Z.of_nat fuel) <= w ->
  (forall j x, K1 b j x = Kret fin b j x) ->
  (forall j x, K b j x = Kret fin b j x) ->
  out C (if zlen b >? 1 then
           let! b0 := index b 0 in
           if b0 =? k then
             let! cb := index b 1 in
             let cb := cb mod 2 ^ w in
             if cb <? 128 then K1 b 2 cb
             else glad w (K b) (Ok (b, 0, Some el)) fuel b 2 (Z.land cb 127) 7
           else Ok (b, 0, Some el)
         else Ok (b, 0, Some el)) =
  scalar k (S fuel) (fun n => C (fin (n mod 2 ^ w))) el b.
Proof.
  intros Hw Hb Hf HK1 HK. unfold scalar. destruct b as [|c [|d t]]; gt; try reflexivity.
  change (index (c :: d :: t) 0) with (Ok c). cbn [bind].
  destruct (c =? k); [|reflexivity].
  apply bytes_ok_cons in Hb. destruct Hb as [_ Hb].
  pose proof (glad_start w (K (c :: d :: t)) (Ok (c :: d :: t, 0, Some el)) fuel [c] (d :: t) 1
                Hw Hb eq_refl Hf) as G.
  cbn [app] in G. change (1 + 1) with 2 in G.
  change (index (c :: d :: t) 1) with (Ok d) in *. cbn [bind] in *. cbn zeta in *.
  replace (K1 (c :: d :: t) 2 (d mod 2 ^ w)) with (K (c :: d :: t) 2 (d mod 2 ^ w))
    by (rewrite HK, HK1; reflexivity).
  etransitivity; [apply f_equal; exact G|].
  destruct (scan (S fuel) (d :: t)) eqn:E; [|reflexivity|reflexivity].
  rewrite HK. unfold Kret. erewrite slice_from_scan by eassumption. reflexivity.
Qed.
Lemma Ki32 b j x : Ki s32 b j x = Kret fin32 b j x.
Proof. unfold Ki, Kret, fin32. destruct (negb (Z.land x 1 =? 0)); reflexivity. Qed.
Lemma Ki64 b j x : Ki s64 b j x = Kret fin64 b j x.
Proof. unfold Ki, Kret, fin64. destruct (negb (Z.land x 1 =? 0)); reflexivity. Qed.

Lemma decodeUint16_lit b : decodeUint16 b =
  if zlen b >? 1 then
    let! b0 := index b 0 in
    if b0 =? 9 then
      let! cb := index b 1 in
      let cb := cb mod 2 ^ 16 in
      if cb <? 128 then Kret (fun x => x) b 2 cb
      else glad 16 (Kret (fun x => x) b) (Ok (b, 0, Some EU16)) 2 b 2 (Z.land cb 127) 7
    else Ok (b, 0, Some EU16)
  else Ok (b, 0, Some EU16).
Proof. reflexivity. Qed.
Lemma decodeUint32_lit b : decodeUint32 b =
  if zlen b >? 1 then
    let! b0 := index b 0 in
    if b0 =? 10 then
      let! cb := index b 1 in
      let cb := cb mod 2 ^ 32 in
      if cb <? 128 then Kret (fun x => x) b 2 cb
      else glad 32 (Kret (fun x => x) b) (Ok (b, 0, Some EU32)) 4 b 2 (Z.land cb 127) 7
    else Ok (b, 0, Some EU32)
  else Ok (b, 0, Some EU32).
Proof. reflexivity. Qed.
Lemma decodeUint64_lit b : decodeUint64 b =
  if zlen b >? 1 then
    let! b0 := index b 0 in
    if b0 =? 11 then
      let! cb := index b 1 in
      let cb := cb mod 2 ^ 64 in
      if cb <? 128 then Kret (fun x => x) b 2 cb
      else glad 64 (Kret (fun x => x) b) (Ok (b, 0, Some EU64)) 9 b 2 (Z.land cb 127) 7
    else Ok (b, 0, Some EU64)
  else Ok (b, 0, Some EU64).
Proof. reflexivity. Qed.
Lemma decodeInt32_lit b : decodeInt32 b =
  if zlen b >? 1 then
    let! b0 := index b 0 in
    if b0 =? 12 then
      let! cb := index b 1 in
      let cb := cb mod 2 ^ 32 in
      if cb <? 128 then Kret fin32 b 2 cb
      else glad 32 (Ki s32 b) (Ok (b, 0, Some EI32)) 4 b 2 (Z.land cb 127) 7
    else Ok (b, 0, Some EI32)
  else Ok (b, 0, Some EI32).
Proof. reflexivity. Qed.
Lemma decodeInt64_lit b : decodeInt64 b =
  if zlen b >? 1 then
    let! b0 := index b 0 in
    if b0 =? 13 then
      let! cb := index b 1 in
      let cb := cb mod 2 ^ 64 in
      if cb <? 128 then Kret fin64 b 2 cb
      else glad 64 (Ki s64 b) (Ok (b, 0, Some EI64)) 9 b 2 (Z.land cb 127) 7
    else Ok (b, 0, Some EI64)
  else Ok (b, 0, Some EI64).
Proof. reflexivity. Qed.

Lemma decodeUint32_sub b : bytes_ok b ->
  decodeUint32 b = match sub32 b with
                   | Sok r n => Ok (r, n, None)
                   | Sfail r => Ok (r, 0, Some EU32)
                   | Scrash => Panic
                   end.
Proof.
  intros Hb. rewrite decodeUint32_lit. unfold sub32.
  destruct b as [|c [|d t]]; gt; try reflexivity.
  change (index (c :: d :: t) 0) with (Ok c). cbn [bind].
  destruct (c =? 10); [|reflexivity].
  apply bytes_ok_cons in Hb. destruct Hb as [_ Hb].
  pose proof (glad_start 32 (Kret (fun x => x) (c :: d :: t)) (Ok (c :: d :: t, 0, Some EU32))
     4 [c] (d :: t) 1 ltac:(lia) Hb eq_refl ltac:(lia)) as G.
  cbn [app] in G. change (1 + 1) with 2 in G.
  etransitivity; [exact G|].
  destruct (scan 5 (d :: t)) eqn:E; [|reflexivity|reflexivity].
  unfold Kret. erewrite slice_from_scan by eassumption. reflexivity.
Qed.
Lemma decodeString_sub W b : bytes_ok b ->
  decodeString W b = match (match b with [_] => Pfail b | _ => stringy W b end) with
                     | Pok r p => Ok (r, p, None)
                     | Pfail r => Ok (r, [], Some EString)
                     | Pcrash => Panic
                     end.
Proof.
  intros Hb. unfold decodeString, stringy.
  destruct b as [|c [|d t]]; gt; try reflexivity.
  change (index (c :: d :: t) 0) with (Ok c). unfold StringRawKind. cbn [bind].
  destruct (c =? 5); [|reflexivity]. sl. cbn [bind].
  apply bytes_ok_cons in Hb. destruct Hb as [_ Hb]. rewrite decodeUint32_sub by exact Hb.
  destruct (sub32 (d :: t)) as [r n|r|] eqn:E; cbn [bind]; try reflexivity.
  apply payload_string. apply sub32_range in E. lia.
Qed.

(** inline length of decodeBytes *)
Definition Kb (W : Z) (j x : Z) : res (Z * Z) := Ok (sw W x, j).
Lemma decodeBytes_lit W ret b : decodeBytes W ret b =
  if zlen b >? 2 then
    let! b0 := index b 0 in
    if b0 =? 4 then
      let! b1 := index b 1 in
      if b1 =? 10 then
        let! (size, offset) :=
          (let! cb := index b 2 in
           let cb := cb mod 2 ^ 32 in
           if cb <? 128 then Kb W 3 cb
           else glad 32 (Kb W) (Ok (0, 0)) 4 b 3 (Z.land cb 127) 7) in
        if zlen b - offset >? sw W (size - 1) then
          let! r := slice_from b (size + offset) in
          let! p := slice b offset (size + offset) in
          Ok (r, append_to ret p, None)
        else Ok (b, ([], ret), Some EBytes)
      else Ok (b, ([], ret), Some EBytes)
    else Ok (b, ([], ret), Some EBytes)
  else Ok (b, ([], ret), Some EBytes).
Proof. reflexivity. Qed.

Lemma slice_bytes_ok b i j : 0 <= i <= j -> j <= zlen b -> slice b i j = Ok (ztake (j - i) (zdrop i b)).
Proof. apply slice_ok. Qed.
Lemma slice_panic b i j : j < i \/ zlen b < j -> slice b i j = Panic.
Proof.
  intros H. unfold slice. destruct (Z.ltb_spec i 0); [reflexivity|].
  destruct (Z.ltb_spec j i); [reflexivity|]. destruct (Z.ltb_spec (zlen b) j); [reflexivity|lia].
Qed.

Lemma append_to_fst ret p : fst (append_to ret p) = p.
Proof.
  unfold append_to. destruct (Z.leb_spec (zlen p) (zlen ret)); [|reflexivity]. cbn [fst].
  pose proof (zlen_nonneg ret). apply (ztake_splice_end ret 0 p); lia.
Qed.
Lemma decodeBytes_sub W ret b : bytes_ok b -> int_ok W b ->
  out (fun x => VBytes (fst x)) (decodeBytes W ret b) = ideal2 W None RBytes b.
Proof.
  intros Hb HW. rewrite decodeBytes_lit. cbn [ideal2].
  destruct b as [|a [|x [|d t]]]; gt; try reflexivity.
  set (b := a :: x :: d :: t) in *.
  change (index b 0) with (Ok a). change (index b 1) with (Ok x). cbn [bind].
  destruct (a =? 4); [|reflexivity]. destruct (x =? 10); [|reflexivity]. cbn [andb].
  assert (Ht : bytes_ok (d :: t)) by (subst b; tail_ok Hb; apply bytes_ok_cons; split; assumption).
  pose proof (glad_start 32 (Kb W) (Ok (0, 0)) 4 [a; x] (d :: t) 2
                ltac:(lia) Ht eq_refl ltac:(lia)) as G.
  change ([a; x] ++ d :: t) with b in G. change (2 + 1) with 3 in G.
  match type of G with ?l = _ => match goal with |- out _ (bind ?l' ?f) = _ =>
    change (out (fun x => VBytes (fst x)) (bind l f) = match scan 5 (d :: t) with
            | SDone ds r =>
                match payload W r (dval ds mod 2 ^ 32) with
                | Pok r p => Done r (VBytes p)
                | Pfail _ => Fail b EBytes
                | Pcrash => Crash
                end
            | SLong => Done b (VBytes [])
            | STrunc => Crash
            end) end end.
  rewrite G. destruct (scan 5 (d :: t)) as [ds r| |] eqn:E; cbn [bind]; [| |reflexivity].
  - unfold Kb. cbn [bind].
    apply scan_shape in E. assert (Eb : b = [a; x] ++ ds ++ r) by (subst b; rewrite E; reflexivity).
    assert (El : zlen b = 2 + zlen ds + zlen r).
    { rewrite Eb, zlen_app, zlen_app, !zlen_cons, zlen_nil. lia. }
    pose proof (zlen_nonneg ds). pose proof (zlen_nonneg r).
    set (n := dval ds mod 2 ^ 32). assert (Hn : 0 <= n < 2 ^ 32) by (apply Z.mod_pos_bound; lia).
    unfold payload. replace (zlen b - (2 + zlen ds)) with (zlen r) by lia.
    destruct (Z.gtb_spec (zlen r) (sw W (sw W n - 1))) as [Hg|Hg]; [|reflexivity].
    destruct (Z.leb_spec n (zlen r)) as [Hle|Hle].
    + assert (sw W n = n) as -> by (destruct HW as [HW HW2]; apply sw_small; lia).
      rewrite slice_from_ok, slice_ok by lia. cbn [bind out]. rewrite append_to_fst.
      assert (Hd : zdrop (2 + zlen ds) b = r).
      { rewrite Eb, app_assoc. replace (2 + zlen ds) with (zlen ([a; x] ++ ds))
          by (rewrite zlen_app, !zlen_cons, zlen_nil; lia). apply zdrop_app_exact. }
      rewrite <- zdrop_zdrop by lia. rewrite Hd. do 3 f_equal. lia.
    + assert (Hs : sw W n < 0 \/ zlen r < sw W n).
      { destruct (Z.ltb_spec (sw W n) 0); [left; lia|right].
        destruct HW as [HW HW2]. unfold sw in *.
        destruct HW as [-> | ->].
        - rewrite (Z.mod_small n) in * by lia. change (2 ^ (64 - 1)) with (2 ^ 63) in *.
          destruct (Z.ltb_spec n (2 ^ 63)); lia.
        - rewrite (Z.mod_small n) in * by lia. destruct (Z.ltb_spec n (2 ^ (32 - 1))); lia. }
      destruct Hs as [Hs|Hs].
      * destruct (slice_from b (sw W n + (2 + zlen ds))); [|reflexivity]. cbn [bind].
        rewrite slice_panic by lia. reflexivity.
      * rewrite slice_from_panic by lia. reflexivity.
  - assert (sw W (0 - 1) = -1) as ->.
    { destruct HW as [[-> | ->] _]; reflexivity. }
    rewrite Z.sub_0_r. destruct (Z.gtb_spec (zlen b) (-1)); [|pose proof (zlen_nonneg b); lia].
    rewrite Z.add_0_l, slice_from_ok, slice_ok by (pose proof (zlen_nonneg b); lia). cbn [bind out].
    rewrite append_to_fst. reflexivity.
Qed.

Theorem decode_ideal W ret q b : bytes_ok b -> int_ok W b -> decode W ret q b = ideal2 W None q b.
Proof.
  intros Hb HW. destruct q; cbn [decode].
  - unfold decodeNil. cbn [ideal2 ideal1]. destruct b as [|c t]; gt; [reflexivity|].
    change (index (c :: t) 0) with (Ok c). unfold NilRawKind. cbn [bind].
    destruct (c =? 0); [|reflexivity]. sl. reflexivity.
  - unfold decodeMap. cbn [ideal2 ideal1]. destruct b as [|a [|x [|y [|z t]]]]; gt; try reflexivity.
    set (b := a :: x :: y :: z :: t).
    change (index b 0) with (Ok a). change (index b 1) with (Ok x).
    change (index b 2) with (Ok y). cbn [bind]. unfold MapRawKind.
    destruct (a =? 2); [|reflexivity]. cbn [andb]. destruct (x =? keyKind); [|reflexivity].
    cbn [andb]. destruct (y =? valueKind); [|reflexivity]. subst b. sl. cbn [bind].
    tail_ok Hb. rewrite decodeUint32_sub by (apply bytes_ok_cons; split; assumption).
    destruct (sub32 (z :: t)); reflexivity.
  - unfold decodeSlice. cbn [ideal2 ideal1]. destruct b as [|a [|x [|z t]]]; gt; try reflexivity.
    set (b := a :: x :: z :: t).
    change (index b 0) with (Ok a). change (index b 1) with (Ok x). cbn [bind]. unfold SliceRawKind.
    destruct (a =? 1); [|reflexivity]. cbn [andb]. destruct (x =? kind); [|reflexivity].
    subst b. sl. cbn [bind].
    tail_ok Hb. rewrite decodeUint32_sub by (apply bytes_ok_cons; split; assumption).
    destruct (sub32 (z :: t)); reflexivity.
  - apply decodeBytes_sub; assumption.
  - rewrite decodeString_sub by assumption. cbn [ideal2 ideal1].
    destruct b as [|c [|d t]]; try reflexivity. destruct (stringy W (c :: d :: t)); reflexivity.
  - unfold decodeError. cbn [ideal2]. destruct b as [|c [|d t]]; gt; try reflexivity.
    + destruct (c =? 6); reflexivity.
    + change (index (c :: d :: t) 0) with (Ok c). unfold ErrorRawKind. cbn [bind].
      destruct (c =? 6); [|reflexivity]. sl. cbn [bind].
      apply bytes_ok_cons in Hb. destruct Hb as [_ Hb]. rewrite decodeString_sub by assumption.
      destruct t as [|e t]; [reflexivity|]. destruct (stringy W (d :: e :: t)); reflexivity.
  - unfold decodeBool. cbn [ideal2]. destruct b as [|c [|x t]]; gt; try reflexivity.
    change (index (c :: x :: t) 0) with (Ok c). change (index (c :: x :: t) 1) with (Ok x).
    unfold BoolRawKind, trueBool, falseBool. cbn [bind]. sl.
    destruct (c =? 7); [|reflexivity]. destruct (x =? 1); [reflexivity|].
    destruct (x =? 0); reflexivity.
  - unfold decodeUint8. cbn [ideal2 ideal1]. destruct b as [|c [|x t]]; gt; try reflexivity.
    change (index (c :: x :: t) 0) with (Ok c). change (index (c :: x :: t) 1) with (Ok x).
    unfold Uint8RawKind. cbn [bind]. sl. destruct (c =? 8); reflexivity.
  - rewrite decodeUint16_lit.
    exact (scalar_lit 16 2 9 EU16 (Kret (fun x => x)) (Kret (fun x => x)) (fun x => x) VU16 b
             ltac:(lia) Hb ltac:(lia) ltac:(reflexivity) ltac:(reflexivity)).
  - rewrite decodeUint32_lit.
    exact (scalar_lit 32 4 10 EU32 (Kret (fun x => x)) (Kret (fun x => x)) (fun x => x) VU32 b
             ltac:(lia) Hb ltac:(lia) ltac:(reflexivity) ltac:(reflexivity)).
  - rewrite decodeUint64_lit.
    exact (scalar_lit 64 9 11 EU64 (Kret (fun x => x)) (Kret (fun x => x)) (fun x => x) VU64 b
             ltac:(lia) Hb ltac:(lia) ltac:(reflexivity) ltac:(reflexivity)).
  - rewrite decodeInt32_lit. cbn [ideal2 ideal1].
    rewrite (scalar_lit 32 4 12 EI32 (Kret fin32) (Ki s32) fin32)
      by (try assumption; try lia; try reflexivity; intros; apply Ki32).
    apply scalar_ext. intros x. rewrite fin32_spec by (apply Z.mod_pos_bound; lia). reflexivity.
  - rewrite decodeInt64_lit. cbn [ideal2 ideal1].
    rewrite (scalar_lit 64 9 13 EI64 (Kret fin64) (Ki s64) fin64)
      by (try assumption; try lia; try reflexivity; intros; apply Ki64).
    apply scalar_ext. intros x. rewrite fin64_spec by (apply Z.mod_pos_bound; lia). reflexivity.
  - unfold decodeFloat32. cbn [ideal2 ideal1].
    destruct b as [|c [|b1 [|b2 [|b3 [|b4 t]]]]]; gt; try reflexivity.
    change (index (c :: b1 :: b2 :: b3 :: b4 :: t) 0) with (Ok c).
    change (index (c :: b1 :: b2 :: b3 :: b4 :: t) 1) with (Ok b1).
    change (index (c :: b1 :: b2 :: b3 :: b4 :: t) 2) with (Ok b2).
    change (index (c :: b1 :: b2 :: b3 :: b4 :: t) 3) with (Ok b3).
    change (index (c :: b1 :: b2 :: b3 :: b4 :: t) 4) with (Ok b4).
    unfold Float32RawKind. cbn [bind]. sl. cbn [bind].
    destruct (c =? 14); [|reflexivity]. tail_ok Hb.
    rewrite be32_read by assumption. reflexivity.
  - unfold decodeFloat64. cbn [ideal2 ideal1].
    destruct b as [|c [|b1 [|b2 [|b3 [|b4 [|b5 [|b6 [|b7 [|b8 t]]]]]]]]]; gt; try reflexivity.
    set (l := c :: b1 :: b2 :: b3 :: b4 :: b5 :: b6 :: b7 :: b8 :: t).
    change (index l 0) with (Ok c).
    change (index l 1) with (Ok b1). change (index l 2) with (Ok b2).
    change (index l 3) with (Ok b3). change (index l 4) with (Ok b4).
    change (index l 5) with (Ok b5). change (index l 6) with (Ok b6).
    change (index l 7) with (Ok b7). change (index l 8) with (Ok b8).
    unfold Float64RawKind. cbn [bind]. subst l. sl. cbn [bind].
    destruct (c =? 15); [|reflexivity]. tail_ok Hb.
    rewrite be64_read by assumption. reflexivity.
Qed.
