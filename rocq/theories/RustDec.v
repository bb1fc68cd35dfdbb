(** Proofs about the Rust decoder: the literal model equals a compact function of the input in
    front of the cursor. *)
From Verif Require Import Base Spec SpecProofs Utf8 GoLoop GoSpec RustModel RustSpec.

Definition cur (B t : bytes) : cursor := mkcur B (zlen B - zlen t).
Definition suf (t B : bytes) : Prop := exists pre, B = pre ++ t.
Lemma suf_refl B : suf B B. Proof. exists []; reflexivity. Qed.
Lemma suf_cons x t B : suf (x :: t) B -> suf t B.
Proof. intros [pre ->]. exists (pre ++ [x]). rewrite <- app_assoc. reflexivity. Qed.
Lemma suf_app a t B : suf (a ++ t) B -> suf t B.
Proof. intros [pre ->]. exists (pre ++ a). rewrite <- app_assoc. reflexivity. Qed.
Lemma suf_zdrop n t B : suf t B -> suf (zdrop n t) B.
Proof. intros H. apply (suf_app (ztake n t)). rewrite ztake_zdrop. exact H. Qed.

Lemma read_exact_cur rt e n B t : suf t B -> 0 <= n ->
  read_exact rt e n (cur B t) =
  if n <=? zlen t then ROk (ztake n t) (cur B (zdrop n t))
  else RErr e (cur B (if eof rt then [] else t)).
Proof.
  intros [pre ->] Hn. unfold read_exact, cur. cbn [buf pos].
  pose proof (zlen_nonneg pre). pose proof (zlen_nonneg t). rewrite zlen_app.
  replace (Z.min (zlen pre + zlen t - zlen t) (zlen pre + zlen t)) with (zlen pre) by lia.
  rewrite zdrop_app_exact. destruct (Z.leb_spec n (zlen t)).
  - rewrite zlen_zdrop by lia. f_equal. f_equal; lia.
  - destruct (eof rt); do 2 f_equal. rewrite zlen_nil; lia.
Qed.
Lemma read_u8_cons rt e B x t : suf (x :: t) B -> read_u8 rt e (cur B (x :: t)) = ROk x (cur B t).
Proof.
  intros H. unfold read_u8. rewrite read_exact_cur by (try lia; exact H).
  rewrite zlen_cons. pose proof (zlen_nonneg t). destruct (Z.leb_spec 1 (1 + zlen t)); [|lia].
  reflexivity.
Qed.
Lemma read_u8_nil rt e B : read_u8 rt e (cur B []) = RErr e (cur B []).
Proof.
  unfold read_u8. rewrite read_exact_cur; [|exists B; symmetry; apply app_nil_r|lia].
  rewrite zlen_nil. destruct (Z.leb_spec 1 0); [lia|]. destruct (eof rt); reflexivity.
Qed.
Lemma back_err_cur {A} e n B p t : suf (p ++ t) B -> n = zlen p ->
  @back_err A (cur B t) n e = RErr e (cur B (p ++ t)).
Proof.
  intros [pre ->] ->. unfold back_err, cur. cbn [buf pos]. rewrite !zlen_app.
  pose proof (zlen_nonneg pre). pose proof (zlen_nonneg p).
  destruct (Z.ltb_spec (zlen pre + (zlen p + zlen t) - zlen t) (zlen p)); [lia|].
  do 2 f_equal. lia.
Qed.

(** compact results *)
Inductive ires (A : Type) := ID (r : bytes) (a : A) | IF (r : bytes) (e : DecodingError) | IP.
Arguments ID {A}. Arguments IF {A}. Arguments IP {A}.
Definition ibind {A C} (x : ires A) (f : bytes -> A -> ires C) : ires C :=
  match x with ID r a => f r a | IF r e => IF r e | IP => IP end.
Definition lift {A} (B : bytes) (x : ires A) : rres A :=
  match x with ID r a => ROk a (cur B r) | IF r e => RErr e (cur B r) | IP => RPanic end.

(** generic varint loop *)
Fixpoint rloop (w : Z) (eo ek : DecodingError) (fin : Z -> Z) (rt : runtime) (fuel : nat)
  (c : cursor) (x s : Z) : rres Z :=
  match fuel with
  | O => back_err c 1 ek
  | S fuel =>
      let? (byte, c) := read_u8 rt eo c in
      if byte <? CONTINUATION then ROk (fin (Z.lor x (Z.shiftl byte s mod 2 ^ w))) c
      else rloop w eo ek fin rt fuel c
             (Z.lor x (Z.shiftl (Z.land byte (CONTINUATION - 1)) s mod 2 ^ w)) (s + 7)
  end.
Definition ifin (w u : Z) : Z :=
  let x := sw w (Z.shiftr u 1) in if negb (Z.land u 1 =? 0) then sw w (- sw w (x + 1)) else x.
Lemma loop16_r rt n : forall c x s, loop16 rt n c x s = rloop 16 InvalidU16 InvalidU32 (fun x => x) rt n c x s.
Proof. induction n; intros; [reflexivity|]. cbn [loop16 rloop]. destruct (read_u8 _ _ _); try reflexivity; cbn [rbind]; destruct (_ <? _); [reflexivity|apply IHn]. Qed.
Lemma loop32_r rt n : forall c x s, loop32 rt n c x s = rloop 32 InvalidU32 InvalidU32 (fun x => x) rt n c x s.
Proof. induction n; intros; [reflexivity|]. cbn [loop32 rloop]. destruct (read_u8 _ _ _); try reflexivity; cbn [rbind]; destruct (_ <? _); [reflexivity|apply IHn]. Qed.
Lemma loop64_r rt n : forall c x s, loop64 rt n c x s = rloop 64 InvalidU64 InvalidU32 (fun x => x) rt n c x s.
Proof. induction n; intros; [reflexivity|]. cbn [loop64 rloop]. destruct (read_u8 _ _ _); try reflexivity; cbn [rbind]; destruct (_ <? _); [reflexivity|apply IHn]. Qed.
Lemma loopi32_r rt n : forall c x s, loopi32 rt n c x s = rloop 32 InvalidI32 InvalidI32 (ifin 32) rt n c x s.
Proof. induction n; intros; [reflexivity|]. cbn [loopi32 rloop]. destruct (read_u8 _ _ _); try reflexivity; cbn [rbind]; destruct (_ <? _); [reflexivity|apply IHn]. Qed.
Lemma loopi64_r rt n : forall c x s, loopi64 rt n c x s = rloop 64 InvalidI64 InvalidI64 (ifin 64) rt n c x s.
Proof. induction n; intros; [reflexivity|]. cbn [loopi64 rloop]. destruct (read_u8 _ _ _); try reflexivity; cbn [rbind]; destruct (_ <? _); [reflexivity|apply IHn]. Qed.

Lemma rloop_spec w eo ek fin rt B : 16 <= w ->
  forall fuel p t x s, bytes_ok t -> suf (p :: t) B ->
  0 <= s -> 0 <= x < 2 ^ s -> s + 7 * (Z.of_nat fuel - 1) <= w ->
  rloop w eo ek fin rt fuel (cur B t) x s =
  match scan fuel t with
  | SDone ds r => ROk (fin ((x + dval ds * 2 ^ s) mod 2 ^ w)) (cur B r)
  | SLong => RErr ek (cur B (zdrop (Z.of_nat fuel) (p :: t)))
  | STrunc => RErr eo (cur B [])
  end.
Proof.
  intros Hw. induction fuel as [|fuel IH]; intros p t x s Ht Hsuf Hs Hx Hsw.
  - cbn [rloop scan]. rewrite (back_err_cur ek 1 B [p] t Hsuf eq_refl). reflexivity.
  - cbn [rloop scan]. assert (0 < 2 ^ s) by (apply Z.pow_pos_nonneg; lia).
    assert (Hw8 : 65536 <= 2 ^ w) by (change 65536 with (2 ^ 16); apply Z.pow_le_mono_r; lia).
    destruct t as [|c t].
    + rewrite read_u8_nil. reflexivity.
    + apply bytes_ok_cons in Ht. destruct Ht as [Hc Ht]. unfold isbyte in Hc.
      rewrite read_u8_cons by (apply suf_cons in Hsuf; exact Hsuf). cbn [rbind].
      unfold CONTINUATION. change 0x80 with 128.
      destruct (Z.ltb_spec c 128) as [Hlt|Hge].
      * rewrite lor_shift_wrap by lia. cbn [dval]. rewrite (Z.mod_small c) by lia.
        rewrite Z.mul_0_r, Z.add_0_r. reflexivity.
      * change (128 - 1) with 127. rewrite land_127. assert (Hd : 0 <= c mod 128 < 128) by lia.
        apply suf_cons in Hsuf.
        destruct fuel as [|fuel].
        { cbn [rloop scan]. rewrite (back_err_cur ek 1 B [c] t Hsuf eq_refl). reflexivity. }
        rewrite lor_shift_wrap by lia.
        assert (Hs7 : 2 ^ (s + 7) = 128 * 2 ^ s)
          by (rewrite Z.pow_add_r by lia; change (2 ^ 7) with 128; ring).
        assert (2 ^ (s + 7) <= 2 ^ w) by (apply Z.pow_le_mono_r; lia).
        assert (Hx' : 0 <= x + c mod 128 * 2 ^ s < 2 ^ (s + 7)) by nia.
        rewrite (Z.mod_small (x + _)) by lia.
        rewrite (IH c); [|assumption|exact Hsuf|lia|lia|lia].
        destruct (scan (S fuel) t); try reflexivity.
        -- cbn [dval]. rewrite Hs7. do 3 f_equal. ring.
        -- rewrite (zdrop_cons (Z.of_nat (S (S fuel)))) by lia.
           replace (Z.of_nat (S (S fuel)) - 1) with (Z.of_nat (S fuel)) by lia. reflexivity.
Qed.
Lemma rloop_start w eo ek fin rt B fuel k t : 16 <= w -> bytes_ok t -> suf (k :: t) B ->
  7 * (Z.of_nat fuel - 1) <= w ->
  rloop w eo ek fin rt fuel (cur B t) 0 0 =
  match scan fuel t with
  | SDone ds r => ROk (fin (dval ds mod 2 ^ w)) (cur B r)
  | SLong => RErr ek (cur B (zdrop (Z.of_nat fuel) (k :: t)))
  | STrunc => RErr eo (cur B [])
  end.
Proof.
  intros Hw Ht Hs Hf. rewrite (rloop_spec w eo ek fin rt B Hw fuel k); try assumption; try lia.
  destruct (scan fuel t); try reflexivity. rewrite Z.add_0_l, Z.pow_0_r, Z.mul_1_r. reflexivity.
Qed.

Definition iint (k : Z) (n : nat) (eo ek : DecodingError) (fin : Z -> Z) (t : bytes) : ires Z :=
  match t with
  | [] => IF [] eo
  | c :: u =>
      if c =? k then
        match scan n u with
        | SDone ds r => ID r (fin (dval ds))
        | SLong => IF (zdrop (Z.of_nat n) t) ek
        | STrunc => IF [] eo
        end
      else IF t ek
  end.
Lemma iint_gen (dec : runtime -> cursor -> rres Z) w k n eo ek fin rt B t :
  16 <= w -> 7 * (Z.of_nat n - 1) <= w -> bytes_ok t -> suf t B ->
  (forall c, dec rt c = (let? (kind, c) := read_u8 rt eo c in
                if kind =? k then rloop w eo ek fin rt n c 0 0 else back_err c 1 ek)) ->
  dec rt (cur B t) = lift B (iint k n eo ek (fun d => fin (d mod 2 ^ w)) t).
Proof.
  intros Hw Hn Ht Hs Hd. rewrite Hd. unfold iint. destruct t as [|c u].
  - rewrite read_u8_nil. reflexivity.
  - rewrite read_u8_cons by exact Hs. cbn [rbind]. destruct (Z.eqb_spec c k).
    + rewrite (rloop_start w eo ek fin rt B n c); try assumption.
      * destruct (scan n u); reflexivity.
      * apply bytes_ok_cons in Ht; apply Ht.
    + rewrite (back_err_cur ek 1 B [c] u Hs eq_refl). reflexivity.
Qed.

Definition iu16 := iint 9 3 InvalidU16 InvalidU32 (fun d => d mod 2 ^ 16).
Definition iu32 := iint 10 5 InvalidU32 InvalidU32 (fun d => d mod 2 ^ 32).
Definition iu64 := iint 11 10 InvalidU64 InvalidU32 (fun d => d mod 2 ^ 64).
Definition ii32 := iint 12 5 InvalidI32 InvalidI32 (fun d => unzigzag (d mod 2 ^ 32)).
Definition ii64 := iint 13 10 InvalidI64 InvalidI64 (fun d => unzigzag (d mod 2 ^ 64)).
Lemma iint_ext k n eo ek f g t : (forall x, f x = g x) -> iint k n eo ek f t = iint k n eo ek g t.
Proof. intros H. unfold iint. destruct t; [reflexivity|]. destruct (_ =? _); [|reflexivity]. destruct (scan _ _); try reflexivity. rewrite H; reflexivity. Qed.

Section Dec.
Variables (rt : runtime) (B : bytes).
Lemma u16_i t : bytes_ok t -> suf t B -> decode_u16 rt (cur B t) = lift B (iu16 t).
Proof. intros. apply (iint_gen decode_u16 16 9 3 InvalidU16 InvalidU32 (fun x => x)); try assumption; try lia.
  intros c. unfold decode_u16. change (as_u8 KU16) with 9. destruct (read_u8 _ _ _); cbn [rbind]; try (destruct (_ =? _)); first [apply loop16_r | reflexivity]. Qed.
Lemma u32_i t : bytes_ok t -> suf t B -> decode_u32 rt (cur B t) = lift B (iu32 t).
Proof. intros. apply (iint_gen decode_u32 32 10 5 InvalidU32 InvalidU32 (fun x => x)); try assumption; try lia.
  intros c. unfold decode_u32. change (as_u8 KU32) with 10. destruct (read_u8 _ _ _); cbn [rbind]; try (destruct (_ =? _)); first [apply loop32_r | reflexivity]. Qed.
Lemma u64_i t : bytes_ok t -> suf t B -> decode_u64 rt (cur B t) = lift B (iu64 t).
Proof. intros. apply (iint_gen decode_u64 64 11 10 InvalidU64 InvalidU32 (fun x => x)); try assumption; try lia.
  intros c. unfold decode_u64. change (as_u8 KU64) with 11. destruct (read_u8 _ _ _); cbn [rbind]; try (destruct (_ =? _)); first [apply loop64_r | reflexivity]. Qed.
Lemma i32_i t : bytes_ok t -> suf t B -> decode_i32 rt (cur B t) = lift B (ii32 t).
Proof. intros. unfold ii32. rewrite (iint_ext _ _ _ _ _ (fun d => ifin 32 (d mod 2 ^ 32))).
  2:{ intros x. symmetry. apply (signed_fin 32); lia. }
  apply (iint_gen decode_i32 32 12 5 InvalidI32 InvalidI32 (ifin 32)); try assumption; try lia.
  intros c. unfold decode_i32. change (as_u8 KI32) with 12. destruct (read_u8 _ _ _); cbn [rbind]; try (destruct (_ =? _)); first [apply loopi32_r | reflexivity]. Qed.
Lemma i64_i t : bytes_ok t -> suf t B -> decode_i64 rt (cur B t) = lift B (ii64 t).
Proof. intros. unfold ii64. rewrite (iint_ext _ _ _ _ _ (fun d => ifin 64 (d mod 2 ^ 64))).
  2:{ intros x. symmetry. apply (signed_fin 64); lia. }
  apply (iint_gen decode_i64 64 13 10 InvalidI64 InvalidI64 (ifin 64)); try assumption; try lia.
  intros c. unfold decode_i64. change (as_u8 KI64) with 13. destruct (read_u8 _ _ _); cbn [rbind]; try (destruct (_ =? _)); first [apply loopi64_r | reflexivity]. Qed.
End Dec.

(** payloads *)
Definition ipay (rt : runtime) (e : DecodingError) (text : bool) (t : bytes) : ires bytes :=
  ibind (iu32 t) (fun r n =>
    if vec_ok rt n then
      if n <=? zlen r then
        if negb text || from_utf8 (ztake n r) then ID (zdrop n r) (ztake n r) else IF (zdrop n r) e
      else IF (if eof rt then [] else r) e
    else IP).
Definition ideal (rt : runtime) (q : request) (t : bytes) : ires value :=
  let im {A} (f : A -> value) (x : ires A) := ibind x (fun r a => ID r (f a)) in
  match q with
  | RNil => match t with [] => IF [] InvalidNone | c :: u => if c =? 0 then ID u VNil else IF t InvalidNone end
  | RMap k1 k2 => match t with
      | a :: x :: y :: u => if (a =? 2) && (k1 =? x) && (k2 =? y) then im (fun n => VMap n k1 k2) (iu32 u)
                            else IF (y :: u) InvalidMap
      | _ => IF [] InvalidMap end
  | RSlice k => match t with
      | a :: x :: u => if (a =? 1) && (k =? x) then im (fun n => VSlice n k) (iu32 u) else IF (x :: u) InvalidU32
      | _ => IF [] InvalidArray end
  | RBytes => match t with
      | c :: u => if c =? 4 then im VBytes (ipay rt InvalidBytes false u) else IF t InvalidBytes
      | [] => IF [] InvalidBytes end
  | RString => match t with
      | c :: u => if c =? 5 then im VString (ipay rt InvalidString true u) else IF t InvalidString
      | [] => IF [] InvalidString end
  | RError => match t with
      | a :: x :: u => if (a =? 6) && (x =? 5) then im VError (ipay rt InvalidError true u) else IF t InvalidError
      | _ => IF [] InvalidError end
  | RBool => match t with
      | [] => IF [] InvalidBool
      | c :: u => if c =? 7 then match u with x :: u => ID u (VBool (x =? 1)) | [] => IF [] InvalidBool end
                  else IF t InvalidBool end
  | RU8 => match t with
      | [] => IF [] InvalidU8
      | c :: u => if c =? 8 then match u with x :: u => ID u (VU8 x) | [] => IF [] InvalidU8 end
                  else IF t InvalidU8 end
  | RU16 => im VU16 (iu16 t) | RU32 => im VU32 (iu32 t) | RU64 => im VU64 (iu64 t)
  | RI32 => im VI32 (ii32 t) | RI64 => im VI64 (ii64 t)
  | RF32 => match t with
      | [] => IF [] InvalidF32
      | c :: u => if c =? 14 then if 4 <=? zlen u then ID (zdrop 4 u) (VF32 (be_value (ztake 4 u)))
                                  else IF (if eof rt then [] else u) InvalidF32
                  else IF t InvalidF32 end
  | RF64 => match t with
      | [] => IF [] InvalidF64
      | c :: u => if c =? 15 then if 8 <=? zlen u then ID (zdrop 8 u) (VF64 (be_value (ztake 8 u)))
                                  else IF (if eof rt then [] else u) InvalidF64
                  else IF t InvalidF64 end
  end.

Lemma as_u8_from k : rust_kind k -> as_u8 (kind_from k) = k.
Proof.
  unfold rust_kind. intros H.
  assert (k = 0 \/ k = 1 \/ k = 2 \/ k = 3 \/ k = 4 \/ k = 5 \/ k = 6 \/ k = 7 \/ k = 8 \/ k = 9 \/ k = 10
    \/ k = 11 \/ k = 12 \/ k = 13 \/ k = 14 \/ k = 15 \/ k = 16) as D by lia.
  repeat (destruct D as [-> | D]; [reflexivity|]). subst; reflexivity.
Qed.
Lemma lift_im {A} B (f : A -> value) x : rmap f (lift B x) = lift B (ibind x (fun r a => ID r (f a))).
Proof. destruct x; reflexivity. Qed.

Lemma iu32_facts t : bytes_ok t -> forall r n, iu32 t = ID r n -> 0 <= n < 2 ^ 32 /\ exists p, t = p ++ r.
Proof.
  intros Ht r n H. unfold iu32, iint in H. destruct t as [|c u]; [discriminate|].
  destruct (c =? 10); [|discriminate]. destruct (scan 5 u) eqn:E; try discriminate.
  injection H as <- <-. split; [lia|]. apply scan_shape in E. subst u. exists (c :: ds). reflexivity.
Qed.
(** the shared tail of decode_bytes (text = false), decode_string and decode_error (text = true) *)
Lemma pay_lit rt B e (text : bool) u : bytes_ok u -> suf u B ->
  (let? (size, c) := decode_u32 rt (cur B u) in
   if vec_ok rt size then
     let? (p, c) := read_exact rt e size c in
     if negb text || from_utf8 p then ROk p c else RErr e c
   else RPanic) = lift B (ipay rt e text u).
Proof.
  intros Hu Hs. rewrite u32_i by assumption. unfold ipay. destruct (iu32 u) as [r n|r e'|] eqn:E; cbn [lift rbind ibind]; try reflexivity.
  destruct (iu32_facts u Hu r n E) as [Hn [p ->]]. apply suf_app in Hs.
  destruct (vec_ok rt n); [|reflexivity]. rewrite read_exact_cur by (try lia; exact Hs).
  destruct (n <=? zlen r); cbn [rbind]; [|reflexivity].
  destruct (negb text || from_utf8 (ztake n r)); reflexivity.
Qed.

Theorem decode_ideal rt q B t : rust_req q -> bytes_ok t -> suf t B ->
  decode rt q (cur B t) = lift B (ideal rt q t).
Proof.
  intros Hq Ht Hs. destruct q; cbn [decode].
  - unfold decode_none, ideal. destruct t as [|c u]; [rewrite read_u8_nil; reflexivity|].
    rewrite read_u8_cons by exact Hs. change (as_u8 KNone) with 0. destruct (c =? 0); [reflexivity|].
    pose proof (back_err_cur (A := value) InvalidNone 1 B [c] u Hs eq_refl) as E. unfold back_err in E.
    destruct (_ <? _); [discriminate E|]. exact E.
  - destruct Hq as [H1 H2]. unfold decode_map. rewrite !as_u8_from by assumption.
    change (as_u8 KMap) with 2. unfold ideal.
    destruct t as [|a t]; [rewrite read_u8_nil; reflexivity|]. rewrite read_u8_cons by exact Hs. cbn [rbind].
    apply bytes_ok_cons in Ht; destruct Ht as [_ Ht]. apply suf_cons in Hs.
    destruct t as [|x t]; [rewrite read_u8_nil; reflexivity|]. rewrite read_u8_cons by exact Hs. cbn [rbind].
    apply bytes_ok_cons in Ht; destruct Ht as [_ Ht]. apply suf_cons in Hs.
    destruct t as [|y t]; [rewrite read_u8_nil; reflexivity|]. rewrite read_u8_cons by exact Hs. cbn [rbind].
    destruct ((a =? 2) && (keyKind =? x) && (valueKind =? y)).
    + apply bytes_ok_cons in Ht; destruct Ht as [_ Ht]. apply suf_cons in Hs.
      rewrite u32_i by assumption. apply lift_im.
    + rewrite (back_err_cur InvalidMap 1 B [y] t Hs eq_refl). reflexivity.
  - unfold decode_array. rewrite !as_u8_from by assumption. change (as_u8 KArray) with 1. unfold ideal.
    destruct t as [|a t]; [rewrite read_u8_nil; reflexivity|]. rewrite read_u8_cons by exact Hs. cbn [rbind].
    apply bytes_ok_cons in Ht; destruct Ht as [_ Ht]. apply suf_cons in Hs.
    destruct t as [|x t]; [rewrite read_u8_nil; reflexivity|]. rewrite read_u8_cons by exact Hs. cbn [rbind].
    destruct ((a =? 1) && (kind =? x)).
    + apply bytes_ok_cons in Ht; destruct Ht as [_ Ht]. apply suf_cons in Hs.
      rewrite u32_i by assumption. apply lift_im.
    + rewrite (back_err_cur InvalidU32 1 B [x] t Hs eq_refl). reflexivity.
  - unfold decode_bytes, ideal. change (as_u8 KBytes) with 4.
    destruct t as [|a t]; [rewrite read_u8_nil; reflexivity|]. rewrite read_u8_cons by exact Hs. cbn [rbind].
    destruct (a =? 4).
    + apply bytes_ok_cons in Ht; destruct Ht as [_ Ht]. apply suf_cons in Hs.
      rewrite <- lift_im, <- pay_lit by assumption. f_equal. destruct (decode_u32 rt (cur B t)); try reflexivity.
      cbn [rbind negb orb]. destruct (vec_ok rt a0); [|reflexivity]. destruct (read_exact _ _ _ _); reflexivity.
    + rewrite (back_err_cur InvalidBytes 1 B [a] t Hs eq_refl). reflexivity.
  - unfold decode_string, ideal. change (as_u8 KString) with 5.
    destruct t as [|a t]; [rewrite read_u8_nil; reflexivity|]. rewrite read_u8_cons by exact Hs. cbn [rbind].
    destruct (a =? 5).
    + apply bytes_ok_cons in Ht; destruct Ht as [_ Ht]. apply suf_cons in Hs.
      rewrite <- lift_im, <- pay_lit by assumption. reflexivity.
    + rewrite (back_err_cur InvalidString 1 B [a] t Hs eq_refl). reflexivity.
  - unfold decode_error, ideal. change (as_u8 KString) with 5. change (as_u8 KError) with 6.
    destruct t as [|a t]; [rewrite read_u8_nil; reflexivity|]. rewrite read_u8_cons by exact Hs. cbn [rbind].
    apply bytes_ok_cons in Ht; destruct Ht as [_ Ht]. pose proof (suf_cons _ _ _ Hs) as Hs1.
    destruct t as [|x t]; [rewrite read_u8_nil; reflexivity|]. rewrite read_u8_cons by exact Hs1. cbn [rbind].
    destruct ((a =? 6) && (x =? 5)).
    + apply bytes_ok_cons in Ht; destruct Ht as [_ Ht]. apply suf_cons in Hs1.
      rewrite <- lift_im, <- pay_lit by assumption. reflexivity.
    + rewrite (back_err_cur InvalidError 2 B [a; x] t Hs eq_refl). reflexivity.
  - unfold decode_bool, ideal. change (as_u8 KBool) with 7.
    destruct t as [|a t]; [rewrite read_u8_nil; reflexivity|]. rewrite read_u8_cons by exact Hs. cbn [rbind].
    destruct (a =? 7).
    + apply suf_cons in Hs. destruct t as [|x t]; [rewrite read_u8_nil|rewrite read_u8_cons by exact Hs]; reflexivity.
    + rewrite (back_err_cur InvalidBool 1 B [a] t Hs eq_refl). reflexivity.
  - unfold decode_u8, ideal. change (as_u8 KU8) with 8.
    destruct t as [|a t]; [rewrite read_u8_nil; reflexivity|]. rewrite read_u8_cons by exact Hs. cbn [rbind].
    destruct (a =? 8).
    + apply suf_cons in Hs. destruct t as [|x t]; [rewrite read_u8_nil|rewrite read_u8_cons by exact Hs]; reflexivity.
    + rewrite (back_err_cur InvalidU8 1 B [a] t Hs eq_refl). reflexivity.
  - rewrite u16_i by assumption. apply lift_im.
  - rewrite u32_i by assumption. apply lift_im.
  - rewrite u64_i by assumption. apply lift_im.
  - rewrite i32_i by assumption. apply lift_im.
  - rewrite i64_i by assumption. apply lift_im.
  - unfold decode_f32, ideal. change (as_u8 KF32) with 14.
    destruct t as [|a t]; [rewrite read_u8_nil; reflexivity|]. rewrite read_u8_cons by exact Hs. cbn [rbind].
    destruct (a =? 14).
    + apply suf_cons in Hs. rewrite read_exact_cur by (try lia; exact Hs). destruct (4 <=? zlen t); reflexivity.
    + rewrite (back_err_cur InvalidF32 1 B [a] t Hs eq_refl). reflexivity.
  - unfold decode_f64, ideal. change (as_u8 KF64) with 15.
    destruct t as [|a t]; [rewrite read_u8_nil; reflexivity|]. rewrite read_u8_cons by exact Hs. cbn [rbind].
    destruct (a =? 15).
    + apply suf_cons in Hs. rewrite read_exact_cur by (try lia; exact Hs). destruct (8 <=? zlen t); reflexivity.
    + rewrite (back_err_cur InvalidF64 1 B [a] t Hs eq_refl). reflexivity.
Qed.
