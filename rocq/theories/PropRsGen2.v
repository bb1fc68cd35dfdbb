(** Properties C82-C85: generated Rust code and messages that were cut short, are followed by other data, or were
    written with another version of the schema.  Specification: RsGenSpec.v, EvolveSpec.v. *)
From Coq Require Import String.
From Verif Require Import Base Spec SpecProofs Utf8 GoSpec BufSpec RustModel RustSpec GenTables RsGenModel RsGenSpec EvolveSpec.
From Verif Require Import GenLemmas GenThms GenThms2 GenThms3 RsGenLemmas RsGenRound RsGenAny RsGenThms RustThms RustDec RsTrunc RsMore RsEvolve PropRsGen EvolveThms.
From Verif Require V1Model V2Model.
From Verif Require Import GenModel GenSpec.
Import RustModel RsGenModel RsGenSpec.

(** C82: a message that was cut short is never accepted: whatever was sent (by Rust or Go, see C61 and C58; no nil
    messages), if at least one byte is missing at the end, decoding does not succeed. *)
Theorem c82_truncated : forall rt alloc S m xs c q fuel, rs_compiles S -> go_struct S xs m -> messages_present (GMsg (Some xs)) ->
  cursor_ok rt c -> bytes_of S m xs = rest c ++ q -> q <> [] -> forall o c', rs_decode rt alloc S fuel m c <> RGOk o c'.
Proof. exact rs_truncated. Qed.
Print Assumptions c82_truncated.
(** With enough memory (and 64 bits) that is an error, not a panic. *)
Theorem c82_reported : forall rt alloc S m xs c q fuel, rs_compiles S -> go_struct S xs m -> messages_present (GMsg (Some xs)) ->
  W rt = 64 -> (forall t n, alloc t n = true) ->
  cursor_ok rt c -> bytes_of S m xs = rest c ++ q -> q <> [] ->
  rs_decode rt alloc S fuel m c = RGDeep \/ exists e c', rs_decode rt alloc S fuel m c = RGErr e c'.
Proof.
  intros rt alloc S m xs c q fuel HC HT HM HW HA Hc Hr Hq. pose proof (rs_truncated rt alloc S m xs c q fuel HC HT HM Hc Hr Hq) as X.
  pose proof (rs_any_input rt alloc S m c fuel HC (go_struct_lt _ _ _ HT) Hc) as Y.
  destruct (rs_decode rt alloc S fuel m c) as [o c'|e c'| | |]; [destruct (X o c' eq_refl)|right; eauto| |left; reflexivity|contradiction Y].
  destruct Y as [Y|(t & n & _ & Y)]; [congruence|]. rewrite HA in Y. discriminate Y.
Qed.
Print Assumptions c82_reported.
(** Encoded by Rust, cut anywhere, decoded by Rust *)
Theorem c82_encode_cut_decode : forall rt alloc S m xs c0 p q fuel, rs_compiles S -> rust_struct S xs m ->
  rs_encode S (mkcur [] 0) m xs = Some (Ok c0) -> buf c0 = p ++ q -> q <> [] -> bytes_ok p -> int_ok (W rt) p ->
  forall o c', rs_decode rt alloc S fuel m (mkcur p 0) <> RGOk o c'.
Proof.
  intros rt alloc S m xs c0 p q fuel HC HT HE Hb Hq Hp Hi. pose proof (rs_encode_append S [] m xs HC HT) as E. cbn [app] in E.
  change (mkcur [] (zlen [])) with (mkcur [] 0) in E. rewrite E in HE. injection HE as <-. cbn [buf] in Hb.
  apply (rs_truncated rt alloc S m xs (mkcur p 0) q fuel HC); auto; [apply HT|apply no_nil_present, HT|].
  split; [cbn; pose proof (zlen_nonneg p); lia|]. split; assumption.
Qed.
Print Assumptions c82_encode_cut_decode.
Example c82_example : rs_compiles rex /\ rust_struct rex rex_value 0 /\ messages_present (GMsg (Some rex_value)) /\
  let b := bytes_of rex 0 rex_value in
  rs_decode (mkrt true 64) memory rex 9 0 (mkcur b 0) = RGOk (Some rex_value) (mkcur b (zlen b)) /\
  rs_decode (mkrt true 64) memory rex 9 0 (mkcur (ztake (zlen b - 1) b) 0) = RGErr (Decoding InvalidU32) (mkcur (ztake (zlen b - 1) b) (zlen b - 1)) /\
  rs_decode (mkrt true 64) memory rex 9 0 (mkcur (ztake 1 b) 0) = RGErr (Decoding InvalidI32) (mkcur (ztake 1 b) 1).
Proof.
  split; [exact rex_compiles|]. split; [exact rex_rust|]. split; [apply no_nil_present, rex_rust|]. cbv zeta. split; [vm_compute; reflexivity|].
  split; vm_compute; reflexivity.
Qed.
(** Refuted for what Go sends for a nil message: message 0 { message1 a }, message 1 { }.  Go writes one byte (Nil); if
    that is lost, Rust reads an (empty) message 1. *)
Theorem c82_nil_message_refuted : forall rt alloc, let S := [[ROne (RMsg 1)]; []] in
  go_struct S [GMsg None] 0 /\ bytes_of S 0 [GMsg None] = [0] /\
  rs_decode rt alloc S 2 0 (mkcur [] 0) = RGOk (Some [GMsg (Some [])]) (mkcur [] 0).
Proof.
  intros rt alloc. cbv zeta. split; [vm_compute; repeat split; lia|]. split; [reflexivity|]. destruct rt as [[|] w]; reflexivity.
Qed.
Print Assumptions c82_nil_message_refuted.

(** C83: bytes that follow do not change what is read, if no message type is [vacuous] (made of nothing but empty messages)
    and read_exact moves to the end of the input when it fails (as it does in current standard libraries). *)
Theorem c83_more_input : forall rt alloc S m b q p fuel o c', rs_compiles S -> (forall k, ~ vacuous false (forget S) k) -> eof rt = true ->
  (m < length S)%nat -> 0 <= p <= zlen b -> bytes_ok (b ++ q) -> int_ok (W rt) (b ++ q) ->
  rs_decode rt alloc S fuel m (mkcur b p) = RGOk o c' ->
  rs_decode rt alloc S fuel m (mkcur (b ++ q) p) = RGOk o (mkcur (b ++ q) (pos c')).
Proof.
  intros rt alloc S m b q p fuel o c' HC HV HE L Hp Hb Hi E. destruct (cursor_cur (mkcur b p) Hp) as [Ec Sc]. cbn [buf] in *.
  set (t := rest (mkcur b p)) in *.
  destruct (decode_more rt alloc S b q Hb Hi HC HE HV fuel m t L Sc o c') as (u & Hu & -> & E'); [rewrite <- Ec; exact E|].
  assert (P : forall u, zlen (b ++ q) - zlen (u ++ q) = zlen b - zlen u) by (intros; rewrite !zlen_app; lia).
  unfold cur in E'. rewrite !P in E'. unfold cur at 1. cbn [pos]. rewrite <- E'. f_equal. f_equal. unfold cur in Ec. injection Ec as Ep. exact Ep.
Qed.
Print Assumptions c83_more_input.
Lemma rex_not_vacuous : forall k, ~ vacuous false (forget rex) k.
Proof.
  intros k V. inversion V as [m L Hf]; subst. destruct k as [|[|k]]; [| |cbn in L; lia].
  - destruct (Hf (One (Scalar KInt32)) (or_introl eq_refl)) as [[C _]|(q & C & _)]; discriminate C.
  - destruct (Hf (One (Scalar GenTables.KBytes)) (or_introl eq_refl)) as [[C _]|(q & C & _)]; discriminate C.
Qed.
Example c83_example : rs_compiles rex /\ (forall k, ~ vacuous false (forget rex) k) /\
  let b := 6 :: 5 :: 10 :: 1 :: 200 :: bytes_of rex 1 rex_leaf in
  rs_decode (mkrt true 64) memory rex 9 1 (mkcur b 0) = RGOk (Some rex_leaf) (mkcur b (zlen b)) /\
  rs_decode (mkrt true 64) memory rex 9 1 (mkcur (b ++ [6; 5]) 0) = RGOk (Some rex_leaf) (mkcur (b ++ [6; 5]) (zlen b)).
Proof. split; [exact rex_compiles|]. split; [exact rex_not_vacuous|]. cbv zeta. split; vm_compute; reflexivity. Qed.
(** Refuted for older standard libraries: message 0 { bool a }.  Behind the head of an error whose text is incomplete, a
    message is found in the text; with one more byte the text is complete, and the error is reported. *)
Theorem c83_old_library_refuted : forall alloc, let S := [[ROne (RScalar GenTables.KBool)]] in let rt := mkrt false 64 in
  rs_compiles S /\ (forall k, ~ vacuous false (forget S) k) /\
  rs_decode rt alloc S 1 0 (mkcur [6; 5; 10; 3; 7; 1] 0) = RGOk (Some [GPrim (VBool true)]) (mkcur [6; 5; 10; 3; 7; 1] 6) /\
  rs_decode rt alloc S 1 0 (mkcur ([6; 5; 10; 3; 7; 1] ++ [8]) 0) = RGErr (Remote [7; 1; 8]) (mkcur [6; 5; 10; 3; 7; 1; 8] 7).
Proof.
  intros alloc. cbv zeta. split; [split; [reflexivity|]|].
  { intros m. constructor. intros b Hb. unfold embeds in Hb. destruct m as [|[|m]]; cbn in Hb; repeat (destruct Hb as [Hb|Hb]; [discriminate Hb|]); destruct Hb. }
  split; [|split; reflexivity].
  intros k V. inversion V as [m L Hf]; subst. destruct k as [|k]; [|cbn in L; lia].
  destruct (Hf (One (Scalar GenTables.KBool)) (or_introl eq_refl)) as [[C _]|(q & C & _)]; discriminate C.
Qed.
Print Assumptions c83_old_library_refuted.
(** Refuted for empty messages: a lone byte is swallowed, one of two is not. *)
Theorem c83_vacuous_refuted : forall rt alloc, rs_decode rt alloc [[]] 1 0 (mkcur [7] 0) = RGOk (Some []) (mkcur [7] 1) /\
  rs_decode rt alloc [[]] 1 0 (mkcur ([7] ++ [1]) 0) = RGOk (Some []) (mkcur [7; 1] 0).
Proof. intros [[|] w] alloc; split; reflexivity. Qed.
Print Assumptions c83_vacuous_refuted.

(** C84: sender and receiver with different, [compatible] schemas.  Rust to Rust: the receiver reads the same values if
    it can hold them (an enum may have lost values), and reports an error if not. *)
Theorem c84_rust_to_rust : forall rt alloc S S' corr a b l xs r fuel, rs_compiles S -> rs_compiles S' ->
  compatible (forget S) (forget S') corr -> corr a b ->
  rust_struct S xs a -> anchored_all S a xs -> affordable alloc S' (GMsg (Some xs)) (ROne (RMsg b)) -> (depth (GMsg (Some xs)) <= fuel)%nat ->
  exists o, rs_encode S (mkcur l (zlen l)) a xs = Some (Ok (mkcur (l ++ o) (zlen (l ++ o)))) /\
    forall c, cursor_ok rt c -> rest c = o ++ r ->
      (ready S' (GMsg (Some xs)) (ROne (RMsg b)) -> rs_decode rt alloc S' fuel b c = RGOk (Some xs) (at_rest c r)) /\
      (~ ready S' (GMsg (Some xs)) (ROne (RMsg b)) -> exists e c', rs_decode rt alloc S' fuel b c = RGErr e c').
Proof. exact rs_exchange. Qed.
Print Assumptions c84_rust_to_rust.
Theorem c84_rust_to_go : forall W S S' corr a b l xs old r fuel, rs_compiles S -> compiles (forget S') = true ->
  compatible (forget S) (forget S') corr -> corr a b -> rust_struct S xs a -> anchored_all S a xs -> go_struct S' old b -> bytes_ok r ->
  (depth (GMsg (Some xs)) <= fuel)%nat ->
  exists o, rs_encode S (mkcur l (zlen l)) a xs = Some (Ok (mkcur (l ++ o) (zlen (l ++ o)))) /\
    (int_ok W (o ++ r) -> Decode2 W (forget S') fuel b (Some old) (o ++ r) = Some (GDone r xs)) /\
    (forall K, new_ok (forget S') K -> int_ok W (o ++ r) -> (depth (GMsg (Some xs)) + K <= fuel)%nat ->
       Decode1 W (forget S') fuel b (Some old) (o ++ r) = Some (GDone r xs)).
Proof. exact rs_to_go_exchange. Qed.
Print Assumptions c84_rust_to_go.
Theorem c84_go_to_rust : forall g rt alloc S S' corr a b bf xs r fuel, compiles (forget S) = true -> rs_compiles S' ->
  compatible (forget S) (forget S') corr -> corr a b ->
  go_struct S xs a -> anchored_all S a xs -> affordable alloc S' (GMsg (Some xs)) (ROne (RMsg b)) -> (depth (GMsg (Some xs)) <= fuel)%nat ->
  V2Model.wf bf -> small_bytes (prims (GMsg (Some xs))) ->
  exists bf' l o, V2Model.Bytes bf = Ok l /\ Encode2 g (forget S) bf a (Some xs) = Some (Ok bf') /\ V2Model.Bytes bf' = Ok (l ++ o) /\
    forall c, cursor_ok rt c -> rest c = o ++ r ->
      (ready S' (GMsg (Some xs)) (ROne (RMsg b)) -> rs_decode rt alloc S' fuel b c = RGOk (Some (map settle xs)) (at_rest c r)) /\
      (~ ready S' (GMsg (Some xs)) (ROne (RMsg b)) -> exists e c', rs_decode rt alloc S' fuel b c = RGErr e c').
Proof.
  intros g rt alloc S S' corr a b bf xs r fuel HC HC' HK Hc HT HA HM HF HW HS.
  destruct (encode2_layout g (forget S) bf a xs HC HT HW HS) as (b' & l & E1 & E2 & _ & E3).
  exists b', l, (bytes_of S a xs). split; [exact E1|]. split; [exact E2|]. split; [exact E3|]. intros c Hcur Hr. eapply rs_read_compatible; eassumption.
Qed.
Print Assumptions c84_go_to_rust.
(** message 0 { int32; enum (3 values); map<string, message1> }, message 1 { uint64 } on the one side,
    message 0 { fixed64 }, message 1 { sint32; enum (2 values); map<string, message0> } on the other *)
Definition ex84 : rschema := [[ROne (RScalar KInt32); ROne (REnum 3); RMapOf GenTables.KString (RMsg 1)]; [ROne (RScalar KUint64)]].
Definition ex84' : rschema := [[ROne (RScalar KFixed64)]; [ROne (RScalar KSint32); ROne (REnum 2); RMapOf GenTables.KString (RMsg 0)]].
Definition ex84_corr (a b : nat) : Prop := (a = 0 /\ b = 1)%nat \/ (a = 1 /\ b = 0)%nat.
Definition ex84_value (e : Z) : list gval := [GPrim (VI32 (-3)); GPrim (VU32 e); GMap (Some [(VString [107], GMsg (Some [GPrim (VU64 2)]))])].
Example c84_example : rs_compiles ex84 /\ rs_compiles ex84' /\ compatible (forget ex84) (forget ex84') ex84_corr /\ ex84_corr 0 1 /\
  rust_struct ex84 (ex84_value 1) 0 /\ anchored_all ex84 0 (ex84_value 1) /\ affordable memory ex84' (GMsg (Some (ex84_value 1))) (ROne (RMsg 1)) /\
  ready ex84' (GMsg (Some (ex84_value 1))) (ROne (RMsg 1)) /\ ~ ready ex84' (GMsg (Some (ex84_value 2))) (ROne (RMsg 1)) /\
  (let b e := bytes_of ex84 0 (ex84_value e) in
   rs_decode (mkrt true 64) memory ex84' 5 1 (mkcur (b 1) 0) = RGOk (Some (ex84_value 1)) (mkcur (b 1) (zlen (b 1))) /\
   rs_decode (mkrt true 64) memory ex84' 5 1 (mkcur (b 2) 0) = RGErr (Decoding InvalidEnum) (mkcur (b 2) 4)).
Proof.
  assert (A : forall S, forallb (forallb (rfield_compiles S)) S = true -> (forall m b, ~ embeds S m b) -> rs_compiles S).
  { intros S H1 H2. split; [exact H1|]. intros m. constructor. intros b Hb. destruct (H2 _ _ Hb). }
  assert (C1 : rs_compiles ex84).
  { apply A; [reflexivity|]. intros m b Hb. unfold embeds in Hb. destruct m as [|[|[|m]]]; cbn in Hb; repeat (destruct Hb as [Hb|Hb]; [discriminate Hb|]); destruct Hb. }
  assert (C2 : rs_compiles ex84').
  { apply A; [reflexivity|]. intros m b Hb. unfold embeds in Hb. destruct m as [|[|[|m]]]; cbn in Hb; repeat (destruct Hb as [Hb|Hb]; [discriminate Hb|]); destruct Hb. }
  assert (U : utf8 [107]) by (apply from_utf8_iff; reflexivity).
  assert (R : rust_struct ex84 (ex84_value 1) 0).
  { split; [vm_compute; repeat split; repeat constructor; try discriminate; intros []|]. split; [|vm_compute; tauto].
    cbn. repeat split; repeat (apply Forall_cons; [|]); try apply Forall_nil; try exact I; try lia; exact U. }
  split; [exact C1|]. split; [exact C2|]. split.
  { intros a b [[-> ->]|[-> ->]]; (split; [cbn; lia|]; split; [cbn; lia|]); repeat match goal with |- Forall2 _ _ _ => constructor end; cbn; unfold ex84_corr; auto. }
  split; [left; auto|]. split; [exact R|]. split.
  { unfold anchored_all. apply plain_readable; [|apply R]. intros [|[|m]] fs H; try (injection H as <-; reflexivity). destruct m; discriminate H. }
  split; [cbn; tauto|]. split; [|split; [|split; vm_compute; reflexivity]].
  - cbn. repeat split; repeat (apply Forall_cons; [|]); try apply Forall_nil; try exact I; try lia; exact U.
  - cbn. intros (_ & _ & (H & _) & _). lia.
Qed.

(** C85: added fields.  The old Rust code reads the fields it knows and leaves the added ones unread. *)
Theorem c85_old_reader : forall rt alloc S S' corr m m' ext xs ys fuel, rs_compiles S -> grown (forget S) (forget S') corr m m' ext ->
  in_order (fields_of (forget S) m) ext -> length xs = length (rfields_of S m) -> go_struct S' (xs ++ ys) m' -> anchored_all S m xs ->
  affordable alloc S (GMsg (Some xs)) (ROne (RMsg m)) -> (depth (GMsg (Some xs)) <= fuel)%nat ->
  exists p, bytes_of S' m' (xs ++ ys) = bytes_of S m xs ++ p /\
    forall c r, cursor_ok rt c -> rest c = bytes_of S' m' (xs ++ ys) ++ r ->
      (ready S (GMsg (Some xs)) (ROne (RMsg m)) -> rs_decode rt alloc S fuel m c = RGOk (Some (map settle xs)) (at_rest c (p ++ r))) /\
      (~ ready S (GMsg (Some xs)) (ROne (RMsg m)) -> exists e c', rs_decode rt alloc S fuel m c = RGErr e c').
Proof. exact rs_old_reader. Qed.
Print Assumptions c85_old_reader.
(** The new Rust code never accepts a message without the added fields (alone in its buffer). *)
Theorem c85_new_reader : forall rt alloc S S' corr m m' ext xs fuel c, rs_compiles S' -> (forall k, ~ vacuous false (forget S') k) ->
  grown (forget S) (forget S') corr m m' ext -> in_order (fields_of (forget S) m) ext -> ext <> [] ->
  go_struct S xs m -> messages_present (GMsg (Some xs)) -> cursor_ok rt c -> rest c = bytes_of S m xs ->
  forall o c', rs_decode rt alloc S' fuel m' c <> RGOk o c'.
Proof. exact rs_new_reader. Qed.
Print Assumptions c85_new_reader.
(** message 0 { int32; message1 }, message 1 { string }, extended by { map<string, bool>; message1 } *)
Definition ex85 : rschema := [[ROne (RScalar KInt32); ROne (RMsg 1)]; [ROne (RScalar GenTables.KString)]].
Definition ex85_added : list rfield := [RMapOf GenTables.KString (RScalar GenTables.KBool); ROne (RMsg 1)].
Definition ex85' : rschema := [[ROne (RScalar KInt32); ROne (RMsg 1)] ++ ex85_added; [ROne (RScalar GenTables.KString)]].
Definition ex85_value : list gval := [GPrim (VI32 1); GMsg (Some [GPrim (VString [104])])].
Definition ex85_more : list gval := [GMap (Some []); GMsg (Some [GPrim (VString [])])].
Example c85_example : rs_compiles ex85 /\ rs_compiles ex85' /\ (forall k, ~ vacuous false (forget ex85') k) /\
  grown (forget ex85) (forget ex85') (fun a b => a = 1%nat /\ b = 1%nat) 0 0 (map forget_f ex85_added) /\
  in_order (fields_of (forget ex85) 0) (map forget_f ex85_added) /\
  go_struct ex85' (ex85_value ++ ex85_more) 0 /\ go_struct ex85 ex85_value 0 /\ anchored_all ex85 0 ex85_value /\ messages_present (GMsg (Some ex85_value)) /\
  (let b := bytes_of ex85' 0 (ex85_value ++ ex85_more) in let b0 := bytes_of ex85 0 ex85_value in
   rs_decode (mkrt true 64) memory ex85 4 0 (mkcur b 0) = RGOk (Some ex85_value) (mkcur b (zlen b0)) /\
   rs_decode (mkrt true 64) memory ex85' 4 0 (mkcur b0 0) = RGErr (Decoding InvalidU32) (mkcur b0 (zlen b0))).
Proof.
  assert (A : forall S, (forall m b, embeds S m b -> m = 0%nat /\ b = 1%nat) -> forall m, Acc (fun b a => embeds S a b) m).
  { intros S H2 m. constructor. intros b Hb. destruct (H2 _ _ Hb) as [-> ->]. constructor. intros b' Hb'. destruct (H2 _ _ Hb') as [C _]. discriminate C. }
  split; [split; [reflexivity|apply A]|].
  { intros m b Hb. unfold embeds in Hb. destruct m as [|[|[|m]]]; cbn in Hb; repeat (destruct Hb as [Hb|Hb]; [try discriminate Hb|]); try contradiction; injection Hb as <-; auto. }
  split; [split; [reflexivity|apply A]|].
  { intros m b Hb. unfold embeds in Hb. destruct m as [|[|[|m]]]; cbn in Hb; repeat (destruct Hb as [Hb|Hb]; [try discriminate Hb|]); try contradiction; injection Hb as <-; auto. }
  split.
  { intros k V. inversion V as [m L Hf]; subst. destruct k as [|[|k]]; [| |cbn in L; lia].
    - destruct (Hf (One (Scalar KInt32)) (or_introl eq_refl)) as [[C _]|(q & C & _)]; discriminate C.
    - destruct (Hf (One (Scalar GenTables.KString)) (or_introl eq_refl)) as [[C _]|(q & C & _)]; discriminate C. }
  assert (HT : go_struct ex85 ex85_value 0) by (vm_compute; repeat split; repeat constructor; try discriminate; intros []).
  split.
  { split; [|split; [cbn; lia|split; [cbn; lia|]]].
    - intros a b [-> ->]. split; [cbn; lia|]. split; [cbn; lia|]. repeat (constructor || reflexivity).
    - exists (fields_of (forget ex85) 0). split; [reflexivity|]. repeat (constructor || reflexivity). }
  split; [intros f e [<-|[<-|[]]] [<-|[<-|[]]]; cbn; lia|].
  split; [vm_compute; repeat split; repeat constructor; try discriminate; intros []|]. split; [exact HT|]. split.
  { apply plain_readable; [|exact HT]. intros [|[|m]] fs H; try (injection H as <-; reflexivity). destruct m; discriminate H. }
  split; [cbn; tauto|]. split; vm_compute; reflexivity.
Qed.
