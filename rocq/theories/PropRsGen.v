(** Properties C61-C67: generated Rust code, and the Rust generator's import analysis.
    Specification: RsGenSpec.v (with GenSpec.v: [layout], [struct_type], [readable], [depth]). *)
From Coq Require Import String.
From Verif Require Import Base Spec SpecProofs Utf8 GoSpec BufSpec RustModel RustSpec GenTables RsGenModel RsGenSpec.
From Verif Require Import GenLemmas GenThms2 RsGenLemmas RsGenRound RsGenAny RsGenThms RsDeps.
From Verif Require V1Model V2Model.
From Verif Require Import GenModel GenSpec.
Import RustModel RsGenModel RsGenSpec.

(** A schema whose Rust code compiles, recursive through a Vec and a HashMap:
      message 0 { int32 a; repeated string b; message1 c; map<string, message1> d; enum(3 values) e; }
      message 1 { bytes x; repeated message0 y; map<string, enum(2)> z; } *)
Definition rex : rschema :=
  [[ROne (RScalar GenTables.KInt32); RMany (RScalar GenTables.KString); ROne (RMsg 1); RMapOf GenTables.KString (RMsg 1); ROne (REnum 3)];
   [ROne (RScalar GenTables.KBytes); RMany (RMsg 0); RMapOf GenTables.KString (REnum 2)]].
Definition rex_leaf : list gval := [GPrim (VBytes [1; 2]); GList []; GMap (Some [(VString [195; 169], GPrim (VU32 1))])].
Definition rex_mid : list gval :=
  [GPrim (VI32 7); GList []; GMsg (Some rex_leaf); GMap (Some []); GPrim (VU32 0)].
Definition rex_value : list gval :=
  [GPrim (VI32 (-1)); GList [GPrim (VString [104]); GPrim (VString [])];
   GMsg (Some [GPrim (VBytes []); GList [GMsg (Some rex_mid)]; GMap (Some [])]);
   GMap (Some [(VString [107], GMsg (Some rex_leaf))]); GPrim (VU32 2)].
Definition memory (_ : rtype) (_ : Z) : bool := true.
Lemma rex_compiles : rs_compiles rex.
Proof.
  split; [reflexivity|]. assert (A1 : forall m, m <> 0%nat -> Acc (fun b a => embeds rex a b) m).
  { intros m Hm. constructor. intros b Hb. unfold embeds in Hb. destruct m as [|[|[|m]]]; [congruence| | |]; cbn in Hb; repeat (destruct Hb as [Hb|Hb]; [discriminate Hb|]); destruct Hb. }
  intros [|m]; [|apply A1; discriminate]. constructor. intros b Hb. apply A1. unfold embeds in Hb. cbn in Hb.
  repeat (destruct Hb as [Hb|Hb]; [try discriminate Hb|]); try contradiction. injection Hb as <-. discriminate.
Qed.
Lemma rex_rust : rust_struct rex rex_value 0.
Proof.
  split; [vm_compute; repeat split; repeat constructor; try discriminate; intros []|]. split; [|vm_compute; tauto].
  assert (U : utf8 [195; 169] /\ utf8 [104] /\ utf8 [] /\ utf8 [107]) by (repeat split; apply from_utf8_iff; reflexivity).
  cbn. repeat split; repeat (apply Forall_cons; [|]); try apply Forall_nil; try exact I; try lia; try apply U; try (exact (proj1 U)).
Qed.
Lemma rex_anchored : anchored_all rex 0 rex_value.
Proof.
  unfold anchored_all. apply plain_readable; [|apply rex_rust].
  intros [|[|m]] fs H; try (injection H as <-; reflexivity). destruct m; discriminate H.
Qed.
Lemma rex_affordable : affordable memory rex (GMsg (Some rex_value)) (ROne (RMsg 0)).
Proof. cbn. tauto. Qed.

(** C61: the generated Rust encode writes at the cursor exactly the bytes the generated Go encode
    appends for the same fields ([bytes_of] is [layout] on the same descriptors, C58). *)
Theorem c61_rust_encode_writes_layout : forall S c m xs, rs_compiles S -> rust_struct S xs m -> 0 <= pos c <= zlen (buf c) ->
  rs_encode S c m xs = Some (Ok (mkcur (put_at (buf c) (pos c) (bytes_of S m xs)) (pos c + zlen (bytes_of S m xs)))).
Proof. exact rs_encode_layout. Qed.
Print Assumptions c61_rust_encode_writes_layout.
Theorem c61_rust_encode_appends : forall S l m xs, rs_compiles S -> rust_struct S xs m ->
  rs_encode S (mkcur l (zlen l)) m xs = Some (Ok (mkcur (l ++ bytes_of S m xs) (zlen (l ++ bytes_of S m xs)))).
Proof. exact rs_encode_append. Qed.
Print Assumptions c61_rust_encode_appends.
Example c61_example : rs_compiles rex /\ rust_struct rex rex_value 0 /\
  bytes_of rex 1 rex_leaf = [4; 10; 2; 1; 2] ++ [1; 3; 10; 0] ++ [2; 5; 10; 10; 1; 5; 10; 2; 195; 169; 10; 1] /\
  rs_encode rex (mkcur [77] 1) 1 rex_leaf = Some (Ok (mkcur (77 :: bytes_of rex 1 rex_leaf) 22)).
Proof. split; [exact rex_compiles|]. split; [exact rex_rust|]. split; reflexivity. Qed.

(** C62: round trip.  A struct written by generated Rust is read back by generated Rust, and the cursor
    ends behind it.  [anchored_all]: no message in it encodes to nothing (true of every struct if each
    message type has a scalar or repeated field, C46); otherwise what follows must be [quiet]. *)
Theorem c62_rust_round_trip : forall rt alloc S c m xs r fuel, rs_compiles S -> rust_struct S xs m ->
  affordable alloc S (GMsg (Some xs)) (ROne (RMsg m)) -> anchored_all S m xs \/ quiet r ->
  cursor_ok rt c -> rest c = bytes_of S m xs ++ r -> (depth (GMsg (Some xs)) <= fuel)%nat ->
  rs_decode rt alloc S fuel m c = RGOk (Some xs) (at_rest c r).
Proof. exact rs_round_trip. Qed.
Print Assumptions c62_rust_round_trip.
(** what was decoded can be encoded, and reads back as the same struct anywhere *)
Theorem c62_decoded_structs_round_trip : forall rt alloc S m c fuel xs c' l, rs_compiles S -> (m < length S)%nat -> cursor_ok rt c ->
  rs_decode rt alloc S fuel m c = RGOk (Some xs) c' ->
  exists o, rs_encode S (mkcur l (zlen l)) m xs = Some (Ok (mkcur (l ++ o) (zlen (l ++ o)))) /\
    forall rt2 alloc2 c2 fuel2, cursor_ok rt2 c2 -> rest c2 = o -> affordable alloc2 S (GMsg (Some xs)) (ROne (RMsg m)) ->
      (depth (GMsg (Some xs)) <= fuel2)%nat -> rs_decode rt2 alloc2 S fuel2 m c2 = RGOk (Some xs) (at_rest c2 []).
Proof. exact rs_reencode. Qed.
Print Assumptions c62_decoded_structs_round_trip.
Example c62_example : rust_struct rex rex_value 0 /\ anchored_all rex 0 rex_value /\
  affordable memory rex (GMsg (Some rex_value)) (ROne (RMsg 0)) /\ depth (GMsg (Some rex_value)) = 4%nat /\
  let b := bytes_of rex 0 rex_value in
  rs_decode (mkrt true 64) memory rex 4 0 (mkcur (9 :: b ++ [1; 2]) 1) = RGOk (Some rex_value) (mkcur (9 :: b ++ [1; 2]) (1 + zlen b)).
Proof.
  split; [exact rex_rust|]. split; [exact rex_anchored|]. split; [exact rex_affordable|]. split; [reflexivity|]. vm_compute. reflexivity.
Qed.
(** Without that condition the property is false: an empty message takes a following byte, or a following
    Nil, or the kind bytes of an error, for its own. *)
Definition rex_empty : rschema := [[]].
Theorem c62_empty_message_refuted : forall rt alloc, rust_struct rex_empty [] 0 /\ bytes_of rex_empty 0 [] = [] /\
  rs_decode rt alloc rex_empty 1 0 (mkcur [7] 0) = RGOk (Some []) (mkcur [7] 1) /\
  rs_decode rt alloc rex_empty 1 0 (mkcur [0] 0) = RGOk None (mkcur [0] 1) /\
  rs_decode rt alloc rex_empty 1 0 (mkcur [6; 5; 9; 1] 0) = RGOk (Some []) (mkcur [6; 5; 9; 1] 2).
Proof.
  intros rt alloc. split; [split; [|split; [split; exact I|exact I]]|destruct rt as [[|] w]; repeat split; reflexivity].
  unfold go_struct, struct_type. cbn. split; [lia|exact I].
Qed.
Print Assumptions c62_empty_message_refuted.

(** C63: generated Go and generated Rust.  What Go wrote, Rust reads if and only if it can hold it
    ([ready]: UTF-8 strings, declared enum values, no nil messages), with nil maps read as empty;
    otherwise it reports an error.  What Rust wrote, Go reads, both versions. *)
Theorem c63_go_v1_to_rust : forall g S b m xs rt alloc fuel r, compiles (forget S) = true -> rs_compiles S -> go_struct S xs m ->
  anchored_all S m xs -> affordable alloc S (GMsg (Some xs)) (ROne (RMsg m)) -> (depth (GMsg (Some xs)) <= fuel)%nat -> V1Model.wf b ->
  exists b' o, Encode1 g (forget S) b m (Some xs) = Some (Ok b') /\ V1Model.Bytes b' = V1Model.Bytes b ++ o /\
    forall c, cursor_ok rt c -> rest c = o ++ r ->
      (ready S (GMsg (Some xs)) (ROne (RMsg m)) -> rs_decode rt alloc S fuel m c = RGOk (Some (map settle xs)) (at_rest c r)) /\
      (~ ready S (GMsg (Some xs)) (ROne (RMsg m)) -> exists e c', rs_decode rt alloc S fuel m c = RGErr e c').
Proof. exact go1_to_rust. Qed.
Print Assumptions c63_go_v1_to_rust.
Theorem c63_go_v2_to_rust : forall g S b m xs rt alloc fuel r, compiles (forget S) = true -> rs_compiles S -> go_struct S xs m ->
  anchored_all S m xs -> affordable alloc S (GMsg (Some xs)) (ROne (RMsg m)) -> (depth (GMsg (Some xs)) <= fuel)%nat -> V2Model.wf b ->
  small_bytes (prims (GMsg (Some xs))) ->
  exists b' l o, V2Model.Bytes b = Ok l /\ Encode2 g (forget S) b m (Some xs) = Some (Ok b') /\ V2Model.Bytes b' = Ok (l ++ o) /\
    forall c, cursor_ok rt c -> rest c = o ++ r ->
      (ready S (GMsg (Some xs)) (ROne (RMsg m)) -> rs_decode rt alloc S fuel m c = RGOk (Some (map settle xs)) (at_rest c r)) /\
      (~ ready S (GMsg (Some xs)) (ROne (RMsg m)) -> exists e c', rs_decode rt alloc S fuel m c = RGErr e c').
Proof. exact go2_to_rust. Qed.
Print Assumptions c63_go_v2_to_rust.
Theorem c63_rust_to_go : forall W S l m xs old r fuel, compiles (forget S) = true -> rs_compiles S -> rust_struct S xs m -> anchored_all S m xs ->
  go_struct S old m -> bytes_ok r -> (depth (GMsg (Some xs)) <= fuel)%nat ->
  exists o, rs_encode S (mkcur l (zlen l)) m xs = Some (Ok (mkcur (l ++ o) (zlen (l ++ o)))) /\
    (int_ok W (o ++ r) -> Decode2 W (forget S) fuel m (Some old) (o ++ r) = Some (GDone r xs)) /\
    (forall K, new_ok (forget S) K -> int_ok W (o ++ r) -> (depth (GMsg (Some xs)) + K <= fuel)%nat ->
       Decode1 W (forget S) fuel m (Some old) (o ++ r) = Some (GDone r xs)).
Proof. exact rust_to_go. Qed.
Print Assumptions c63_rust_to_go.
(** not ready: enum value 3 of 3; string that is not UTF-8; nil message.  Ready: a nil map *)
Example c63_example : compiles (forget rex) = true /\
  (let d := rs_decode (mkrt true 64) memory rex 9 0 in
   let x e b s mp := [GPrim (VI32 1); GList [GPrim (VString b)]; s; mp; GPrim (VU32 e)] in
   let sub := GMsg (Some rex_leaf) in
   let none := GMsg None in
   let input e b s mp := mkcur (bytes_of rex 0 (x e b s mp)) 0 in
   let good := x 2 [65] sub (GMap None) in
   (go_struct rex good 0 /\ ready rex (GMsg (Some good)) (ROne (RMsg 0)) /\ compiles (forget rex) = true /\
    d (input 2 [65] sub (GMap None)) = RGOk (Some (x 2 [65] sub (GMap (Some [])))) (mkcur (bytes_of rex 0 good) (zlen (bytes_of rex 0 good)))) /\
   (go_struct rex (x 3 [65] sub (GMap None)) 0 /\ exists c, d (input 3 [65] sub (GMap None)) = RGErr (Decoding InvalidEnum) c) /\
   (go_struct rex (x 2 [255] sub (GMap None)) 0 /\ exists c, d (input 2 [255] sub (GMap None)) = RGErr (Decoding InvalidString) c) /\
   (go_struct rex (x 2 [65] none (GMap None)) 0 /\ exists c, d (input 2 [65] none (GMap None)) = RGErr (Decoding InvalidStruct) c)).
Proof.
  split; [reflexivity|]. cbv zeta.
  assert (U : utf8 [195; 169] /\ utf8 [65]) by (split; apply from_utf8_iff; reflexivity). destruct U as [U1 U2].
  split; [|split; [|split]].
  - split; [vm_compute; repeat split; repeat constructor; try discriminate; intros []|]. split; [|split; [reflexivity|vm_compute; reflexivity]].
    cbn. repeat split; repeat (apply Forall_cons; [|]); try apply Forall_nil; try exact I; try lia; assumption.
  - split; [vm_compute; repeat split; repeat constructor; try discriminate; intros []|eexists; vm_compute; reflexivity].
  - split; [vm_compute; repeat split; repeat constructor; try discriminate; intros []|eexists; vm_compute; reflexivity].
  - split; [vm_compute; repeat split; repeat constructor; try discriminate; intros []|eexists; vm_compute; reflexivity].
Qed.

(** C64: an error (or Nil) in place of a message is what decode returns; the rest is left unread. *)
Theorem c64_remote_error : forall rt alloc S c m p r fuel, payload_ok p -> utf8 p -> cursor_ok rt c -> rest c = wire (VError p) ++ r ->
  rs_decode rt alloc S (Datatypes.S fuel) m c = RGErr (Remote p) (at_rest c r).
Proof. exact rs_remote_error. Qed.
Print Assumptions c64_remote_error.
Theorem c64_nil_message : forall rt alloc S c m r fuel, cursor_ok rt c -> rest c = 0 :: r ->
  rs_decode rt alloc S (Datatypes.S fuel) m c = RGOk None (at_rest c r).
Proof. exact rs_nil. Qed.
Print Assumptions c64_nil_message.
(** Refuted for errors in general (Go's error texts are any bytes): if the text is not UTF-8, the error is
    skipped, and the message is read from whatever follows. *)
Theorem c64_any_error_refuted : forall rt alloc S c m p t fuel, payload_ok p -> ~ utf8 p -> cursor_ok rt c ->
  rest c = wire (VError p) ++ t -> quiet t ->
  rs_decode rt alloc S fuel m c = rs_decode rt alloc S fuel m (at_rest c t).
Proof. exact rs_bad_error. Qed.
Print Assumptions c64_any_error_refuted.
Example c64_example :
  rs_decode (mkrt true 64) memory rex 2 1 (mkcur (wire (VError [110; 111]) ++ [8; 8]) 0) =
    RGErr (Remote [110; 111]) (mkcur [6; 5; 10; 2; 110; 111; 8; 8] 6) /\
  ~ utf8 [255] /\ quiet (bytes_of rex 1 rex_leaf) /\
  rs_decode (mkrt true 64) memory rex 2 1 (mkcur ([6; 5; 10; 1; 255] ++ bytes_of rex 1 rex_leaf) 0) =
    RGOk (Some rex_leaf) (mkcur ([6; 5; 10; 1; 255] ++ bytes_of rex 1 rex_leaf) 26).
Proof.
  split; [reflexivity|]. split; [|split; [|reflexivity]].
  - intros H. apply from_utf8_iff in H. discriminate H.
  - right. exists 4, 10. eexists. split; [reflexivity|]. lia.
Qed.

(** C65: any input.  The result is a well-typed struct, None or an error; the cursor stays in the
    buffer and moves forward; nothing panics except for memory, or on 32-bit targets. *)
Theorem c65_any_input : forall rt alloc S m c fuel, rs_compiles S -> (m < length S)%nat -> cursor_ok rt c ->
  match rs_decode rt alloc S fuel m c with
  | RGOk o c' => forward c c' /\ (forall xs, o = Some xs -> rust_struct S xs m)
  | RGErr e c' => forward c c' /\ (forall p, e = Remote p -> utf8 p)
  | RGDie => W rt = 32 \/ exists t n, 0 <= n < 2 ^ 32 /\ alloc t n = false
  | RGDeep => True
  | RGBroken => False
  end.
Proof. exact rs_any_input. Qed.
Print Assumptions c65_any_input.
(** the stack needed is at most linear in what is left of the input, with a factor fixed by the schema *)
Theorem c65_stack_bound : forall S, rs_compiles S -> exists H, forall rt alloc m c fuel, (m < length S)%nat -> cursor_ok rt c ->
  Z.of_nat H * (1 + zlen (rest c)) <= Z.of_nat fuel -> rs_decode rt alloc S fuel m c <> RGDeep.
Proof. exact rs_stack_bound. Qed.
Print Assumptions c65_stack_bound.
(** and with enough of it, the result does not depend on how much there is *)
Theorem c65_stack_irrelevant : forall rt alloc S fuel fuel' m c, (fuel <= fuel')%nat ->
  rs_decode rt alloc S fuel m c <> RGDeep -> rs_decode rt alloc S fuel' m c = rs_decode rt alloc S fuel m c.
Proof. exact rs_decode_mono. Qed.
Print Assumptions c65_stack_irrelevant.
Example c65_example : let c := mkcur [4; 10; 0; 1; 3; 10; 1; 12; 2; 10; 9; 1; 5] 0 in
  cursor_ok (mkrt true 64) c /\
  rs_decode (mkrt true 64) memory rex 9 1 c = RGErr (Decoding InvalidEnum) (mkcur (buf c) 11) /\
  rs_decode (mkrt true 64) memory rex 1 1 c = RGDeep.
Proof.
  cbv zeta. split; [|split; vm_compute; reflexivity].
  split; [cbn; lia|]. split; [repeat constructor; unfold isbyte; lia|]. split; [left; reflexivity|reflexivity].
Qed.

(** C66, refuted: that a small input asks for a small amount of memory.  Eight bytes make the generated
    code ask for 2^32 - 1 elements before reading any of them. *)
Theorem c66_memory_bounded_by_input_refuted : forall b w alloc, w = 64 \/ w = 32 ->
  alloc (RScalar GenTables.KString) (2 ^ 32 - 1) = false ->
  exists c, zlen (rest c) = 8 /\ cursor_ok (mkrt b w) c /\
    rs_decode (mkrt b w) alloc [[RMany (RScalar GenTables.KString)]] 1 0 c = RGDie.
Proof.
  intros b w alloc Hw Ha. exists (mkcur [1; 5; 10; 255; 255; 255; 255; 15] 0). split; [reflexivity|].
  split. { split; [cbn; lia|]. split; [repeat constructor; unfold isbyte; lia|]. split; [exact Hw|]. destruct Hw as [-> | ->]; reflexivity. }
  set (c := mkcur [1; 5; 10; 255; 255; 255; 255; 15] 0). cbn [rs_decode].
  assert (E1 : decode_none (mkrt b w) c = ROk false c) by (destruct b; reflexivity). rewrite E1.
  assert (E2 : decode_error (mkrt b w) c = RErr InvalidError c) by (destruct b; reflexivity). rewrite E2.
  cbn [nth_error rs_getFields map forget_f forget_t getFields Repeated IsMap negb andb fkind tkind rs_pass gtry].
  assert (E3 : forall rec, rs_dec_slice (mkrt b w) alloc rec (RMany (RScalar GenTables.KString)) c = RGDie).
  { intros rec. unfold rs_dec_slice. change (rs_kind (rs_getKind (rkind (RScalar GenTables.KString)))) with (Some 5). cbv beta iota.
    assert (E4 : RustModel.decode (mkrt b w) (RSlice 5) c = ROk (VSlice (2 ^ 32 - 1) 5) (mkcur (buf c) 8)) by (destruct b; vm_compute; reflexivity).
    rewrite E4. cbn [qmark gtry]. rewrite Ha. reflexivity. }
  rewrite E3. reflexivity.
Qed.
Print Assumptions c66_memory_bounded_by_input_refuted.
(** What does hold: the amount asked for is announced in the input ([2^32] elements at most), and if
    memory is always found, decoding on a 64-bit target never dies. *)
Theorem c66_only_memory : forall rt alloc S m c fuel, W rt = 64 -> rs_compiles S -> (m < length S)%nat -> cursor_ok rt c ->
  (forall t n, 0 <= n < 2 ^ 32 -> alloc t n = true) -> rs_decode rt alloc S fuel m c <> RGDie.
Proof.
  intros rt alloc S m c fuel HW HC L Hc HA E. pose proof (rs_any_input rt alloc S m c fuel HC L Hc) as X. rewrite E in X.
  destruct X as [X|(t & n & Hn & X)]; [rewrite HW in X; discriminate X|]. rewrite HA in X by exact Hn. discriminate X.
Qed.
Print Assumptions c66_only_memory.

(** C67: the generator's import analysis.  It terminates if and only if no message reachable from the
    file's top-level messages can reach itself again; it imports HashMap if and only if some message
    reachable from a top-level one has a map field, and the enum support if and only if the file declares
    a top-level enum. *)
Theorem c67_terminates_iff_acyclic : forall S f,
  (exists fuel d, DependencyAnalysis S fuel f = Some d) <->
  forall m, In m (top f) -> forall n, reaches S m n -> ~ exists k, mentions S n k /\ reaches S k n.
Proof. exact deps_terminates. Qed.
Print Assumptions c67_terminates_iff_acyclic.
Theorem c67_imports : forall S fuel f d, DependencyAnalysis S fuel f = Some d ->
  (Enums d = true <-> enums f <> 0%nat) /\
  (Maps d = true <-> exists m n, In m (top f) /\ reaches S m n /\ has_map S n).
Proof. exact deps_result. Qed.
Print Assumptions c67_imports.
Theorem c67_stack : forall S f fuel,
  (forall m, In m (top f) -> forall n, reaches S m n -> ~ exists k, mentions S n k /\ reaches S k n) ->
  (2 * length S + 2 <= fuel)%nat -> exists d, DependencyAnalysis S fuel f = Some d.
Proof. exact deps_stack. Qed.
Print Assumptions c67_stack.
(** Refuted: a schema whose generated Rust code would compile, but which the generator never finishes: a
    message with a repeated field of its own type. *)
Theorem c67_generator_terminates_refuted : rs_compiles [[RMany (RMsg 0)]] /\
  forall fuel, DependencyAnalysis [[RMany (RMsg 0)]] fuel (mkfile [0%nat] (fun _ => []) 0 (fun _ => 0%nat)) = None.
Proof.
  split; [split; [reflexivity|]|].
  - intros m. constructor. intros b Hb. unfold embeds in Hb. destruct m as [|[|m]]; cbn in Hb; repeat (destruct Hb as [Hb|Hb]; [discriminate Hb|]); destruct Hb.
  - intros fuel. destruct (DependencyAnalysis [[RMany (RMsg 0)]] fuel (mkfile [0%nat] (fun _ => []) 0 (fun _ => 0%nat))) as [d|] eqn:E; [|reflexivity].
    exfalso. assert (X : exists fuel d, DependencyAnalysis [[RMany (RMsg 0)]] fuel (mkfile [0%nat] (fun _ => []) 0 (fun _ => 0%nat)) = Some d) by eauto.
    pose proof (proj1 (deps_terminates _ _) X 0%nat (or_introl eq_refl) 0%nat (reaches_refl _ _)) as N.
    apply N. exists 0%nat. split; [|constructor]. exists (RMany (RMsg 0)). split; [left; reflexivity|reflexivity].
Qed.
Print Assumptions c67_generator_terminates_refuted.
(** Refuted: that everything the file uses is imported.  A message declared inside another but used
    nowhere has a map: HashMap is not imported.  An enum declared inside a message: no enum support. *)
Theorem c67_imports_complete_refuted :
  (let S := [[ROne (RScalar GenTables.KBool)]; [RMapOf GenTables.KString (RScalar GenTables.KInt32)]] in
   let f := mkfile [0%nat] (fun m => if Nat.eqb m 0 then [1%nat] else []) 0 (fun _ => 0%nat) in
   has_map S 1 /\ In 1%nat (nested f 0) /\ DependencyAnalysis S 3 f = Some (mkdeps false false)) /\
  (let S := [[ROne (REnum 2)]] in
   let f := mkfile [0%nat] (fun _ => []) 0 (fun _ => 1%nat) in
   inner_enums f 0 = 1%nat /\ DependencyAnalysis S 3 f = Some (mkdeps false false)).
Proof.
  split; cbv zeta; split; [|split; [left; reflexivity|reflexivity]|reflexivity|reflexivity].
  exists GenTables.KString, (RScalar GenTables.KInt32). left. reflexivity.
Qed.
Print Assumptions c67_imports_complete_refuted.
Example c67_example : let S := [[ROne (RMsg 1)]; [RMany (RMsg 2)]; [RMapOf GenTables.KString (RMsg 3)]; []] in
  let f := mkfile [0%nat; 1%nat] (fun _ => []) 2 (fun _ => 0%nat) in
  reaches S 0 2 /\ has_map S 2 /\ DependencyAnalysis S 10 f = Some (mkdeps true true).
Proof.
  cbv zeta. split; [|split; [|reflexivity]].
  - eapply reaches_step; [exists (ROne (RMsg 1)); split; [left; reflexivity|reflexivity]|].
    eapply reaches_step; [exists (RMany (RMsg 2)); split; [left; reflexivity|reflexivity]|]. constructor.
  - exists GenTables.KString, (RMsg 3). left. reflexivity.
Qed.
