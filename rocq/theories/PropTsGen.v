(** Property theorems: the TypeScript generator (C80, C81).  Specification: TsGenSpec.v, EmitSpec.v. *)
From Coq Require Import String.
From Verif Require Import Base GenTables EmitModel EmitSpec TsGenModel TsGenSpec TsGenThms2.
Local Open Scope string_scope.
Local Open Scope list_scope.

(** C80: the generator succeeds on a request iff no field of it is a (proto2) group ... *)
Theorem c80_generates_iff : forall fs, Forall file_wf fs ->
  ((exists ts, generate fs = Ok ts) <-> forall f x, In f fs -> field_of f x -> type_ok (f_typ x)).
Proof. exact generates_iff. Qed.
Print Assumptions c80_generates_iff.
(** ... every file imports exactly the names it and the files before it use, hence every name it uses ... *)
Theorem c80_imports : forall fs ts, Forall file_wf fs -> generate fs = Ok ts ->
  forall k t, nth_error ts k = Some t -> forall n, In n (imported t) <->
    exists j u, (j <= k)%nat /\ nth_error ts j = Some u /\ In n (used u).
Proof. intros fs ts HW E. exact (proj2 (imports_accumulate fs ts HW E)). Qed.
Print Assumptions c80_imports.
(** ... but those names exist in the library iff all fields of the file are single messages *)
Theorem c80_imports_exist_iff : forall f t, file_wf f -> generate [f] = Ok [t] ->
  ((forall n, In n (imported t) -> In n ts_exports) <-> forall x, field_of f x -> only_message x).
Proof. exact names_exported. Qed.
Print Assumptions c80_imports_exist_iff.

Definition tx_bool := mkfield (text "ok") (text "p.M.ok") false (TScalar KBool).
Definition tx_list := mkfield (text "xs") (text "p.M.xs") true (TScalar KInt64).
Definition tx_map := mkfield (text "m") (text "p.M.m") true (TMap (TScalar KString) (TMsg (text "p.M"))).
Definition tx_self := mkfield (text "s") (text "p.N.s") false (TMsg (text "p.N")).
Definition tx_file := mkfiled [] [mkmsg (text "p.M") false [tx_map; tx_bool; tx_list] [] [mkmsg (text "p.M.MEntry") true [] [] []]].
Definition tx_self_file := mkfiled [] [mkmsg (text "p.N") false [tx_self] [] []].
Lemma tx_ok : file_wf tx_file /\ file_wf tx_self_file.
Proof.
  split; intros x (m & (t & [<-|[]] & Hm) & Hx); inversion Hm as [|? n ? Hn En Hi]; subst.
  - cbn in Hx. destruct Hx as [<-|[<-|[<-|[]]]]; cbn; repeat split; discriminate.
  - cbn in Hn. destruct Hn as [<-|[]]. discriminate En.
  - cbn in Hx. destruct Hx as [<-|[]]; cbn; exact I.
  - cbn in Hn. destruct Hn.
Qed.
(** A file for which no TypeScript compiler accepts the import; and the second file of a request importing
    what only the first one uses *)
Theorem c80_usable_refuted : exists t, file_wf tx_file /\ generate [tx_file] = Ok [t] /\
  In "encodeBoolean" (imported t) /\ ~ In "encodeBoolean" ts_exports.
Proof.
  eexists. split; [apply tx_ok|]. split; [vm_compute; reflexivity|]. split; [vm_compute; tauto|].
  intros B. cbn in B. repeat (destruct B as [B|B]; [discriminate B|]); exact B.
Qed.
Print Assumptions c80_usable_refuted.
Theorem c80_imports_per_file_refuted : exists t u, generate [tx_file; tx_self_file] = Ok [t; u] /\
  used u = [] /\ In "decodeMap" (imported u) /\ generate [tx_self_file] = Ok [mktsfile [] (declared u)].
Proof. eexists _, _. split; [vm_compute; reflexivity|]. split; [reflexivity|]. split; [vm_compute; tauto|reflexivity]. Qed.
Print Assumptions c80_imports_per_file_refuted.
Example c80_example : (forall x, field_of tx_self_file x -> only_message x) /\
  (exists t, generate [tx_file] = Ok [t] /\ In "Kind" (used t) /\ In "encodeArray" (used t) /\ length (declared t) = 1%nat).
Proof.
  split.
  - intros x (m & (t & [<-|[]] & Hm) & Hx). inversion Hm as [|? n ? Hn En Hi]; subst; [|destruct Hn].
    destruct Hx as [<-|[]]. split; [reflexivity|]. exists (text "p.N"). reflexivity.
  - eexists. split; [vm_compute; reflexivity|]. split; [vm_compute; tauto|]. split; [vm_compute; tauto|reflexivity].
Qed.

(** C81: a class per message; encode writes single values, then repeated fields, then messages and maps (the
    order of Go and Rust), decode reads repeated fields, then messages and maps, then single values, and passes
    them to the constructor grouped, while the constructor takes them in the order of declaration ... *)
Theorem c81_field_orders : forall fs ts k f t, Forall file_wf fs -> generate fs = Ok ts ->
  nth_error fs k = Some f -> nth_error ts k = Some t ->
  (forall m, has_message f m -> exists ps e d a, In (TsClass (camel (m_full m)) ps e d a) (declared t) /\ map fst ps = m_fields m) /\
  forall n ps e d a, In (TsClass n ps e d a) (declared t) -> exists m, has_message f m /\ n = camel (m_full m) /\
    map fst ps = m_fields m /\
    map efield e = filter is_single_value (m_fields m) ++ filter is_repeated (m_fields m) ++ filter is_single_message (m_fields m) /\
    map dfield d = filter is_repeated (m_fields m) ++ filter is_single_message (m_fields m) ++ filter is_single_value (m_fields m) /\
    a = filter is_single_value (m_fields m) ++ filter is_repeated (m_fields m) ++ filter is_single_message (m_fields m).
Proof. exact orders. Qed.
Print Assumptions c81_field_orders.
(** ... the statement for each field calls the functions for its kind, the kinds of encode and decode agree, and the
    constructor's parameters have the types of the fields ... *)
Theorem c81_statements : forall fs ts k f t n ps e d a, Forall file_wf fs -> generate fs = Ok ts ->
  nth_error fs k = Some f -> nth_error ts k = Some t -> In (TsClass n ps e d a) (declared t) ->
  e = map write_of (map efield e) /\ d = map read_of (map dfield d) /\ ps = map (fun x => (x, field_type x)) (map fst ps).
Proof. exact statements. Qed.
Print Assumptions c81_statements.
(** ... so decode reads the fields in the order in which encode writes them iff the message has single values
    only, or none at all ... *)
Theorem c81_reads_what_it_writes_iff : forall fs ts k f t n ps e d a, Forall file_wf fs -> generate fs = Ok ts ->
  nth_error fs k = Some f -> nth_error ts k = Some t -> In (TsClass n ps e d a) (declared t) ->
  (map dfield d = map efield e <->
   (forall x, In x (map fst ps) -> rank x = 0%nat) \/ (forall x, In x (map fst ps) -> rank x <> 0%nat)).
Proof.
  intros fs ts k f t n ps e d a HW E Ef Et Hc.
  destruct (proj2 (orders fs ts k f t HW E Ef Et) n ps e d a Hc) as (m & _ & _ & -> & -> & -> & _).
  rewrite <- write_read_iff. split; intros Q; symmetry; exact Q.
Qed.
Print Assumptions c81_reads_what_it_writes_iff.
(** ... and gives the constructor its arguments in the right order iff no field is declared before one of an
    earlier group *)
Theorem c81_constructor_iff : forall fs ts k f t n ps e d a, Forall file_wf fs -> generate fs = Ok ts ->
  nth_error fs k = Some f -> nth_error ts k = Some t -> In (TsClass n ps e d a) (declared t) ->
  (map fst ps = a <-> in_groups (map fst ps)).
Proof.
  intros fs ts k f t n ps e d a HW E Ef Et Hc.
  destruct (proj2 (orders fs ts k f t HW E Ef Et) n ps e d a Hc) as (m & _ & _ & -> & _ & _ & ->). apply constructor_iff.
Qed.
Print Assumptions c81_constructor_iff.
Theorem c81_round_trip_refuted : exists t ps e d a, generate [tx_file] = Ok [t] /\ declared t = [TsClass (text "PM") ps e d a] /\
  map efield e = [tx_bool; tx_list; tx_map] /\ map dfield d = [tx_list; tx_map; tx_bool] /\
  map fst ps = [tx_map; tx_bool; tx_list] /\ a = [tx_bool; tx_list; tx_map].
Proof. eexists _, _, _, _, _. split; [vm_compute; reflexivity|]. split; [vm_compute; reflexivity|]. repeat split. Qed.
Print Assumptions c81_round_trip_refuted.
