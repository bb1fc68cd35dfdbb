(** Executing the TypeScript templates on any descriptor, and reading what they write. *)
From Coq Require Import String Ascii.
From Verif Require Import Base Spec GenTables NameModel NameSpec NameThms3 EmitModel EmitSpec EmitThms TsGenModel TsGenSpec TsGenThms GoAst GoEmit TsTplText TplModel TplGo TplExec GoLex GoLexThms TsLex TsLexThms TsTpl.
From Verif Require TplThms.
Import TplThms (some, truth_list, truth_b, truth_nil, sameb, equal_text, equal_kind, equal_card, both_assoc).
Local Open Scope list_scope.

Definition JT : list (string * list node) := Eval vm_compute in ts_parsed.
Lemma ts_parsed_ok : ts_parsed = JT. Proof. vm_compute. reflexivity. Qed.
Notation CALL o := (ts_call_of o).
Notation RUN o := (run get_of (ts_call_of o) JT).
Lemma camel_call o s : ts_call_of o "CamelCase" [VFull s] = Some (VText (camel s)).
Proof. unfold ts_call_of. cbn [String.eqb Ascii.eqb Bool.eqb orb]. rewrite camel_ok. reflexivity. Qed.
Lemma camelfull_call o s : ts_call_of o "CamelCaseFullName" [VFull s] = Some (VText (camel s)).
Proof. unfold ts_call_of. cbn [String.eqb Ascii.eqb Bool.eqb orb]. rewrite camel_ok. reflexivity. Qed.
Lemma lower_call o s : ts_call_of o "LowercaseCamelCaseName" [VName s] = Some (VText (lower o s)). Proof. reflexivity. Qed.
Lemma track_call o s : ts_call_of o "TrackDependency" [VText s] = Some (VText s). Proof. reflexivity. Qed.
Lemma trim_call o s t : ts_call_of o "TrimSuffix" [VText s; VText t] = Some (VText (TrimSuffix s t)). Proof. reflexivity. Qed.
Lemma iterable o {A} (l : list A) : ts_call_of o "MakeIterable" [VInt (zlen l)] = Some (VList (repeat VStruct (length l))).
Proof. unfold ts_call_of. cbn [String.eqb Ascii.eqb Bool.eqb]. unfold zlen. destruct (Z.ltb_spec (Z.of_nat (length l)) 0); [lia|]. rewrite Nat2Z.id. reflexivity. Qed.
Lemma declut_call o k : ts_call_of o "GetLUTDecoder" [VKind k] = Some (VText (text (entry (ts_decodeLUT k)))). Proof. reflexivity. Qed.
Lemma enclut_call o k : ts_call_of o "GetLUTEncoder" [VKind k] = Some (VText (text (entry (ts_encodeLUT k)))). Proof. reflexivity. Qed.
Lemma kindlut_call o k : ts_call_of o "GetKindLUT" [VKind k] = Some (VText (text (entry (ts_kindLUT k)))). Proof. reflexivity. Qed.
Lemma kind_call o k : k <> KGroup -> ts_call_of o "GetKind" [VKind k] = Some (VText (text (entry (ts_getKind k)))).
Proof. intros H. destruct k; try reflexivity. congruence. Qed.

(** ---- Names and types ---- *)
Definition scalar_kind (k : pkind) : Prop := k <> KGroup /\ k <> KEnum /\ k <> KMessage.
Definition tfine (t : ftyp) : Prop :=
  match t with TScalar k => scalar_kind k | TEnum s | TMsg s => wname (camel s) = true | TMap _ _ => False end.
Definition ffine (fd : fieldd) : Prop :=
  wname (f_name fd) = true /\
  match f_typ fd with
  | TMap k v => (exists k', k = TScalar k' /\ scalar_kind k') /\ tfine v
  | t => tfine t
  end.
Definition jn (s : bytes) : bytes := match s with c :: t => (if is_upper c then c + 32 else c) :: t | [] => [] end.
Lemma jname_jn fd : jname fd = jn (f_name fd). Proof. reflexivity. Qed.
Lemma jn_word s : wname s = true -> wname (jn s) = true.
Proof.
  destruct s as [|c t]; [discriminate|]. cbn [wname jn]. intros H. apply andb_true_iff in H. destruct H as (H1 & H2). unfold is_upper. destruct ((65 <=? c) && (c <=? 90)) eqn:E; [|rewrite H1, H2; reflexivity].
  rewrite H2, andb_true_r. unfold letterb. lia.
Qed.
Lemma lower_jn o s : wname s = true -> lower o s = jn s.
Proof.
  destruct s as [|c t]; [discriminate|]. cbn [wname]. intros H. apply andb_true_iff in H. destruct H as (H1 & _). unfold letterb in H1. exact (proj2 (lower_first o c t ltac:(lia))).
Qed.
Lemma js_word t : tfine t -> wname (js_type t) = true.
Proof. destruct t as [k|s|s|? ?]; cbn [tfine js_type]; intros H; [|exact H..|destruct H]. destruct H as (H1 & H2 & H3). destruct k; try congruence; reflexivity. Qed.
Lemma find_tfine many t : tfine t -> ts_findValue many t = Ok (js_type t ++ (if many then text "[]" else [])).
Proof.
  destruct t as [k|s|s|? ?]; cbn [tfine js_type ts_findValue]; intros H; [| | |destruct H].
  - destruct H as (H1 & H2 & H3). destruct k; try congruence; destruct many; reflexivity.
  - rewrite camel_ok. cbn [bind]. destruct many; rewrite ?app_nil_r; reflexivity.
  - rewrite camel_ok. cbn [bind]. destruct many; rewrite ?app_nil_r; reflexivity.
Qed.
Lemma map_fine nm fu many k v : ffine (mkfield nm fu many (TMap k v)) -> tfine k /\ tfine v.
Proof. intros (_ & ((k' & -> & K) & V)). split; [exact K|exact V]. Qed.
Lemma find_call o fd : ffine fd -> ts_call_of o "FindValue" [VField fd] = Some (VText (field_type fd)).
Proof.
  intros F. unfold ts_call_of. cbn [String.eqb Ascii.eqb Bool.eqb]. assert (E : ts_findValue (f_many fd) (f_typ fd) = Ok (field_type fd)); [|rewrite E; reflexivity].
  unfold field_type. destruct fd as [nm fu many t]. cbn [f_typ f_many]. destruct t as [k|s|s|k v]; [apply find_tfine, F..|]. destruct (map_fine _ _ _ _ _ F) as (K & V). cbn [ts_findValue].
  rewrite (find_tfine false k K), (find_tfine false v V). cbn [bind]. rewrite !app_nil_r. reflexivity.
Qed.
(** the types of keys and values *)
Lemma find_key o fd k : tfine k -> ts_call_of o "FindValue" [VField (map_key fd k)] = Some (VText (js_type k)).
Proof. intros F. unfold ts_call_of. cbn [String.eqb Ascii.eqb Bool.eqb map_key f_many f_typ]. rewrite (find_tfine false k F), app_nil_r. reflexivity. Qed.
Lemma find_value o fd k : tfine k -> ts_call_of o "FindValue" [VField (map_value fd k)] = Some (VText (js_type k)).
Proof. intros F. unfold ts_call_of. cbn [String.eqb Ascii.eqb Bool.eqb map_value f_many f_typ]. rewrite (find_tfine false k F), app_nil_r. reflexivity. Qed.
(** text of a type, and its tokens *)
Definition typed (x : bytes) (T : list token) : Prop := exists pre s w, JLex (JNone false) x pre s /\ closable s w /\ T = pre ++ w.
Lemma closable_none : closable (JNone false) []. Proof. left. auto. Qed.
Lemma closable_word v : closable (JWord v) [Id v]. Proof. right. eauto. Qed.
Lemma typed_name w : wname w = true -> typed w [Id w].
Proof. intros H. exists [], (JWord w), [Id w]. split; [apply (JLex_name false), H|]. split; [apply closable_word|reflexivity]. Qed.
Lemma typed_many w : wname w = true -> typed (w ++ text "[]") [Id w; op "["; op "]"].
Proof.
  intros H. exists [Id w; op "["; op "]"], (JNone false), []. split; [|split; [apply closable_none|reflexivity]]. change [Id w; op "["; op "]"] with ([] ++ [Id w; op "["; op "]"]).
  eapply JLex_app; [apply (JLex_name false), H|]. apply JLex_flush; [reflexivity|jlex_lit].
Qed.
Lemma typed_ffine fd : ffine fd -> typed (field_type fd) (j_ftype fd).
Proof.
  intros (_ & H). unfold field_type, j_ftype. assert (P : forall t, tfine t -> typed (js_type t ++ (if f_many fd then text "[]" else [])) ([Id (js_type t)] ++ (if f_many fd then [op "["; op "]"] else []))).
  { intros t F. apply js_word in F. destruct (f_many fd); [apply (typed_many (js_type t)), F|rewrite app_nil_r; apply typed_name, F]. }
  destruct (f_typ fd) as [k|s|s|k v]; [apply (P (TScalar k)), H|apply (P (TEnum s)), H|apply (P (TMsg s)), H|].
  destruct H as ((k' & -> & K) & V). assert (K1 := js_word (TScalar k') K). assert (V1 := js_word v V). cbn [j_type]. rewrite app_nil_r. set (a := js_type (TScalar k')) in *. set (b := js_type v) in *.
  exists [id "Map"; op "<"; Id a; op ","; Id b; op ">"], (JNone false), []. split; [|split; [apply closable_none|reflexivity]].
  change [id "Map"; op "<"; Id a; op ","; Id b; op ">"] with ([id "Map"; op "<"] ++ [] ++ [Id a; op ","] ++ [] ++ [Id b; op ">"]).
  eapply JLex_app; [jlex_lit|]. eapply JLex_app; [apply (JLex_name false), K1|]. eapply JLex_app; [apply JLex_flush; [reflexivity|jlex_lit]|]. eapply JLex_app; [apply (JLex_name false), V1|]. apply JLex_flush; [reflexivity|jlex_lit].
Qed.
(** strings.TrimSuffix *)
Lemma trim_many x : TrimSuffix (x ++ text "[]") (text "[]") = x.
Proof.
  unfold TrimSuffix. rewrite app_length. cbn [length text String.length]. change (length (text "[]")) with 2%nat. replace (length x + 2 - 2)%nat with (length x) by lia. rewrite skipn_app, skipn_all, Nat.sub_diag. cbn [app skipn].
  destruct (list_eq_dec Z.eq_dec (text "[]") (text "[]")) as [_|N]; [|congruence]. rewrite firstn_app, firstn_all, Nat.sub_diag. cbn [firstn]. apply app_nil_r.
Qed.
Lemma trim_word x : wname x = true -> TrimSuffix x (text "[]") = x.
Proof.
  intros H. unfold TrimSuffix. destruct (list_eq_dec Z.eq_dec (skipn (length x - length (text "[]")) x) (text "[]")) as [E|]; [|reflexivity]. exfalso.
  assert (A := wname_chars _ H). assert (B : In 91 x). { rewrite <- (firstn_skipn (length x - length (text "[]")) x). apply in_or_app. right. rewrite E. left. reflexivity. }
  rewrite forallb_forall in A. specialize (A 91 B). discriminate A.
Qed.
(** ---- Groups of fields ---- *)
Definition value_text (fd : fieldd) : bytes :=
  text (entry (ts_encodeLUT (kind_of (f_typ fd)))) ++ text "(encoded, this." ++ jname fd ++ (if is_kind (kind_of (f_typ fd)) KEnum then text " as number)" else text ")").
Lemma codes fd : ffine fd -> match f_typ fd with
  | TMsg _ | TMap _ _ => ts_encodeLUT (kind_of (f_typ fd)) = None /\ ts_decodeLUT (kind_of (f_typ fd)) = None
  | _ => ts_encodeLUT (kind_of (f_typ fd)) <> None /\ ts_decodeLUT (kind_of (f_typ fd)) <> None end.
Proof.
  intros (_ & H). destruct (f_typ fd) as [k|s|s|k v]; cbn; [|split; congruence|split; reflexivity|split; reflexivity]. destruct H as (H1 & H2 & H3). destruct k; try congruence; split; discriminate.
Qed.
Lemma decoding_groups fs : Forall ffine fs -> forall ms ss os,
  ts_decoding_fields fs ms ss os = Some (ms ++ filter is_single_message fs, ss ++ filter is_repeated fs, os ++ filter is_single_value fs).
Proof.
  induction 1 as [|fd fs H F IH]; intros ms ss os; [cbn; rewrite !app_nil_r; reflexivity|]. cbn [ts_decoding_fields filter]. assert (C := codes fd H). unfold is_single_message at 1, is_single_value at 1. change (TsGenModel.is_map fd) with (is_map fd).
  change (is_repeated fd) with (f_many fd && negb (is_map fd)).
  destruct (f_many fd && negb (is_map fd)) eqn:M; cbn [negb andb]; [rewrite IH, <- app_assoc; reflexivity|].
  destruct (f_typ fd) as [k|s|s|k v]; cbn [kind_of] in *; destruct C as (C1 & C2).
  - destruct (ts_decodeLUT k); [|congruence]. rewrite IH, <- app_assoc. reflexivity.
  - destruct (ts_decodeLUT KEnum); [|congruence]. rewrite IH, <- app_assoc. reflexivity.
  - rewrite C2, IH, <- app_assoc. reflexivity.
  - rewrite C2, IH, <- app_assoc. reflexivity.
Qed.
Lemma decoding_call o fs : Forall ffine fs -> ts_call_of o "GetDecodingFields" [VFieldList fs] =
  Some (VRec [("MessageFields"%string, VList (map VField (filter is_single_message fs))); ("SliceFields"%string, VList (map VField (filter is_repeated fs)));
              ("Other"%string, VList (map VField (filter is_single_value fs)))]).
Proof. intros F. unfold ts_call_of. cbn [String.eqb Ascii.eqb Bool.eqb]. rewrite decoding_groups by exact F. reflexivity. Qed.
Lemma value_ok o fd e : wname (f_name fd) = true -> ts_encodeLUT (kind_of (f_typ fd)) = Some e -> ts_sprintf_value o e (kind_of (f_typ fd)) (f_name fd) = value_text fd.
Proof. intros N E. unfold ts_sprintf_value, value_text. rewrite E, lower_jn by exact N. cbn [entry]. rewrite jname_jn. destruct (is_kind (kind_of (f_typ fd)) KEnum); rewrite <- ?app_assoc; reflexivity. Qed.
Lemma encoding_groups o fs : Forall ffine fs -> forall ms ss vs,
  ts_encoding_fields o fs ms ss vs = Some (ms ++ filter is_single_message fs, ss ++ filter is_repeated fs, vs ++ map value_text (filter is_single_value fs)).
Proof.
  induction 1 as [|fd fs H F IH]; intros ms ss os; [cbn; rewrite !app_nil_r; reflexivity|]. cbn [ts_encoding_fields filter]. assert (C := codes fd H). assert (V := fun e => value_ok o fd e (proj1 H)). unfold is_single_message at 1, is_single_value at 1. change (TsGenModel.is_map fd) with (is_map fd).
  change (is_repeated fd) with (f_many fd && negb (is_map fd)).
  destruct (f_many fd && negb (is_map fd)) eqn:M; cbn [negb andb]; [rewrite IH, <- app_assoc; reflexivity|].
  destruct (f_typ fd) as [k|s|s|k v]; cbn [kind_of] in *; destruct C as (C1 & C2).
  - destruct (ts_encodeLUT k); [|congruence]. rewrite IH, <- app_assoc, (V s eq_refl). reflexivity.
  - destruct (ts_encodeLUT KEnum) as [e|]; [|congruence]. rewrite IH, <- app_assoc, (V e eq_refl). reflexivity.
  - rewrite C1, IH, <- app_assoc. reflexivity.
  - rewrite C1, IH, <- app_assoc. reflexivity.
Qed.
Lemma encoding_call o fs : Forall ffine fs -> ts_call_of o "GetEncodingFields" [VFieldList fs] =
  Some (VRec [("MessageFields"%string, VList (map VField (filter is_single_message fs))); ("SliceFields"%string, VList (map VField (filter is_repeated fs)));
              ("Values"%string, VList (map (fun fd => VText (value_text fd)) (filter is_single_value fs)))]).
Proof. intros F. unfold ts_call_of. cbn [String.eqb Ascii.eqb Bool.eqb]. rewrite encoding_groups by exact F. cbn [option_map app]. rewrite map_map. reflexivity. Qed.

(** ---- Library names ---- *)
Record words (k : pkind) (dw ew kw : bytes) : Prop := {
  w_dec : text (entry (ts_decodeLUT k)) = dw; w_decn : wname dw = true; w_decs : sameb dw (text "") = false;
  w_enc : text (entry (ts_encodeLUT k)) = ew; w_encn : wname ew = true; w_encs : sameb ew (text "") = false;
  w_kind : text (entry (ts_getKind k)) = text "Kind." ++ kw; w_kindn : wname kw = true; w_kindc : j_kind (entry (ts_getKind k)) = [id "Kind"; op "."; Id kw];
  w_lut : text (entry (ts_kindLUT k)) = text "Kind." ++ kw; w_lutc : j_kind (entry (ts_kindLUT k)) = [id "Kind"; op "."; Id kw]; w_some : ts_kindLUT k <> None
}.
Lemma scalar_has k : scalar_kind k \/ k = KEnum -> exists dw ew kw, words k dw ew kw.
Proof. intros H. destruct k; try (exfalso; destruct H as [(H1 & H2 & H3)|H]; congruence); (do 3 eexists; split; first [reflexivity|discriminate]). Qed.
Lemma scalar_not k : scalar_kind k -> (kind_number k =? 11) = false /\ (kind_number k =? 14) = false /\ is_kind k KMessage = false /\ is_kind k KEnum = false.
Proof. intros (H1 & H2 & H3). destruct k; try congruence; auto. Qed.

(** ---- Writing ---- *)
Definition writes (r : option bytes) (s : jpart) (ts : list token) (s' : jpart) : Prop := exists l, r = Some l /\ JLex s l ts s'.
Lemma run_S o T n name v : run get_of (CALL o) T (S n) name v =
  match find_str name T with Some l => exec_list get_of (CALL o) (exec get_of (CALL o) (run get_of (CALL o) T n)) v [("$"%string, v)] l | None => None end.
Proof. reflexivity. Qed.
Lemma writes_eq r s t t' s1 s1' : writes r s t s1 -> t = t' -> s1 = s1' -> writes r s t' s1'.
Proof. intros H <- <-. exact H. Qed.
Lemma writes_some l s t s1 : JLex s l t s1 -> writes (Some l) s t s1. Proof. intros H. exists l. auto. Qed.
Lemma writes_both a b s t1 s1 t2 s2 : writes a s t1 s1 -> writes b s1 t2 s2 -> writes (both a b) s (t1 ++ t2) s2.
Proof. intros (l1 & -> & H1) (l2 & -> & H2). exists (l1 ++ l2). split; [reflexivity|]. eapply JLex_app; eassumption. Qed.
Lemma writes_nil s : writes (Some []) s [] s. Proof. apply writes_some, JLex_nil. Qed.
Lemma loop_writes {A} (body : Z -> tval -> option bytes) (f : A -> tval) (g : A -> list token) s (l : list A) : forall i,
  (forall j a, In a l -> writes (body j (f a)) s (g a) s) -> writes (loop body i (map f l)) s (flat_map g l) s.
Proof.
  induction l as [|a l IH]; intros i H; [apply writes_nil|]. cbn [map loop flat_map]. eapply writes_both; [apply H; left; reflexivity|]. apply IH. intros j b Hb. apply H. right. exact Hb.
Qed.
Lemma loop_nth_writes {A} (body : Z -> tval -> option bytes) (x : tval) (g : A -> list token) s (l : list A) : forall i,
  (forall j a, nth_error l j = Some a -> writes (body (i + Z.of_nat j) x) s (g a) s) -> writes (loop body i (repeat x (length l))) s (flat_map g l) s.
Proof.
  induction l as [|a l IH]; intros i H; [apply writes_nil|]. cbn [length repeat loop flat_map]. eapply writes_both; [specialize (H 0%nat a eq_refl); rewrite Z.add_0_r in H; exact H|].
  apply IH. intros j b Hj. specialize (H (S j) b Hj). replace (i + 1 + Z.of_nat j) with (i + Z.of_nat (S j)) by lia. exact H.
Qed.
(** a loop whose rounds begin with a line break, each from wherever the one before it ended *)
Lemma loop_breaks {A} (body : Z -> tval -> option bytes) (f : A -> tval) (g : A -> list token) (l : list A) : forall i b,
  (forall j b a, In a l -> writes (body j (f a)) (JNone b) (g a) (JNone false)) -> exists b', writes (loop body i (map f l)) (JNone b) (flat_map g l) (JNone b').
Proof.
  induction l as [|a l IH]; intros i b H; [exists b; apply writes_nil|]. cbn [map loop flat_map]. destruct (IH (i + 1) false) as (b' & W); [intros j b0 c Hc; apply H; right; exact Hc|].
  exists b'. eapply writes_both; [apply H; left; reflexivity|exact W].
Qed.
(** ---- Tactics ---- *)
Arguments TplThms.sameb : simpl never.
Arguments equal : simpl never.
Arguments text : simpl never.
Arguments ts_call_of : simpl never.
Arguments loop : simpl never.
Arguments zlen : simpl never.
Arguments camel : simpl never.
Arguments lower : simpl never.
Arguments jn : simpl never.
Arguments jname : simpl never.
Arguments field_type : simpl never.
Arguments js_type : simpl never.
Arguments j_type : simpl never.
Arguments j_ftype : simpl never.
Arguments j_kind : simpl never.
Arguments TrimSuffix : simpl never.
Arguments run : simpl never.
Arguments both : simpl never.
Arguments truth : simpl never.
Arguments entry : simpl nomatch.
Arguments kind_of : simpl nomatch.
Arguments ts_getKind : simpl nomatch.
Ltac eqs := repeat match goal with |- context [sameb (text ?a) (text ?b)] => let r := eval vm_compute in (sameb (text a) (text b)) in match r with true => idtac | false => idtac end; change (sameb (text a) (text b)) with r end.
Ltac known := first [assumption|reflexivity|rewrite <- ?app_assoc; first [assumption|reflexivity]].
Ltac side := first [exact I|assumption|discriminate].
Ltac step1 :=
  eqs;
  try match goal with |- context [equal (VText _) (VText _)] => rewrite !equal_text end;
  try match goal with |- context [equal (VKind _) _] => rewrite !equal_kind end;
  try match goal with |- context [equal (VCard _) _] => rewrite !equal_card end;
  try match goal with |- context [ts_call_of _ "CamelCase" [VFull _]] => rewrite !camel_call end;
  try match goal with |- context [ts_call_of _ "CamelCaseFullName" [VFull _]] => rewrite !camelfull_call end;
  try match goal with |- context [ts_call_of _ _ [VName _]] => rewrite !lower_call end;
  try match goal with |- context [ts_call_of _ _ [VText _]] => rewrite !track_call end;
  try match goal with |- context [ts_call_of _ _ [VText _; VText _]] => rewrite !trim_call end;
  try match goal with |- context [ts_call_of _ _ [VInt (zlen _)]] => rewrite !iterable end;
  try match goal with |- context [ts_call_of _ "GetLUTDecoder" [VKind _]] => rewrite !declut_call end;
  try match goal with |- context [ts_call_of _ "GetLUTEncoder" [VKind _]] => rewrite !enclut_call end;
  try match goal with |- context [ts_call_of _ "GetKindLUT" [VKind _]] => rewrite !kindlut_call end;
  try match goal with |- context [truth (VTruth _)] => rewrite !truth_b end;
  try match goal with |- context [truth (VText [])] => rewrite !truth_nil end;
  try match goal with |- context [truth (VList (map _ _))] => rewrite !truth_list end;
  try match goal with |- context [ts_call_of ?p "GetKind" [VKind ?k]] => rewrite !(kind_call p k) by side end;
  try match goal with |- context [ts_call_of ?p "GetKind" [VKind ?k]] => rewrite !(kind_call p k) by side end;
  try match goal with |- context [ts_call_of ?p "FindValue" [VField (map_key ?f ?k)]] => rewrite !(find_key p f k) by side end;
  try match goal with |- context [ts_call_of ?p "FindValue" [VField (map_value ?f ?k)]] => rewrite !(find_value p f k) by side end.
Ltac given := repeat match goal with
  | H : text (entry ?e) = _ |- context [text (entry ?e)] => rewrite !H
  | H : lower ?o ?s = _ |- context [lower ?o ?s] => rewrite !H
  | H : sameb ?e (text "") = false |- context [sameb ?e (text "")] => rewrite !H
  | H : TrimSuffix ?e (text "[]") = _ |- context [TrimSuffix ?e (text "[]")] => rewrite !H
  | H : _ = false |- context [kind_number ?k =? ?z] => match type of H with (kind_number k =? z) = false => rewrite !H end
  end.
Ltac ex1 := step1; given.
Ltac ex := cbn; repeat (progress ex1; cbn).
Ltac w1 := match goal with
  | |- writes (both (both _ _) _) _ _ _ => rewrite both_assoc
  | |- writes (both (Some _) _) _ _ _ => eapply writes_both; [apply writes_some; jlex_one known|]
  | |- writes (Some []) _ _ _ => apply writes_nil
  | |- writes (Some _) _ _ _ => apply writes_some; jlex_one known
  end.
Ltac w := repeat w1.
Ltac norm := repeat (progress (cbn [app]; rewrite <- ?app_assoc)).
