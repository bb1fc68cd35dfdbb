(** Executing the Rust templates on any descriptor, and reading what they write. *)
From Coq Require Import String Ascii.
From Verif Require Import Base Spec GenTables NameModel NameSpec EmitModel EmitSpec EmitThms GoAst GoEmit RsGenModel RsAst RsEmit RsTplText TplModel TplGo TplExec GoLex GoLexThms RsLex RsLexThms RsTpl.
From Verif Require TplThms.
Import TplThms (some, truth_list, truth_b, truth_nil, sameb, equal_text, equal_kind, equal_card, both_assoc).
Local Open Scope list_scope.

Definition RT : list (string * list node) := Eval vm_compute in rs_parsed.
Lemma rs_parsed_ok : rs_parsed = RT. Proof. vm_compute. reflexivity. Qed.
Notation CALL p := (rs_call_of p).
Notation RUN p := (run rs_get_of (rs_call_of p) RT).
Lemma camel_call p s : rs_call_of p "CamelCase" [VFull s] = Some (VText (camel s)).
Proof. unfold rs_call_of. cbn [String.eqb Ascii.eqb Bool.eqb]. rewrite camel_ok. reflexivity. Qed.
Lemma snake_call p s : rs_call_of p "SnakeCaseName" [VName s] = Some (VText (SnakeCase s)). Proof. reflexivity. Qed.
Lemma privacy_call p : rs_call_of p "GeneratedFieldPrivacy" [] = Some (VText p). Proof. reflexivity. Qed.
Lemma iterable p {A} (l : list A) : rs_call_of p "MakeIterable" [VInt (zlen l)] = Some (VList (repeat VStruct (length l))).
Proof. unfold rs_call_of. cbn [String.eqb Ascii.eqb Bool.eqb]. unfold zlen. destruct (Z.ltb_spec (Z.of_nat (length l)) 0); [lia|]. rewrite Nat2Z.id. reflexivity. Qed.
Lemma declut_call p k : rs_call_of p "GetLUTDecoder" [VKind k] = Some (VText (text (entry (rs_decodeLUT k)))). Proof. reflexivity. Qed.
Lemma enclut_call p k : rs_call_of p "GetLUTEncoder" [VKind k] = Some (VText (text (entry (rs_encodeLUT k)))). Proof. reflexivity. Qed.
Lemma kindlut_call p k : rs_call_of p "GetKindLUT" [VKind k] = Some (VText (text (entry (rs_kindLUT k)))). Proof. reflexivity. Qed.
Lemma kind_call p k : k <> KGroup -> rs_call_of p "GetKind" [VKind k] = Some (VText (text (entry (rs_getKind k)))).
Proof. intros H. destruct k; try reflexivity. congruence. Qed.

(** ---- Types ---- *)
Definition scalar_kind (k : pkind) : Prop := k <> KGroup /\ k <> KEnum /\ k <> KMessage.
Definition tfine (t : ftyp) : Prop :=
  match t with TScalar k => scalar_kind k | TEnum s | TMsg s => wname (camel s) = true | TMap _ _ => False end.
Definition ffine (fd : fieldd) : Prop :=
  wname (rsname fd) = true /\
  match f_typ fd with
  | TMap k v => (exists k', k = TScalar k' /\ scalar_kind k') /\ tfine v
  | t => tfine t
  end.
(** text of a type *)
Definition rs_type_text (many : bool) (t : ftyp) : bytes := match rs_findValue many t with Ok x => x | Panic => [] end.
Definition typed (x : bytes) (T : rty) : Prop := exists pre s w, RLex RNone x pre s /\ closable s w /\ r_type T = pre ++ w.
Lemma closable_none : closable RNone []. Proof. left. auto. Qed.
Lemma closable_word v : closable (RWord v) [Id v]. Proof. right. eauto. Qed.
Lemma typed_name w : wname w = true -> typed w (TyName w).
Proof. intros H. exists [], (RWord w), [Id w]. split; [apply RLex_name, H|]. split; [apply closable_word|reflexivity]. Qed.
Lemma typed_vec x T : typed x T -> typed (text "Vec<" ++ x ++ text ">") (TyVec T).
Proof.
  intros (pre & s & w & L & C & E). exists (id "Vec" :: angles (r_type T)), RNone, []. split; [|split; [apply closable_none|rewrite app_nil_r; reflexivity]].
  unfold angles. rewrite E. change (id "Vec" :: op "<" :: (pre ++ w) ++ [op ">"]) with ([id "Vec"; op "<"] ++ (pre ++ w) ++ [op ">"]). rewrite <- (app_assoc pre). eapply RLex_app; [rlex_lit|]. eapply RLex_app; [exact L|].
  apply RLex_close; [exact C|reflexivity|rlex_lit].
Qed.
Lemma typed_hash x y T U : typed x T -> typed y U -> typed (text "HashMap<" ++ x ++ text ", " ++ y ++ text ">") (TyHash T U).
Proof.
  intros (pre & s & w & L & C & E) (pre' & s' & w' & L' & C' & E'). exists (id "HashMap" :: angles (r_type T ++ op "," :: r_type U)), RNone, []. split; [|split; [apply closable_none|rewrite app_nil_r; reflexivity]].
  unfold angles. rewrite E, E'. change (id "HashMap" :: op "<" :: ((pre ++ w) ++ op "," :: pre' ++ w') ++ [op ">"]) with ([id "HashMap"; op "<"] ++ ((pre ++ w) ++ [op ","] ++ pre' ++ w') ++ [op ">"]). rewrite <- !app_assoc.
  eapply RLex_app; [rlex_lit|]. eapply RLex_app; [exact L|]. rewrite (app_assoc w). eapply RLex_app; [apply RLex_close; [exact C|reflexivity|rlex_lit]|].
  eapply RLex_app; [exact L'|]. apply RLex_close; [exact C'|reflexivity|rlex_lit].
Qed.
Lemma typed_tfine many t : tfine t -> rs_findValue many t = Ok (rs_type_text many t) /\ typed (rs_type_text many t) (rs_type_of many t).
Proof.
  intros F. unfold rs_type_text. destruct t as [k|s|s|? ?]; [| | |destruct F]; cbn [rs_findValue rs_type_of].
  - assert (B : rs_typeLUT k = Some (entry (rs_typeLUT k)) /\ typed (text (entry (rs_typeLUT k))) (lut_type (entry (rs_typeLUT k)))).
    { destruct F as (K1 & K2 & K3). destruct k; try congruence; (split; [reflexivity|]); try (apply typed_name; reflexivity). apply (typed_vec (text "u8")), typed_name. reflexivity. }
    destruct B as (B1 & B2). rewrite B1. split; [reflexivity|]. rewrite B1 in B2. destruct many; [apply typed_vec, B2|exact B2].
  - rewrite camel_ok. cbn [bind]. split; [reflexivity|]. destruct many; [apply typed_vec|]; apply typed_name, F.
  - rewrite camel_ok. cbn [bind]. split; [reflexivity|]. destruct many; [apply typed_vec|]; apply typed_name, F.
Qed.
Lemma typed_ffine fd : ffine fd -> rs_findValue (f_many fd) (f_typ fd) = Ok (rs_type_text (f_many fd) (f_typ fd)) /\ typed (rs_type_text (f_many fd) (f_typ fd)) (rs_type_of_field fd).
Proof.
  intros (_ & H). unfold rs_type_of_field. destruct (f_typ fd) as [k|s|s|k v]; [apply typed_tfine, H..|].
  destruct H as ((k' & -> & K) & V). destruct (typed_tfine false (TScalar k') K) as (A1 & A2). destruct (typed_tfine false v V) as (B1 & B2). unfold rs_type_text. cbn [rs_findValue rs_type_of].
  cbn [rs_findValue] in A1. rewrite A1, B1. cbn [bind]. split; [reflexivity|]. apply typed_hash; assumption.
Qed.
Definition type_of (fd : fieldd) : bytes := rs_type_text (f_many fd) (f_typ fd).
Lemma find_call p fd : ffine fd -> rs_call_of p "FindValue" [VField fd] = Some (VText (type_of fd)).
Proof. intros F. unfold rs_call_of. cbn [String.eqb Ascii.eqb Bool.eqb]. rewrite (proj1 (typed_ffine fd F)). reflexivity. Qed.
Lemma map_fine nm fu many k v : ffine (mkfield nm fu many (TMap k v)) -> ffine (map_key (mkfield nm fu many (TMap k v)) k) /\ ffine (map_value (mkfield nm fu many (TMap k v)) v).
Proof.
  intros (_ & ((k' & -> & K) & V)). cbn [f_typ] in *. split; (split; [reflexivity|]); cbn [map_key map_value f_typ f_many]; [exact K|]. destruct v; try exact V. destruct V.
Qed.
(** ---- Groups of fields ---- *)
Lemma fine_kind t : tfine t -> kind_of t <> KGroup.
Proof. destruct t as [k| | |]; cbn; try discriminate. intros (H & _). exact H. Qed.
Definition value_text (fd : fieldd) : bytes := rs_sprintf_value (entry (rs_encodeLUT (kind_of (f_typ fd)))) (kind_of (f_typ fd)) (f_name fd).
Lemma no_decoder fd : ffine fd -> rs_decodeLUT (kind_of (f_typ fd)) = None -> kind_of (f_typ fd) = KMessage.
Proof. intros (_ & H) E. destruct (f_typ fd) as [k| | |]; try reflexivity; [|discriminate E]. destruct H as (K1 & K2 & K3). destruct k; try discriminate E; congruence. Qed.
Lemma no_encoder fd : ffine fd -> rs_encodeLUT (kind_of (f_typ fd)) = None -> kind_of (f_typ fd) = KMessage.
Proof. intros (_ & H) E. destruct (f_typ fd) as [k| | |]; try reflexivity; [|discriminate E]. destruct H as (K1 & K2 & K3). destruct k; try discriminate E; congruence. Qed.
Lemma decoding_groups fs : Forall ffine fs -> forall ms ss os,
  rs_decoding_fields fs ms ss os = let g := get_fields rs_decodeLUT fs in Some (ms ++ g_messages g, ss ++ g_slices g, os ++ g_values g).
Proof.
  induction 1 as [|fd fs H F IH]; intros ms ss os; [cbn; rewrite !app_nil_r; reflexivity|]. cbn [rs_decoding_fields get_fields].
  destruct (f_many fd && negb (is_map fd)); [rewrite IH; cbn zeta; cbn [g_messages g_slices g_values]; rewrite <- app_assoc; reflexivity|].
  destruct (rs_decodeLUT (kind_of (f_typ fd))) eqn:E; [rewrite IH; cbn zeta; cbn [g_messages g_slices g_values]; rewrite <- app_assoc; reflexivity|].
  rewrite (no_decoder fd H E), IH. cbn zeta. cbn [g_messages g_slices g_values]. rewrite <- app_assoc. reflexivity.
Qed.
Lemma decoding_call p fs : Forall ffine fs -> rs_call_of p "GetDecodingFields" [VFieldList fs] =
  Some (VRec [("MessageFields"%string, VList (map VField (g_messages (get_fields rs_decodeLUT fs)))); ("SliceFields"%string, VList (map VField (g_slices (get_fields rs_decodeLUT fs))));
              ("Other"%string, VList (map VField (g_values (get_fields rs_decodeLUT fs))))]).
Proof. intros F. unfold rs_call_of. cbn [String.eqb Ascii.eqb Bool.eqb]. rewrite decoding_groups by exact F. reflexivity. Qed.
Lemma encoding_groups fs : Forall ffine fs -> forall ms ss vs,
  rs_encoding_fields fs ms ss vs = let g := get_fields rs_encodeLUT fs in Some (ms ++ g_messages g, ss ++ g_slices g, vs ++ map value_text (g_values g)).
Proof.
  induction 1 as [|fd fs H F IH]; intros ms ss os; [cbn; rewrite !app_nil_r; reflexivity|]. cbn [rs_encoding_fields get_fields].
  destruct (f_many fd && negb (is_map fd)); [rewrite IH; cbn zeta; cbn [g_messages g_slices g_values]; rewrite <- app_assoc; reflexivity|].
  destruct (rs_encodeLUT (kind_of (f_typ fd))) eqn:E; [rewrite IH; cbn zeta; cbn [g_messages g_slices g_values map]; rewrite <- app_assoc; unfold value_text; rewrite E; reflexivity|].
  rewrite (no_encoder fd H E), IH. cbn zeta. cbn [g_messages g_slices g_values]. rewrite <- app_assoc. reflexivity.
Qed.
Lemma encoding_call p fs : Forall ffine fs -> rs_call_of p "GetEncodingFields" [VFieldList fs] =
  Some (VRec [("MessageFields"%string, VList (map VField (g_messages (get_fields rs_encodeLUT fs)))); ("SliceFields"%string, VList (map VField (g_slices (get_fields rs_encodeLUT fs))));
              ("Values"%string, VList (map (fun fd => VText (value_text fd)) (g_values (get_fields rs_encodeLUT fs))))]).
Proof. intros F. unfold rs_call_of. cbn [String.eqb Ascii.eqb Bool.eqb]. rewrite encoding_groups by exact F. cbn zeta. cbn [option_map app]. rewrite map_map. reflexivity. Qed.

(** ---- Library names ---- *)
Definition dotted_ok (s : string) : Prop := exists w, text s = text "." ++ w /\ wname w = true /\ r_dotted s = [op "."; Id w].
Lemma dec_word k e : rs_decodeLUT k = Some e -> dotted_ok e.
Proof. intros H. destruct k; try discriminate H; injection H as <-; (eexists; split; [reflexivity|split; reflexivity]). Qed.

(** ---- Writing ---- *)
Definition writes (r : option bytes) (s : rpart) (ts : list token) (s' : rpart) : Prop := exists l, r = Some l /\ RLex s l ts s'.
Lemma run_S p T n name v : run rs_get_of (CALL p) T (S n) name v =
  match find_str name T with Some l => exec_list rs_get_of (CALL p) (exec rs_get_of (CALL p) (run rs_get_of (CALL p) T n)) v [("$"%string, v)] l | None => None end.
Proof. reflexivity. Qed.
Lemma writes_eq r s t t' s1 s1' : writes r s t s1 -> t = t' -> s1 = s1' -> writes r s t' s1'.
Proof. intros H <- <-. exact H. Qed.
Lemma writes_some l s t s1 : RLex s l t s1 -> writes (Some l) s t s1. Proof. intros H. exists l. auto. Qed.
Lemma writes_both a b s t1 s1 t2 s2 : writes a s t1 s1 -> writes b s1 t2 s2 -> writes (both a b) s (t1 ++ t2) s2.
Proof. intros (l1 & -> & H1) (l2 & -> & H2). exists (l1 ++ l2). split; [reflexivity|]. eapply RLex_app; eassumption. Qed.
Lemma writes_nil s : writes (Some []) s [] s. Proof. apply writes_some, RLex_nil. Qed.
Lemma loop_writes {A} (body : Z -> tval -> option bytes) (f : A -> tval) (g : A -> list token) s (l : list A) : forall i,
  (forall j a, In a l -> writes (body j (f a)) s (g a) s) -> writes (loop body i (map f l)) s (flat_map g l) s.
Proof.
  induction l as [|a l IH]; intros i H; [apply writes_nil|]. cbn [map loop flat_map]. eapply writes_both; [apply H; left; reflexivity|]. apply IH. intros j b Hb. apply H. right. exact Hb.
Qed.
Lemma loop_nth_writes {A} (body : Z -> tval -> option bytes) (x : tval) (g : A -> list token) s (l : list A) : forall i,
  (forall j a, nth_error l j = Some a -> writes (body (i + Z.of_nat j) x) s (g a) s) -> writes (loop body i (repeat x (length l))) s (flat_map g l) s.
Proof.
  induction l as [|a l IH]; intros i H; [apply writes_nil|]. cbn [length repeat loop flat_map]. eapply writes_both; [specialize (H 0%nat a eq_refl); rewrite Z.add_0_r in H; exact H|].
  apply IH. intros j b Hj. specialize (H (S j) b Hj). replace (i + 1 + Z.of_nat j) with (i + Z.of_nat (S j)) by lia. exact H.
Qed.
(** the first round starts in another state *)
Lemma loop_from {A} (body : Z -> tval -> option bytes) (f : A -> tval) (g : A -> list token) (l : list A) :
  (forall j a s w, In a l -> closable s w -> writes (body j (f a)) s (w ++ g a) RNone) ->
  forall i s w, closable s w -> l <> [] -> writes (loop body i (map f l)) s (w ++ flat_map g l) RNone.
Proof.
  intros B i s w C NE. destruct l as [|a l]; [congruence|]. cbn [map loop flat_map]. rewrite app_assoc. eapply writes_both; [apply B; [left; reflexivity|exact C]|].
  apply (loop_writes body f g). intros j b Hb. apply (B j b RNone []); [right; exact Hb|apply closable_none].
Qed.
(** ---- Tactics ---- *)
Arguments TplThms.sameb : simpl never.
Arguments equal : simpl never.
Arguments text : simpl never.
Arguments rs_call_of : simpl never.
Arguments loop : simpl never.
Arguments zlen : simpl never.
Arguments camel : simpl never.
Arguments SnakeCase : simpl never.
Arguments type_of : simpl never.
Arguments r_dotted : simpl never.
Arguments r_const : simpl never.
Arguments run : simpl never.
Arguments both : simpl never.
Arguments truth : simpl never.
Arguments entry : simpl nomatch.
Arguments kind_of : simpl nomatch.
Arguments rs_getKind : simpl nomatch.
Ltac eqs := repeat match goal with |- context [sameb (text ?a) (text ?b)] => let r := eval vm_compute in (sameb (text a) (text b)) in match r with true => idtac | false => idtac end; change (sameb (text a) (text b)) with r end.
Ltac wsuffix := rewrite <- ?app_assoc; first [assumption|reflexivity].
Ltac known := first [assumption|reflexivity|wsuffix].
Ltac side := first [exact I|assumption|discriminate].
Ltac step1 :=
  eqs;
  try match goal with |- context [equal (VText _) (VText _)] => rewrite !equal_text end;
  try match goal with |- context [equal (VKind _) _] => rewrite !equal_kind end;
  try match goal with |- context [equal (VCard _) _] => rewrite !equal_card end;
  try match goal with |- context [rs_call_of _ _ [VFull _]] => rewrite !camel_call end;
  try match goal with |- context [rs_call_of _ _ [VName _]] => rewrite !snake_call end;
  try match goal with |- context [rs_call_of _ "GeneratedFieldPrivacy" []] => rewrite !privacy_call end;
  try match goal with |- context [rs_call_of _ _ [VInt (zlen _)]] => rewrite !iterable end;
  try match goal with |- context [rs_call_of _ "GetLUTDecoder" [VKind _]] => rewrite !declut_call end;
  try match goal with |- context [rs_call_of _ "GetLUTEncoder" [VKind _]] => rewrite !enclut_call end;
  try match goal with |- context [rs_call_of _ "GetKindLUT" [VKind _]] => rewrite !kindlut_call end;
  try match goal with |- context [truth (VTruth _)] => rewrite !truth_b end;
  try match goal with |- context [truth (VText [])] => rewrite !truth_nil end;
  try match goal with |- context [truth (VList (map _ _))] => rewrite !truth_list end;
  try match goal with |- context [rs_call_of ?p "GetKind" [VKind ?k]] => rewrite !(kind_call p k) by side end;
  try match goal with |- context [rs_call_of ?p "GetKind" [VKind ?k]] => rewrite !(kind_call p k) by side end;
  try match goal with |- context [rs_call_of ?p "FindValue" [VField ?k]] => rewrite !(find_call p k) by side end;
  try match goal with |- context [rs_call_of ?p "FindValue" [VField ?k]] => rewrite !(find_call p k) by side end.
Ltac given := repeat match goal with
  | H : text (entry ?e) = _ |- context [text (entry ?e)] => rewrite !H
  | H : _ = false |- context [kind_number ?k =? ?z] => match type of H with (kind_number k =? z) = false => rewrite !H end
  | |- context [sameb (text "." ++ ?x) (text "")] => change (sameb (text "." ++ x) (text "")) with false
  end.
Ltac ex1 := step1; given.
Ltac ex := cbn; repeat (progress ex1; cbn).
Ltac w1 := match goal with
  | |- writes (both (both _ _) _) _ _ _ => rewrite both_assoc
  | |- writes (both (Some _) _) _ _ _ => eapply writes_both; [apply writes_some; rlex_one known|]
  | |- writes (Some []) _ _ _ => apply writes_nil
  | |- writes (Some _) _ _ _ => apply writes_some; rlex_one known
  end.
Ltac w := repeat w1.
Ltac lits := repeat match goal with
  | |- context [r_dotted (String ?a ?b)] => let r := eval vm_compute in (r_dotted (String a b)) in change (r_dotted (String a b)) with r
  | |- context [r_const (String ?a ?b)] => let r := eval vm_compute in (r_const (String a b)) in change (r_const (String a b)) with r
  end; unfold parens, angles.
Ltac norm := repeat (progress (cbn [app]; rewrite <- ?app_assoc)).
Ltac same_tokens := cbn; norm; reflexivity.
Ltac tpl := eapply writes_eq; [ex; w|same_tokens|reflexivity].
