(** The programs of GoEmit can be read back from their tokens. *)
From Coq Require Import String Ascii.
From Verif Require Import Base Spec GenTables NameModel NameSpec EmitModel EmitSpec EmitThms GoAst GoEmit TplModel TplGo GoLex GoLexThms TplSpec TplThms TplThms2 TplThms7 TplThms9 TplThms10 GoLink GoParse GoParseThms GoParseThms2 GoParseThms3.
From Verif Require GoTypesSpec GoTypes8.
Local Open Scope list_scope.

Lemma all_app {A} (P : A -> Prop) l k : all P l -> all P k -> all P (l ++ k).
Proof. induction l as [|a l IH]; [auto|]. intros (H & H') K. split; auto. Qed.
Lemma all_flat {A B} (P : B -> Prop) (f : A -> list B) l : (forall a, In a l -> all P (f a)) -> all P (flat_map f l).
Proof. induction l as [|a l IH]; intros H; [exact I|]. apply all_app; [apply H; left; reflexivity|apply IH; intros x Hx; apply H; right; exact Hx]. Qed.
Lemma all_map {A B} (P : B -> Prop) (f : A -> B) l : (forall a, In a l -> P (f a)) -> all P (map f l).
Proof. induction l as [|a l IH]; intros H; [exact I|]. split; [apply H; left; reflexivity|apply IH; intros x Hx; apply H; right; exact Hx]. Qed.

(** ---- names ---- *)
Lemma good_var w : goodb w = true -> variable w.
Proof.
  intros H. split; [apply good_name, H|]. assert (X : forall c t, lowb c = true -> same w (c :: t) = false).
  { intros c t L. destruct (same w (c :: t)) eqn:E; [|reflexivity]. unfold same in E. destruct (list_eq_dec Z.eq_dec w (c :: t)) as [->|]; [|discriminate]. unfold goodb in H. rewrite L in H. cbn [negb] in H. rewrite andb_false_r in H. discriminate H. }
  repeat split; (eapply X; reflexivity).
Qed.
Lemma type_ok fd : ffine fd -> is_type (type_text fd).
Proof.
  intros (G & H). unfold type_text, FindValue. destruct fd as [nm fu many t]. cbn [f_typ f_many f_full] in *. destruct t as [k|s|s|k v].
  - destruct H as (H1 & H2 & H3). assert (B : is_type (text (entry (go_typeLUT k)))) by (destruct k; try congruence; first [apply T_name; reflexivity|apply (T_slice (text "byte")), T_name; reflexivity]).
    assert (E : go_typeLUT k = Some (entry (go_typeLUT k))) by (destruct k; try reflexivity; congruence). rewrite E. destruct many; [apply T_slice, B|exact B].
  - cbn in H. destruct many.
    + destruct H as (w & E & N). rewrite append2, camel_ok, E. apply T_slice, T_name, N.
    + rewrite camel_ok. apply T_name, good_name, H.
  - rewrite camel_ok. cbn [bind]. destruct many; [rewrite append3; apply T_slice, T_ptr, T_name, good_name, H|rewrite append2; apply T_ptr, T_name, good_name, H].
  - rewrite map_camel. destruct H as (_ & H & _). apply T_name. known.
Qed.
Lemma kind_library k : k <> KGroup -> library (entry (go_GetKind k)).
Proof. intros H. destruct (kind_word k H) as (w & E & N & _). exists w. auto. Qed.
Lemma dec_dotted k e : go_decodeLUT k = Some e -> dotted (entry (go_decodeLUT k)).
Proof. intros H. destruct (dec_word k e H) as (w & E & N & _). rewrite H. cbn [entry]. unfold dotted. rewrite E. exact N. Qed.
Lemma enc_dotted k e : go_encodeLUT k = Some e -> dotted (entry (go_encodeLUT k)).
Proof. intros H. destruct (enc_word k e H) as (w & E & N & _). rewrite H. cbn [entry]. unfold dotted. rewrite E. exact N. Qed.

Ltac var := first [assumption|solve [repeat split; reflexivity]|solve [apply good_var; unfold temp, size_name, new_name; known_good]].
Ltac okk := repeat (cbn [ok oks all fst snd app encoder my check]; match goal with
  | |- variable _ => var
  | |- library _ => first [assumption|solve [eexists; split; [reflexivity|reflexivity]]]
  | |- dotted _ => first [assumption|reflexivity]
  | |- is_type _ => first [assumption|solve [apply T_name; known]]
  | |- nameb _ = true => known
  | |- _ <> [] => discriminate
  | |- (_ <= _)%nat => lia
  | |- _ <= _ <= _ => lia
  | |- True => exact I
  | |- _ /\ _ => split
  end).

(** ---- the groups of fields ---- *)
Lemma groups_in lut fs fd : (In fd (g_values (get_fields lut fs)) -> In fd fs /\ (exists e, lut (kind_of (f_typ fd)) = Some e) /\ f_many fd && negb (is_map fd) = false) /\
  (In fd (g_slices (get_fields lut fs)) -> In fd fs /\ f_many fd && negb (is_map fd) = true) /\
  (In fd (g_messages (get_fields lut fs)) -> In fd fs /\ lut (kind_of (f_typ fd)) = None /\ f_many fd && negb (is_map fd) = false).
Proof.
  induction fs as [|a fs (I1 & I2 & I3)]; [split; [|split]; intros []|]. cbn [get_fields]. destruct (f_many a && negb (is_map a)) eqn:M; [|destruct (lut (kind_of (f_typ a))) as [e|] eqn:L]; cbn [g_values g_slices g_messages In].
  - split; [intros H; destruct (I1 H); auto|]. split; [intros [<-|H]; [auto|destruct (I2 H); auto]|intros H; destruct (I3 H); auto].
  - split; [intros [<-|H]; [eauto|destruct (I1 H); auto]|]. split; [intros H; destruct (I2 H); auto|intros H; destruct (I3 H); auto].
  - split; [intros H; destruct (I1 H); auto|]. split; [intros H; destruct (I2 H); auto|intros [<-|H]; [auto|destruct (I3 H); auto]].
Qed.
Lemma slice_type fd : f_many fd && negb (is_map fd) = true -> ffine fd -> goodb (goname fd) = true /\ f_many fd = true /\
  ((exists k, f_typ fd = TScalar k /\ scalar_kind k) \/ (exists s, f_typ fd = TEnum s) \/ (exists s, f_typ fd = TMsg s /\ goodb (camel s) = true)).
Proof.
  unfold is_map. intros M (G & H). apply andb_true_iff in M. destruct M as (M & N). split; [exact G|]. split; [exact M|]. destruct (f_typ fd) as [k|s|s|k v]; [left; eauto|right; left; eauto|right; right; eauto|discriminate N].
Qed.

(** ---- Encode ---- *)
Lemma chain_ok vs : forall e, ok 0 e -> all (fun v => dotted (fst v) /\ ok 2 (snd v)) vs -> ok 0 (fold_left (fun e v => Met e (fst v) [snd v]) vs e).
Proof. induction vs as [|v vs IH]; intros e O A; [exact O|]. destruct A as ((D & V) & A). cbn [fold_left]. apply IH; [|exact A]. cbn [ok all]. auto. Qed.
Lemma encode_slice_ok fd : f_many fd && negb (is_map fd) = true -> ffine fd -> all oks (encode_slice fd).
Proof.
  intros M F. destruct (slice_type fd M F) as (G & _ & [(k & E & K)|[(s & E)|(s & E & C)]]); unfold encode_slice; rewrite E; cbn [kind_of]; [destruct K as (K1 & K2 & K3); destruct k; try congruence| |]; cbn; okk.
Qed.
Lemma decode_slice_ok fd : f_many fd && negb (is_map fd) = true -> ffine fd -> all oks (decode_slice fd).
Proof.
  intros M Fd. assert (T := type_ok fd Fd). destruct (slice_type fd M Fd) as (G & _ & X). unfold decode_slice.
  assert (K : library (entry (go_GetKind (kind_of (f_typ fd))))) by (apply kind_library; destruct X as [(k & E & K)|[(s & E)|(s & E & C)]]; rewrite E; try discriminate; apply K).
  assert (E : all oks (decode_element fd)).
  { unfold decode_element, message_of. destruct X as [(k & E & (K1 & K2 & K3))|[(s & E)|(s & E & C)]]; rewrite E; cbn [kind_of]; [destruct k; try congruence| |]; cbn [is_kind]; okk. }
  cbn [all oks]. split; [okk|]. split; [okk|]. split; [okk|]. split; [|exact I]. okk. exact E.
Qed.
Section Message.
Variables (v2 : bool) (m : msgd).
Hypothesis (N : goodb (camel (m_full m)) = true) (F : forall fd, In fd (m_fields m) -> ffine fd).
Lemma self_type : plain_type (text "*" ++ camel (m_full m)) /\ base_of (XText (text "*" ++ camel (m_full m))) = Some (camel (m_full m)).
Proof using N. split; [|reflexivity]. left. exists (camel (m_full m)). destruct (good_var _ N) as (A & _ & B & _). auto. Qed.
Lemma error_sig : plain_type (text "error") /\ plain_type (text "[]byte") /\ plain_type n_u32.
Proof using Type. split; [left; exists (text "error"); repeat split; auto|]. split; [right; exists (text "byte"); split; [reflexivity|apply T_name; reflexivity]|left; exists n_u32; repeat split; auto]. Qed.
Ltac sigs := first [apply self_type|apply error_sig|exact I].
Ltac func := unfold okf; cbn [fn_recv fn_name fn_params fn_types fn_result fn_body]; split; [reflexivity|]; split; [repeat split; reflexivity|]; split; [cbn [all oksig]; repeat match goal with |- plain_type _ => sigs | |- True => exact I | |- _ /\ _ => split end|]; split; [cbn [oksig]; sigs|].
Ltac method := split; [eexists; split; [reflexivity|reflexivity]|eexists; eexists; split; [reflexivity|apply self_type]].
Lemma error_ok : okf (error_func m).
Proof using N. unfold error_func. func. split; [okk|method]. Qed.
Lemma encode_ok : okf (encode_func m).
Proof using N F.
  unfold encode_func. func. split; [|method]. cbn [all oks]. split; [|exact I]. split; [okk|]. split; [okk|]. apply all_app; [|apply all_app].
  - set (vs := g_values _). assert (A : forall fd, In fd vs -> In fd (m_fields m) /\ exists e, go_encodeLUT (kind_of (f_typ fd)) = Some e) by (intros fd H; apply groups_in in H; tauto). clearbody vs.
    assert (X : vs <> [] -> ok 2 (encode_values (map encode_value vs))).
    { intros _. unfold encode_values. apply (ok_mono _ 0); [lia|]. apply chain_ok; [okk|]. apply all_map. intros fd H. destruct (A fd H) as (H1 & e & He). destruct (F fd H1) as (G & _). unfold encode_value. cbn [fst snd]. split; [apply (enc_dotted _ _ He)|]. destruct (is_kind _ _); okk. }
    destruct vs; [exact I|]. split; [apply X; discriminate|exact I].
  - apply all_flat. intros fd H. apply groups_in in H. apply encode_slice_ok; [apply H|apply F, H].
  - apply all_flat. intros fd H. apply groups_in in H. destruct (F fd (proj1 H)) as (G & _). unfold encode_message. okk.
Qed.
Lemma decode_outer_ok : okf (decode_outer_func v2 m).
Proof using N. unfold decode_outer_func. func. split; [|method]. destruct v2; okk. Qed.
Lemma decode_other_ok fd : In fd (m_fields m) -> (exists e, go_decodeLUT (kind_of (f_typ fd)) = Some e) -> f_many fd && negb (is_map fd) = false -> all oks (decode_other v2 fd).
Proof using F.
  intros H (e & He) M. destruct (F fd H) as (G & T). assert (D := dec_dotted _ _ He). unfold decode_other. set (dec := entry _) in *. clearbody dec. apply all_app; [|okk].
  destruct (is_kind (kind_of (f_typ fd)) KBytes); [destruct v2; okk|]. destruct (is_kind (kind_of (f_typ fd)) KEnum) eqn:K; [|okk].
  assert (V : variable (type_text fd)).
  { unfold is_map in M. destruct (f_typ fd) as [k|s|s|k v] eqn:Et; try discriminate K; [destruct T as (T1 & T2 & T3); destruct k; try discriminate K; congruence|]. rewrite andb_true_r in M. rewrite M in T. cbn in T. unfold type_text, FindValue. rewrite Et, M, camel_ok. apply good_var, T. }
  okk.
Qed.
Lemma decode_message_ok fd : In fd (m_fields m) -> go_decodeLUT (kind_of (f_typ fd)) = None -> f_many fd && negb (is_map fd) = false -> all oks (decode_message v2 fd).
Proof using F.
  intros H L M. destruct (F fd H) as (G & T). unfold decode_message, is_map, message_of, map_name in *. destruct (f_typ fd) as [k|s|s|k v].
  - exfalso. destruct T as (T1 & T2 & T3). destruct k; try discriminate L; congruence.
  - discriminate L.
  - rewrite andb_true_r in M. rewrite M in T. cbn in T. destruct v2; okk.
  - destruct T as (_ & T & (k' & -> & K) & V). assert (A : library (entry (go_GetKind k'))) by (apply kind_library, K).
    assert (B : library (entry (go_GetKind (kind_of v)))) by (apply kind_library; destruct v as [vk| | |]; try discriminate; cbn in V; destruct V as (V & _); exact V). cbn [kind_of]. okk.
Qed.
Lemma decode_ok : okf (decode_func v2 m).
Proof using N F.
  unfold decode_func. func. split; [|method]. cbn [app]. split; [okk|]. apply all_app; [destruct (m_fields m); okk|].
  apply all_app; [apply all_flat; intros fd H; apply groups_in in H; apply decode_other_ok; apply H|].
  apply all_app; [destruct (g_slices _); okk|].
  apply all_app; [apply all_flat; intros fd H; apply groups_in in H; apply decode_slice_ok; [apply H|apply F, H]|].
  apply all_app; [apply all_flat; intros fd H; apply groups_in in H; apply decode_message_ok; apply H|]. okk.
Qed.
Lemma new_ok : okf (new_func v2 m).
Proof using N F.
  unfold new_func. func. split; [|cbn [fn_recv]; unfold new_name; known]. cbn [all oks]. split; [|exact I]. split; [discriminate|]. split; [|exact I]. cbn [ok]. split; [lia|]. split; [known|]. destruct v2; [exact I|]. apply all_flat. intros fd H. destruct (F fd H) as (G & T).
  destruct (is_kind _ _ && _) eqn:E; [|exact I]. apply andb_true_iff in E. destruct E as (E1 & E2). apply negb_true_iff in E2. unfold message_of. destruct (f_typ fd) as [k|s|s|k v].
  - exfalso. destruct T as (T1 & T2 & T3). destruct k; try discriminate E1; congruence.
  - discriminate E1.
  - rewrite E2 in T. cbn in T. okk.
  - destruct T as (T & _). congruence.
Qed.
End Message.

(** ---- maps ---- *)
Lemma map_decls_ok fd : ffine fd -> all okd (map_decls fd).
Proof.
  intros Fd. unfold map_decls. destruct (f_typ fd) as [| | |k v] eqn:E; try exact I. assert (Fd' := Fd). destruct fd as [nm fu many t]. cbn [f_typ] in E. subst t. destruct (map_fine _ _ _ _ _ Fd) as (FK & FV). destruct Fd' as (G & (Em & T & (k' & -> & K) & V)).
  assert (NM : goodb (map_name (mkfield nm fu many (TMap (TScalar k') v))) = true) by (unfold map_name; cbn [f_full] in *; known_good). set (fd := mkfield nm fu many (TMap (TScalar k') v)) in *.
  assert (TK := type_ok _ FK). assert (TV := type_ok _ FV). assert (MV := good_var _ NM).
  assert (SELF : plain_type (map_name fd) /\ base_of (XText (map_name fd)) = Some (map_name fd)).
  { split; [left; exists (map_name fd); destruct MV as (A & _ & B & _); auto|]. destruct (map_name fd) as [|c w]; [discriminate NM|]. assert (c <> 42) by (unfold goodb, letterb in NM; intros ->; discriminate NM). cbn [base_of]. destruct c as [|p|p]; try reflexivity. repeat (destruct p as [p|p|]; try reflexivity). congruence. }
  assert (LK : library (entry (go_GetKind k'))) by (apply kind_library, K).
  assert (LV : library (entry (go_GetKind (kind_of v)))) by (apply kind_library; destruct v as [vk| | |]; try discriminate; cbn in V; destruct V as (V & _); exact V).
  assert (EK : oks (encode_item n_k (TScalar k'))) by (clear -K; destruct K as (K1 & K2 & K3); unfold encode_item; destruct k'; try congruence; cbn; okk).
  assert (EV : oks (encode_item n_v v)) by (clear -V; destruct v as [vk|s|s|? ?]; [cbn in V; destruct V as (K1 & K2 & K3); destruct vk; try congruence|..]; [..|destruct V]; unfold encode_item; cbn; okk).
  assert (DK : all oks (declare_item n_k (map_key fd (TScalar k')))) by (unfold declare_item; cbn [all oks]; split; [split; [reflexivity|exact TK]|]; destruct (is_kind _ _); okk).
  assert (DV : all oks (declare_item n_v (map_value fd v))) by (unfold declare_item; cbn [all oks]; split; [split; [reflexivity|exact TV]|]; destruct (is_kind _ _); okk).
  assert (IK : all oks (decode_item n_k (map_key fd (TScalar k')))) by (clear -K; destruct K as (K1 & K2 & K3); unfold decode_item, map_key, temp, goname; cbn [f_typ f_name kind_of]; destruct k'; try congruence; cbn; okk).
  assert (IV : all oks (decode_item n_v (map_value fd v))).
  { clear -V FV. assert (VT : match v with TEnum s => variable (type_text (map_value fd v)) | _ => True end) by (destruct v as [|s| |]; try exact I; unfold type_text, FindValue, map_value; cbn [f_typ f_many]; rewrite camel_ok; apply good_var, V).
    unfold decode_item. cbn [map_value f_typ] in *. destruct v as [vk|s|s|? ?]; [cbn in V; destruct V as (K1 & K2 & K3); destruct vk; try congruence|..]; [..|destruct V]; cbn [kind_of go_decodeLUT entry String.eqb Ascii.eqb Bool.eqb andb is_kind message_of f_typ]; okk. }
  clearbody fd. cbn [all okd okf fn_recv fn_name fn_params fn_types fn_result fn_body].
  destruct (error_sig) as (S1 & S2 & S3).
  split; [split; [known|split; assumption]|]. split.
  - unfold okf. cbn [fn_recv fn_name fn_params fn_types fn_result fn_body]. split; [reflexivity|]. split; [repeat split; reflexivity|]. split; [split; [exact S3|exact I]|]. split; [split; assumption|]. split; [okk|unfold new_name; known].
  - split; [|split; [|exact I]]; [unfold encode_map_func|unfold decode_map_func]; unfold okf; cbn [fn_recv fn_name fn_params fn_types fn_result fn_body oksig]; (split; [reflexivity|]; split; [repeat split; reflexivity|]).
    + split; [split; [apply SELF|split; exact I]|]. split; [exact I|]. split; [cbn [kind_of]; okk; assumption|]. split; [eexists; split; reflexivity|eexists; eexists; split; [reflexivity|apply SELF]].
    + split; [split; [apply SELF|split; [exact I|split; [exact S3|exact I]]]|]. split; [exact S1|]. split; [|split; [eexists; split; reflexivity|eexists; eexists; split; [reflexivity|apply SELF]]].
      apply all_app; [okk|]. apply all_app; [exact DK|]. apply all_app; [exact DV|]. cbn [all oks]. split; [okk|]. split; [|okk]. split; [reflexivity|]. split; [okk|]. apply all_app; [exact IK|]. apply all_app; [exact IV|]. okk.
Qed.
(** ---- messages and enums ---- *)
Lemma struct_ok v2 m : goodb (camel (m_full m)) = true -> (forall fd, In fd (m_fields m) -> ffine fd) -> all okd (struct_decls v2 m).
Proof.
  intros N F. unfold struct_decls. apply all_app; [apply all_flat; intros fd H; apply map_decls_ok, F, H|]. cbn [all]. split; [split; [known|]|].
  - apply all_map. intros fd H. cbn [fst snd]. split; [apply good_name, (F fd H)|apply type_ok, F, H].
  - split; [apply new_ok; assumption|]. split; [apply error_ok; assumption|]. split; [apply encode_ok; assumption|]. split; [apply decode_outer_ok; assumption|]. split; [apply decode_ok; assumption|exact I].
Qed.
Lemma enum_ok e : efine e -> zlen (e_values e) <= 2 ^ 32 -> all okd (enum_decls e).
Proof.
  intros (N & V) L. unfold enum_decls. split; [cbn [okd]; known|]. apply all_map. intros (i & x) H. cbn [okd fst snd]. pose proof (GoTypes8.numbered_bound _ _ _ _ H) as B. split; [|split; [known|lia]].
  apply good_name, V. apply numbered_in in H. destruct H as (n & H & _). apply (nth_error_In _ _ H).
Qed.
Lemma grouped_weak l g : grouped false l -> grouped g l.
Proof. destruct g; [|auto]. destruct l as [|[n|n [|k v|fs]|n t v|f] l]; cbn [grouped]; intuition discriminate. Qed.
Lemma grouped_app l : forall g k, grouped g l -> grouped false k -> grouped g (l ++ k).
Proof.
  induction l as [|d l IH]; intros g k H K; [apply grouped_weak, K|]. destruct d as [n|n [|kk v|fs]|n t v|f]; cbn [grouped app] in *; try (apply IH; assumption). destruct H as (H1 & H2). split; [exact H1|apply IH; assumption].
Qed.
Lemma grouped_flat {A} (f : A -> list decl) l : (forall a, In a l -> grouped false (f a)) -> grouped false (flat_map f l).
Proof. induction l as [|a l IH]; intros H; [exact I|]. apply grouped_app; [apply H; left; reflexivity|apply IH; intros x Hx; apply H; right; exact Hx]. Qed.
Lemma struct_grouped v2 m : grouped false (struct_decls v2 m).
Proof. unfold struct_decls. apply grouped_app; [apply grouped_flat; intros fd _; unfold map_decls; destruct (f_typ fd); exact I|exact I]. Qed.
Lemma enum_grouped e : grouped false (enum_decls e).
Proof. unfold enum_decls. cbn [grouped]. induction (numbered 0 (e_values e)) as [|iv l IH]; [exact I|]. split; [reflexivity|exact IH]. Qed.
Lemma program_ok v2 f : nameable f -> GoTypesSpec.enums_fit f -> all okd (go_program v2 f) /\ grouped false (go_program v2 f).
Proof.
  intros NF EF. unfold go_program. rewrite body_units. split.
  - split; [destruct v2; reflexivity|]. apply all_flat. intros [e|m] H.
    + apply units_enum in H. apply enum_ok; [|apply EF, H]. apply enum_fine. destruct H as [H|(m & Hm & He)]; [apply (nm_enums _ NF _ H)|apply (nm_nested _ NF m e Hm He)].
    + apply units_msg in H. apply struct_ok; [apply ident_good, (nm_messages _ NF m H)|]. intros fd Hf. apply field_fine, (nm_fields _ NF m fd H Hf).
  - cbn [grouped]. apply grouped_flat. intros [e|m] _; [apply enum_grouped|apply struct_grouped].
Qed.
