(** Properties C50 and C60: the naming helpers of the generators. *)
From Coq Require Import String.
From Verif Require Import Base Utf8 NameModel NameSpec NameThms NameThms2 NameThms3 NameThms4.

(** C50: CamelCase never panics and works character by character. *)
Theorem c50_camel_exact : forall s, CamelCase s = Ok (camel_spec s).
Proof. exact camel_exact. Qed.
Print Assumptions c50_camel_exact.
(** For a protobuf identifier the result is an exported Go identifier exactly if the name starts
    with a letter, with "_" and a letter, or with "__" and a lower case letter. *)
Theorem c50_exported_iff : forall s, identifier s ->
  (exists r, CamelCase s = Ok r /\ exported r) <->
  (exists c t, (s = c :: t /\ letter c) \/ (s = 95 :: c :: t /\ letter c) \/ (s = 95 :: 95 :: c :: t /\ lower c)).
Proof.
  intros s H. rewrite camel_exact. split.
  - intros (r & E & X). assert (r = camel_spec s) by congruence. subst r. apply (exported_iff s H). exact X.
  - intros G. exists (camel_spec s). split; [reflexivity|]. apply (exported_iff s H). exact G.
Qed.
Print Assumptions c50_exported_iff.
(** Full names that start with a letter always work; whatever the full name, no character but
    letters, digits and "_" is left. *)
Theorem c50_full_names : forall s, full_name s ->
  exists r, CamelCase s = Ok r /\ Forall ident_char r /\ ((exists c t, s = c :: t /\ letter c) -> exported r).
Proof.
  intros s H. exists (camel_spec s). split; [apply camel_exact|]. split; [apply camel_full_chars; exact H|].
  apply full_exported. exact H.
Qed.
Print Assumptions c50_full_names.
(** Letters and digits survive, up to case: two names with the same image agree in them. *)
Theorem c50_content_kept : forall s, exists r, CamelCase s = Ok r /\ content r = content s.
Proof. intros s. exists (camel_spec s). split; [apply camel_exact|apply camel_content]. Qed.
Print Assumptions c50_content_kept.
Theorem c50_collisions_agree : forall s t, CamelCase s = CamelCase t -> content s = content t.
Proof.
  intros s t. rewrite !camel_exact. intros E. assert (E2 : camel_spec s = camel_spec t) by congruence.
  rewrite <- (camel_content s), <- (camel_content t), E2. reflexivity.
Qed.
Print Assumptions c50_collisions_agree.
(** Names in the usual style (lower case words joined by "_") never collide ... *)
Theorem c50_style_injective : forall s t, style_name s -> style_name t -> CamelCase s = CamelCase t -> s = t.
Proof. intros s t Hs Ht. rewrite !camel_exact. intros E. apply camel_style_inj; [exact Hs|exact Ht|congruence]. Qed.
Print Assumptions c50_style_injective.
(** ... others do: fields of one message, and messages of one package (message B { message C }
    and message BC), get the same Go name. *)
Theorem c50_collision_refuted :
  identifier (str "foo_bar") /\ identifier (str "fooBar") /\ CamelCase (str "foo_bar") = CamelCase (str "fooBar") /\
  full_name (str "a.B.C") /\ full_name (str "a.BC") /\ CamelCase (str "a.B.C") = CamelCase (str "a.BC") /\
  CamelCase (str "a1_b") = CamelCase (str "a1b").
Proof.
  assert (I : forall c t, (letter c \/ c = 95) -> Forall ident_char t -> identifier (c :: t)).
  { intros c t H1 H2. exists c, t. split; [reflexivity|split; assumption]. }
  assert (A : forall t, forallb (fun c => alnum c || (c =? 95)) t = true -> Forall ident_char t).
  { intros t H. apply Forall_forall. intros c Hc. rewrite forallb_forall in H. specialize (H c Hc).
    unfold alnum, is_lower, is_upper, is_digit, ident_char, letter, lower, upper, digit in *. lia. }
  assert (J : forall t, forallb (fun c => alnum c || (c =? 95)) t = true -> match t with c :: _ => letter c | [] => False end -> identifier t).
  { intros [|c t] H1 H2; [contradiction|]. apply I; [left; exact H2|]. specialize (A _ H1). inversion A; assumption. }
  split; [apply J; [reflexivity|left; cbv; intuition discriminate]|]. split; [apply J; [reflexivity|left; cbv; intuition discriminate]|].
  split; [vm_compute; reflexivity|]. split.
  { change (full_name (str "a" ++ 46 :: (str "B" ++ 46 :: str "C"))). apply Full_dot; [apply J; [reflexivity|left; cbv; intuition discriminate]|].
    apply Full_dot; [apply J; [reflexivity|right; cbv; intuition discriminate]|].
    apply Full_one, J; [reflexivity|right; cbv; intuition discriminate]. }
  split.
  { change (full_name (str "a" ++ 46 :: str "BC")). apply Full_dot; [apply J; [reflexivity|left; cbv; intuition discriminate]|].
    apply Full_one, J; [reflexivity|right; cbv; intuition discriminate]. }
  split; vm_compute; reflexivity.
Qed.
Print Assumptions c50_collision_refuted.
(** Not every identifier survives: "_" becomes empty, "_1" starts with a digit, "__A" is not
    exported; and the documented example "_my_field_name_2 becomes XMyFieldName_2" is wrong. *)
Theorem c50_bad_names_refuted :
  CamelCase (str "_") = Ok [] /\ CamelCase (str "_1") = Ok (str "1") /\ CamelCase (str "__A") = Ok (str "_A") /\
  CamelCase (str "_my_field_name_2") = Ok (str "MyFieldName_2").
Proof. vm_compute. auto. Qed.
Print Assumptions c50_bad_names_refuted.
(** Applying CamelCase again changes nothing, unless the first result starts with "_". *)
Theorem c50_idempotent : forall s r, CamelCase s = Ok r -> (forall t, r <> 95 :: t) -> CamelCase r = Ok r.
Proof.
  intros s r. rewrite !camel_exact. intros E H. assert (r = camel_spec s) by congruence. subst r.
  rewrite camel_idempotent; [reflexivity|exact H].
Qed.
Print Assumptions c50_idempotent.
Example c50_example : CamelCase (str "pkg.sub_pkg.MyMessage.inner_type2x") = Ok (str "PkgSubPkgMyMessageInnerType2X") /\
  style_name (str "my_field_name").
Proof.
  split; [vm_compute; reflexivity|]. exists [str "my"; str "field"; str "name"]. split; [discriminate|]. split; [|reflexivity].
  assert (A : forall t, forallb is_lower t = true -> t <> [] -> word t).
  { intros t H N. split; [exact N|]. apply Forall_forall. intros c Hc. rewrite forallb_forall in H. apply is_lower_iff, H, Hc. }
  repeat (apply Forall_cons; [apply A; [reflexivity|discriminate]|]). apply Forall_nil.
Qed.

(** C60: SnakeCase works character by character, for every byte string. *)
Theorem c60_snake_exact : forall s, SnakeCase s = concat (map utf8_char (snake_spec (runes s))).
Proof. exact snake_exact. Qed.
Print Assumptions c60_snake_exact.
(** the characters of a UTF-8 string are those it was made from *)
Theorem c60_runes : forall cs, Forall scalar_value cs -> runes (concat (map utf8_char cs)) = cs.
Proof. exact runes_text. Qed.
Print Assumptions c60_runes.
(** and a byte at which no character starts counts as U+FFFD, by itself *)
Theorem c60_runes_ill_formed : forall a t, isbyte a -> bytes_ok t ->
  (forall c u, scalar_value c -> a :: t <> utf8_char c ++ u) -> runes (a :: t) = 0xFFFD :: runes t.
Proof. exact runes_bad. Qed.
Print Assumptions c60_runes_ill_formed.
(** protobuf identifiers become identifiers without upper case letters and with the same content *)
Theorem c60_identifiers : forall s, identifier s ->
  identifier (SnakeCase s) /\ Forall (fun c => ~ upper c) (SnakeCase s) /\ content (SnakeCase s) = content s.
Proof.
  intros s H. split; [apply snake_identifier; exact H|]. rewrite snake_ascii by (apply ident_chars; exact H). split.
  - eapply Forall_impl; [|apply snake_no_upper]. intros c Hc. unfold is_upper, upper in *. lia.
  - apply snake_content.
Qed.
Print Assumptions c60_identifiers.
Theorem c60_idempotent : forall s, bytes_ok s -> SnakeCase (SnakeCase s) = SnakeCase s.
Proof. exact snake_idempotent. Qed.
Print Assumptions c60_idempotent.
(** names without upper case letters are left alone *)
Theorem c60_unchanged : forall s, utf8 s -> Forall (fun c => ~ upper c) s -> SnakeCase s = s.
Proof.
  intros s H1 H2. apply snake_id; [exact H1|]. eapply Forall_impl; [|exact H2]. intros c Hc. unfold is_upper, upper in *. lia.
Qed.
Print Assumptions c60_unchanged.
(** SnakeCase undoes CamelCase on names whose words have at least two letters; one-letter words run
    together, and different names collide. *)
Theorem c60_undoes_camel : forall ws, ws <> [] -> Forall long_word ws ->
  exists r, CamelCase (join ws) = Ok r /\ SnakeCase r = join ws.
Proof. intros ws Hn H. exists (camel_spec (join ws)). split; [apply camel_exact|apply snake_camel; assumption]. Qed.
Print Assumptions c60_undoes_camel.
Theorem c60_collision_refuted :
  SnakeCase (str "fooBar") = SnakeCase (str "foo_bar") /\ SnakeCase (str "fooBAR") = SnakeCase (str "fooBar") /\
  CamelCase (str "a_b") = Ok (str "AB") /\ SnakeCase (str "AB") = str "ab".
Proof. vm_compute. auto. Qed.
Print Assumptions c60_collision_refuted.
Example c60_example : SnakeCase (str "HTTPServerName_X") = str "httpserver_name__x" /\ Forall long_word [str "my"; str "field"].
Proof.
  split; [vm_compute; reflexivity|].
  repeat (apply Forall_cons; [split; [repeat (apply Forall_cons; [split; discriminate|]); apply Forall_nil|vm_compute; discriminate]|]).
  apply Forall_nil.
Qed.
(** The two lower-casing helpers change the first character only and agree on names that start with
    an ASCII character, whatever unicode.ToLower does elsewhere ... *)
Theorem c60_first_lower : forall other c t, 0 <= c < 128 ->
  FirstLowerCase other (c :: t) = (if is_upper c then c + 32 else c) :: t /\
  LowercaseCamelCase other (c :: t) = (if is_upper c then c + 32 else c) :: t.
Proof. exact lower_first. Qed.
Print Assumptions c60_first_lower.
(** FirstLowerCase handles every character as one, and replaces a byte at which none starts ... *)
Theorem c60_first_lower_char : forall other c t, scalar_value c ->
  FirstLowerCase other (utf8_char c ++ t) =
    utf8_char (if c <? 128 then if is_upper c then c + 32 else c else other c) ++ t.
Proof. exact first_lower_char. Qed.
Print Assumptions c60_first_lower_char.
Theorem c60_first_lower_ill_formed : forall other a t, isbyte a -> bytes_ok t ->
  (forall c u, scalar_value c -> a :: t <> utf8_char c ++ u) ->
  FirstLowerCase other (a :: t) = utf8_char (other 0xFFFD) ++ t.
Proof. exact first_lower_bad. Qed.
Print Assumptions c60_first_lower_ill_formed.
(** ... but LowercaseCamelCase takes the first byte of any other name for a character of its own:
    every well-formed name that starts outside ASCII becomes ill-formed UTF-8. *)
Theorem c60_lowercase_corrupts_refuted : forall other c t, utf8 (c :: t) -> 128 <= c -> scalar_value (other c) ->
  ~ utf8 (LowercaseCamelCase other (c :: t)).
Proof. exact lower_corrupts. Qed.
Print Assumptions c60_lowercase_corrupts_refuted.
Example c60_corrupt_example : let id r := r in
  utf8 [195; 169; 120] /\ ~ utf8 (LowercaseCamelCase id [195; 169; 120]) /\ FirstLowerCase id [195; 169; 120] = [195; 169; 120].
Proof.
  cbv zeta. split; [apply from_utf8_iff; reflexivity|]. split; [|vm_compute; reflexivity].
  intros H. apply from_utf8_iff in H. vm_compute in H. discriminate H.
Qed.
(** AppendString joins its arguments in order; a Counter counts 1, 2, 3, ... *)
Theorem c60_append_string : forall l, AppendString l = concat l.
Proof. exact append_string. Qed.
Print Assumptions c60_append_string.
Theorem c60_counter : forall W n, W = 32 \/ W = 64 -> Z.of_nat n < 2 ^ (W - 1) ->
  counts W n 0 = map (fun k => 1 + Z.of_nat k) (seq 0 n).
Proof. intros W n HW Hn. apply counter_counts; [exact HW|lia|lia]. Qed.
Print Assumptions c60_counter.
Example c60_ill_formed_example : (forall c u, scalar_value c -> [255; 65] <> utf8_char c ++ u) /\
  FirstLowerCase (fun r => r) [255; 65] = [239; 191; 189; 65] /\ counts 64 3 0 = [1; 2; 3] /\
  AppendString [str "[]"; str "a.B"] = str "[]a.B".
Proof.
  split; [|vm_compute; auto]. intros c u Hc E. pose proof (runes_char c u Hc) as R. rewrite <- E in R. vm_compute in R.
  injection R as <- R. vm_compute in E. discriminate E.
Qed.
