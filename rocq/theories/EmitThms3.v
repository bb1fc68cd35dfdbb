(** Exact descriptions of the remaining declarations. *)
From Coq Require Import String.
From Verif Require Import Base Utf8 NameModel NameSpec NameThms NameThms2 NameThms3 GenTables EmitModel EmitSpec EmitThms EmitThms2.

Theorem go_scalar_text fd k : f_typ fd = TScalar k ->
  FindValue fd = match go_scalar k with Some s => Ok ((if f_many fd then str "[]" else []) ++ str s) | None => Panic end.
Proof. intros E. unfold FindValue. rewrite E. destruct k, (f_many fd); reflexivity. Qed.
Theorem rs_struct_iff f n fs : In (RsStruct n fs) (rs_file f) <->
  exists m, has_message f m /\ CamelCase (m_full m) = Ok n /\ fs = map (fun fd => (SnakeCase (f_name fd), rs_findValue (f_many fd) (f_typ fd))) (m_fields m).
Proof.
  rewrite in_rs_file. split.
  - intros [H|[H|[(e & He & [H|[]])|(m & Hm & [H|[]])]]]; try discriminate H. injection H as <- <-. exists m. split; [exact Hm|]. split; [apply camel_ok|reflexivity].
  - intros (m & Hm & En & ->). apply camel_is in En. subst n. right. right. right. exists m. split; [exact Hm|left; reflexivity].
Qed.
Lemma rs_false t : forall x, rs_findValue false t = Ok x <-> rust_text false t x.
Proof.
  induction t as [k|full|full|k IHk v IHv]; intros x; cbn [rs_findValue].
  - assert (E : rs_typeLUT k = rust_scalar k) by (destruct k; reflexivity). rewrite E. split.
    + intros H. destruct (rust_scalar k) as [s|] eqn:Es; [|discriminate]. injection H as <-. apply (rt_scalar k s Es).
    + intros H. inversion H as [? s Es| | | |]; subst. rewrite Es. reflexivity.
  - rewrite camel_ok. cbn [bind]. split; [intros H; injection H as <-; apply rt_enum, camel_ok|].
    intros H. inversion H as [|? ? E| | |]; subst. apply camel_is in E. rewrite E. reflexivity.
  - rewrite camel_ok. cbn [bind]. split; [intros H; injection H as <-; apply rt_msg, camel_ok|].
    intros H. inversion H as [| |? ? E| |]; subst. apply camel_is in E. rewrite E. reflexivity.
  - split.
    + destruct (rs_findValue false k) as [a|]; [|discriminate]. destruct (rs_findValue false v) as [b|]; [|discriminate]. cbn [bind].
      intros H. injection H as <-. apply rt_map; [apply IHk|apply IHv]; reflexivity.
    + intros H. inversion H as [| | |? ? ? a b Ha Hb|]; subst. apply IHk in Ha. apply IHv in Hb. rewrite Ha, Hb. reflexivity.
Qed.
Theorem rs_text_iff many t x : rs_findValue many t = Ok x <-> rust_text many t x.
Proof.
  destruct many; [|apply rs_false]. destruct t as [k|full|full|k v]; cbn [rs_findValue].
  - split.
    + intros H. assert (exists s, rs_typeLUT k = Some s) as (s & E) by (destruct (rs_typeLUT k); [eauto|discriminate]). rewrite E in H. injection H as <-.
      apply rt_many; [discriminate|]. apply rs_false. cbn [rs_findValue]. rewrite E. reflexivity.
    + intros H. inversion H as [| | | |? y _ Hy]; subst. apply rs_false in Hy. cbn [rs_findValue] in Hy. destruct (rs_typeLUT k); [|discriminate]. injection Hy as <-. reflexivity.
  - rewrite camel_ok. cbn [bind]. split.
    + intros H. injection H as <-. apply rt_many; [discriminate|]. apply rt_enum, camel_ok.
    + intros H. inversion H as [| | | |? y _ Hy]; subst. inversion Hy as [|? ? E| | |]; subst. apply camel_is in E. subst y. reflexivity.
  - rewrite camel_ok. cbn [bind]. split.
    + intros H. injection H as <-. apply rt_many; [discriminate|]. apply rt_msg, camel_ok.
    + intros H. inversion H as [| | | |? y _ Hy]; subst. inversion Hy as [| |? ? E| |]; subst. apply camel_is in E. subst y. reflexivity.
  - pose proof (rs_false (TMap k v) x) as R. cbn [rs_findValue] in R. rewrite R. split.
    + intros H. inversion H; subst. apply rt_map; assumption.
    + intros H. inversion H as [| | |? ? ? a b Ha Hb|? y N _]; subst; [apply rt_map; assumption|destruct (N k v eq_refl)].
Qed.
Theorem go_map_iff v2 f n k v : In (GoMap n k v) (go_file v2 f) <->
  exists m fd kt vt p, has_message f m /\ In fd (m_fields m) /\ f_typ fd = TMap kt vt /\ CamelCase (f_full fd) = Ok p /\ n = p ++ str "Map" /\
    k = FindValue (map_key fd kt) /\ v = FindValue (map_value fd vt).
Proof.
  rewrite in_go_file. split.
  - intros [H|[(e & _ & H)|(m & Hm & H)]]; [discriminate| |].
    + apply in_go_enum in H. destruct H as [H|(i & x & _ & H)]; discriminate.
    + unfold go_struct_decls in H. apply in_app_or in H. destruct H as [H|H].
      * apply in_go_map in H. destruct H as (fd & kt & vt & Hf & Et & H). destruct H as [H|[H|[H|H]]]; try discriminate.
        injection H as -> -> ->. exists m, fd, kt, vt, (camel (f_full fd)). split; [exact Hm|]. split; [exact Hf|]. split; [exact Et|]. split; [apply camel_ok|]. auto.
      * cbn in H. decompose [or] H; try discriminate; contradiction.
  - intros (m & fd & kt & vt & p & Hm & Hf & Et & Ep & -> & -> & ->). apply camel_is in Ep. subst p. right. right. exists m. split; [exact Hm|].
    unfold go_struct_decls. apply in_or_app. left. apply in_go_map. exists fd, kt, vt. split; [exact Hf|]. split; [exact Et|left; reflexivity].
Qed.
Theorem go_func_iff v2 f n : In (GoFunc n) (go_file v2 f) <->
  (exists m p, has_message f m /\ CamelCase (m_full m) = Ok p /\ n = str "New" ++ p) \/
  (exists m fd kt vt p, has_message f m /\ In fd (m_fields m) /\ f_typ fd = TMap kt vt /\ CamelCase (f_full fd) = Ok p /\ n = str "New" ++ p ++ str "Map").
Proof.
  rewrite in_go_file. split.
  - intros [H|[(e & _ & H)|(m & Hm & H)]]; [discriminate| |].
    + apply in_go_enum in H. destruct H as [H|(i & x & _ & H)]; discriminate.
    + unfold go_struct_decls in H. apply in_app_or in H. destruct H as [H|H].
      * apply in_go_map in H. destruct H as (fd & kt & vt & Hf & Et & H). destruct H as [H|[H|[H|H]]]; try discriminate.
        injection H as ->. right. exists m, fd, kt, vt, (camel (f_full fd)). split; [exact Hm|]. split; [exact Hf|]. split; [exact Et|]. split; [apply camel_ok|]. reflexivity.
      * left. exists m, (camel (m_full m)). split; [exact Hm|]. split; [apply camel_ok|]. cbn in H. destruct H as [H|[H|H]]; [discriminate|injection H as <-; reflexivity|].
        decompose [or] H; try discriminate; contradiction.
  - intros [(m & p & Hm & Ep & ->)|(m & fd & kt & vt & p & Hm & Hf & Et & Ep & ->)]; apply camel_is in Ep; subst p; right; right; exists m; (split; [exact Hm|]); unfold go_struct_decls; apply in_or_app.
    + right. right. left. reflexivity.
    + left. apply in_go_map. exists fd, kt, vt. split; [exact Hf|]. split; [exact Et|right; left; reflexivity].
Qed.
Theorem go_method_iff v2 f n x : In (GoMethod n x) (go_file v2 f) <->
  (exists m, has_message f m /\ CamelCase (m_full m) = Ok n /\ In x (map str ["Error"; "Encode"; "Decode"; "decode"]%string)) \/
  (exists m fd kt vt p, has_message f m /\ In fd (m_fields m) /\ f_typ fd = TMap kt vt /\ CamelCase (f_full fd) = Ok p /\ n = p ++ str "Map" /\
     In x (map str ["Encode"; "decode"]%string)).
Proof.
  rewrite in_go_file. split.
  - intros [H|[(e & _ & H)|(m & Hm & H)]]; [discriminate| |].
    + apply in_go_enum in H. destruct H as [H|(i & y & _ & H)]; discriminate.
    + unfold go_struct_decls in H. apply in_app_or in H. destruct H as [H|H].
      * apply in_go_map in H. destruct H as (fd & kt & vt & Hf & Et & H). right. exists m, fd, kt, vt, (camel (f_full fd)). split; [exact Hm|]. split; [exact Hf|]. split; [exact Et|]. split; [apply camel_ok|].
        destruct H as [H|[H|[H|H]]]; try discriminate; injection H as -> ->; (split; [reflexivity|]); [left|right; left]; reflexivity.
      * left. exists m. split; [exact Hm|]. destruct H as [H|[H|H]]; [discriminate|discriminate|].
        destruct H as [H|[H|[H|[H|[]]]]]; injection H as <- <-; (split; [apply camel_ok|]); cbn; auto.
  - intros [(m & Hm & En & Hx)|(m & fd & kt & vt & p & Hm & Hf & Et & Ep & -> & Hx)].
    + apply (proj1 (in_go_file v2 f _)), (method_in v2 f m); assumption.
    + apply camel_is in Ep. subst p. right. right. exists m. split; [exact Hm|]. unfold go_struct_decls. apply in_or_app. left. apply in_go_map. exists fd, kt, vt.
      split; [exact Hf|]. split; [exact Et|]. right. right. destruct Hx as [<-|[<-|[]]]; [left|right]; reflexivity.
Qed.
Theorem go_var_iff v2 f n : In (GoVar n) (go_file v2 f) <-> n = str (if v2 then "ErrDecodeNil" else "NilDecode")%string.
Proof.
  rewrite in_go_file. split.
  - intros [H|[(e & _ & H)|(m & Hm & H)]]; [injection H as ->; destruct v2; reflexivity| |].
    + apply in_go_enum in H. destruct H as [H|(i & y & _ & H)]; discriminate.
    + unfold go_struct_decls in H. apply in_app_or in H. destruct H as [H|H].
      * apply in_go_map in H. destruct H as (fd & kt & vt & Hf & Et & H). cbn in H. decompose [or] H; try discriminate; contradiction.
      * cbn in H. decompose [or] H; try discriminate; contradiction.
  - intros ->. left. destruct v2; reflexivity.
Qed.
