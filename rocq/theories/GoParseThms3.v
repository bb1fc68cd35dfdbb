(** GoParse reads what GoLex prints: declarations and files. *)
From Coq Require Import String Ascii.
From Verif Require Import Base Spec GenTables NameModel NameSpec EmitModel EmitSpec GoAst GoEmit TplModel GoLex GoLexThms TplThms TplThms7 GoParse GoParseThms GoParseThms2.
Local Open Scope list_scope.

(** types in signatures *)
Definition plain_type (t : bytes) : Prop :=
  (exists w, nameb w = true /\ same w (text "polyglot") = false /\ (t = w \/ t = text "*" ++ w)) \/ exists t', t = text "[]" ++ t' /\ is_type t'.
Definition oksig (x : tyx) : Prop := match x with XText t => plain_type t | XMap k v => is_type k /\ is_type v | _ => True end.
Definition okf (f : func) : Prop :=
  Datatypes.length (fn_params f) = Datatypes.length (fn_types f) /\ all (fun n => nameb n = true) (fn_params f) /\ all oksig (fn_types f) /\
  match fn_result f with Some x => oksig x | None => True end /\ all oks (fn_body f) /\
  match fn_recv f with
  | Some r => (exists m, fn_name f = 46 :: m /\ nameb m = true) /\ (exists t ts, fn_types f = t :: ts /\ base_of t = Some r)
  | None => nameb (fn_name f) = true
  end.
Definition okd (d : decl) : Prop :=
  match d with
  | DVar n | DType n TyEnum => nameb n = true
  | DType n (TyMap k v) => nameb n = true /\ is_type k /\ is_type v
  | DType n (TyStruct fs) => nameb n = true /\ all (fun f => nameb (fst f) = true /\ is_type (snd f)) fs
  | DConst n t v => nameb n = true /\ nameb t = true /\ 0 <= v <= 2 ^ 32
  | DFunc f => okf f
  end.

Lemma not_word w s : nameb w = true -> keyword (text s) = true -> same w (text s) = false.
Proof. intros N K. destruct (same w (text s)) eqn:E; [|reflexivity]. unfold same in E. destruct (list_eq_dec Z.eq_dec w (text s)) as [->|]; [|discriminate]. apply nameb_kw in N. congruence. Qed.
Section V.
Variable v2 : bool.
Lemma sig_read x l : oksig x -> p_sig v2 (t_sig v2 x ++ l) = Some (x, l).
Proof using Type.
  destruct x as [t|k v| |]; cbn [oksig t_sig].
  - intros [(w & N & P & [->| ->])|(t' & -> & T)].
    + unfold p_sig. rewrite t_type_name by exact N. cbn [app word]. rewrite not_word by (exact N || reflexivity). tst. change (Id w :: l) with ([Id w] ++ l). rewrite <- (t_type_name w) by exact N. rewrite type_read by (constructor; exact N). reflexivity.
    + unfold p_sig. rewrite t_ptr by exact N. cbn [app]. tst. cbn [word]. rewrite P. cbn [andb]. change (op "*" :: Id w :: l) with ([op "*"; Id w] ++ l). rewrite <- (t_ptr w) by exact N. rewrite type_read by (constructor; constructor; exact N). reflexivity.
    + unfold p_sig. assert (E : exists r, t_type (text "[]" ++ t') ++ l = op "[" :: r) by (eexists; reflexivity). assert (R : p_type (t_type (text "[]" ++ t') ++ l) = Some (text "[]" ++ t', l)) by (apply type_read; constructor; exact T).
      destruct E as (r & E). rewrite E in *. tst. rewrite R. reflexivity.
  - intros (K & V). unfold p_sig, id. repeat (cbn [app]; rewrite <- ?app_assoc). tst. rewrite map_read by assumption. reflexivity.
  - intros _. unfold p_sig, id. cbn [app]. red_eat. rewrite name_ok by reflexivity. tst. reflexivity.
  - intros _. unfold p_sig, id. cbn [app]. red_eat. destruct v2; rewrite name_ok by reflexivity; tst; reflexivity.
Qed.
Lemma sig_head x y : oksig x -> nexts "{" (t_sig v2 x ++ y) = false.
Proof using Type.
  destruct x as [t|k v| |]; cbn [oksig t_sig]; try reflexivity. intros [(w & N & P & [->| ->])|(t' & -> & T)]; [rewrite t_type_name by exact N; reflexivity|rewrite t_ptr by exact N; reflexivity|reflexivity].
Qed.
Definition okp (p : bytes * tyx) : Prop := nameb (fst p) = true /\ oksig (snd p).
Lemma param_read p l : okp p -> param v2 (t_param v2 p ++ l) = Some (p, l).
Proof using Type. destruct p as (x & t). intros (N & S). cbn [fst snd] in *. unfold param, t_param. cbn [fst snd app]. rewrite name_ok by exact N. rewrite sig_read by exact S. reflexivity. Qed.
Lemma params_read ps : all okp ps -> forall l, ev (fun n => params v2 n (commas (map (t_param v2) ps) ++ op ")" :: l)) (ps, l).
Proof using Type.
  induction ps as [|(x & t) ps IH]; intros A l; [apply ev_S; cbn [params map commas app]; tst; apply ev_ret|]. destruct A as (O & A). apply ev_S. cbn [params].
  assert (X : forall y, nexts ")" (t_param v2 (x, t) ++ y) = false) by reflexivity. destruct ps as [|p ps].
  - cbn [map commas]. rewrite X, param_read by exact O. red_eat. apply ev_ret.
  - cbn [map commas]. rewrite <- app_assoc, X, param_read by exact O. cbn [app]. tst. eapply ev_bind2; [apply (IH A)|]. cbv beta. apply ev_ret.
Qed.
Lemma combine_fst {A B} (l : list A) (k : list B) : Datatypes.length l = Datatypes.length k -> map fst (combine l k) = l /\ map snd (combine l k) = k.
Proof using Type. revert k. induction l as [|a l IH]; intros [|b k] H; try discriminate H; [split; reflexivity|]. cbn in H. injection H as H. destruct (IH k H) as (E1 & E2). cbn [combine map fst snd]. rewrite E1, E2. split; reflexivity. Qed.
Lemma okp_combine ns ts : all (fun n => nameb n = true) ns -> all oksig ts -> all okp (combine ns ts).
Proof using Type. revert ts. induction ns as [|n ns IH]; intros [|t ts] A B; try exact I. destruct A as (A1 & A2), B as (B1 & B2). split; [split; assumption|apply IH; assumption]. Qed.

Lemma func_read f l : okf f -> ev (fun n => p_func v2 n (tl (t_func v2 f) ++ l)) (bare_func f, l).
Proof using Type.
  destruct f as [recv nm ps ts res body fr]. unfold okf, t_func, bare_func. cbn [fn_recv fn_name fn_params fn_types fn_result fn_body tl]. intros (L & A & B & R & O & H).
  assert (P := okp_combine _ _ A B). destruct (combine_fst _ _ L) as (E1 & E2).
  assert (RES : forall rc self l', ev (fun n => take (r, l) <- (if nexts "{" (t_result v2 res ++ braces t_stmt body ++ l') then Some (None, t_result v2 res ++ braces t_stmt body ++ l')
      else take (t, l) <- p_sig v2 (t_result v2 res ++ braces t_stmt body ++ l');; Some (Some t, l));; take l <- eat "{" l;; take (b, l) <- block n l;;
      Some (mkfunc rc nm (map fst self) (map snd self) r b false, l)) (mkfunc rc nm (map fst self) (map snd self) res body false, l')).
  { intros rc self l'. destruct res as [x|]; cbn [t_result app].
    - rewrite sig_head by exact R. rewrite sig_read by exact R. rewrite braces_app. red_eat. eapply ev_bind2; [apply body_read, O|]. cbv beta. apply ev_ret.
    - rewrite braces_app. red_eat. eapply ev_bind2; [apply body_read, O|]. cbv beta. apply ev_ret. }
  destruct recv as [r|].
  - destruct H as ((m & -> & N) & (t & ts' & -> & E)). destruct ps as [|p ps]; [discriminate L|]. cbn [combine] in *. destruct P as (P1 & P2). cbn [bare]. unfold p_func, parens. repeat (cbn [app]; rewrite <- ?app_assoc). tst. rewrite param_read by exact P1. red_eat.
    rewrite E. rewrite name_ok by exact N. red_eat. eapply ev_bind2; [apply params_read, P2|]. cbv beta. rewrite <- E1, <- E2. apply (RES (Some r) ((p, t) :: combine ps ts')).
  - unfold p_func. cbn [combine]. rewrite <- ?app_assoc. cbn [app]. assert (X : forall y, nexts "(" (Id nm :: y) = false) by reflexivity.
    assert (F : tl (id "func" :: (Id nm :: parens (commas (map (t_param v2) (combine ps ts)))) ++ t_result v2 res ++ braces t_stmt body) ++ l = Id nm :: op "(" :: commas (map (t_param v2) (combine ps ts)) ++ op ")" :: t_result v2 res ++ braces t_stmt body ++ l).
    { unfold parens. cbn [tl]. repeat (cbn [app]; rewrite <- ?app_assoc). reflexivity. }
    cbn [tl] in F. rewrite <- ?app_assoc in F. cbn [app] in F.
    match goal with |- ev (fun n => @?g n) _ => idtac end. rewrite F. rewrite X. rewrite name_ok by exact H. red_eat. eapply ev_bind2; [apply params_read, P|]. cbv beta. assert (Z := RES None (combine ps ts) l). rewrite E1, E2 in Z. cbn [app]. rewrite E1, E2. exact Z.
Qed.

Lemma fields_read fs : all (fun f => nameb (fst f) = true /\ is_type (snd f)) fs -> forall l, ev (fun n => p_fields n (t_fields false fs ++ op "}" :: l)) (fs, l).
Proof using Type.
  induction fs as [|(x & t) fs IH]; intros A l; [apply ev_S; cbn [p_fields t_fields app]; tst; apply ev_ret|]. destruct A as ((N & T) & A). cbn [fst snd] in *. apply ev_S. cbn [p_fields t_fields].
  repeat (cbn [app]; rewrite <- ?app_assoc). tst. rewrite name_ok by exact N. rewrite type_read by exact T. destruct fs as [|(y & u) fs].
  - cbn [t_fields app]. red_eat. apply ev_ret.
  - change (t_fields true ((y, u) :: fs) ++ op "}" :: l) with (semi :: t_fields false ((y, u) :: fs) ++ op "}" :: l). unfold semi. tst. eapply ev_bind2; [apply (IH A)|]. cbv beta. apply ev_ret.
Qed.
(** what [t_decl] prints, but for the group of constants after an enum *)
Definition t_one (d : decl) : list token := match d with DType n TyEnum => [id "type"; Id n; id "uint32"] | d => t_decl v2 d end.
Lemma decl_read d l : okd d -> (forall n t v, d <> DConst n t v) -> ev (fun n => p_decl v2 n (t_one d ++ l)) (syntax d, l).
Proof using Type.
  destruct d as [n|n [|k v|fs]|n t v|f]; cbn [okd t_one t_decl syntax]; intros O NC.
  - unfold p_decl, id. cbn [app]. tst. red_eat. rewrite name_ok by exact O. red_eat. apply ev_ret.
  - unfold p_decl, id. cbn [app]. tst. rewrite name_ok by exact O. tst. apply ev_ret.
  - destruct O as (N & K & V). unfold p_decl, id. repeat (cbn [app]; rewrite <- ?app_assoc). tst. rewrite name_ok by exact N. tst. rewrite map_read by assumption. apply ev_ret.
  - destruct O as (N & A). unfold p_decl, id. repeat (cbn [app]; rewrite <- ?app_assoc). tst. rewrite name_ok by exact N. red_eat. eapply ev_bind2; [apply fields_read, A|]. cbv beta. apply ev_ret.
  - destruct (NC n t v eq_refl).
  - unfold p_decl. assert (E : t_func v2 f = id "func" :: tl (t_func v2 f)) by reflexivity. rewrite E. cbn [app]. tst. eapply ev_bind2; [apply func_read, O|]. cbv beta. apply ev_ret.
Qed.
Lemma const_read n t v l : okd (DConst n t v) -> p_const (t_decl v2 (DConst n t v) ++ l) = Some (DConst n t v, l).
Proof using Type. intros (N & T & V). unfold p_const. cbn [t_decl app]. rewrite name_ok by exact N. red_eat. rewrite name_ok by exact T. red_eat. rewrite number_int by exact V. reflexivity. Qed.

(** constants are in the group that follows an enum's type *)
Fixpoint grouped (g : bool) (l : list decl) : Prop :=
  match l with
  | [] => True
  | DConst _ _ _ :: l => g = true /\ grouped true l
  | DType _ TyEnum :: l => grouped true l
  | _ :: l => grouped false l
  end.
Definition in_group (g : option bool) : bool := match g with Some _ => true | None => false end.
Lemma close_group ts r : ev (fun n => p_decls v2 n None ts) r -> forall b, ev (fun n => p_decls v2 n (Some b) (op ")" :: ts)) r.
Proof using Type. intros H b. apply ev_S. cbn [p_decls]. tst. exact H. Qed.
Lemma one_more d ts r : okd d -> (forall n t v, d <> DConst n t v) -> ev (fun n => p_decls v2 n None ts) r -> ev (fun n => p_decls v2 n None (semi :: t_one d ++ ts)) (syntax d :: r).
Proof using Type.
  intros O NC H. apply ev_S. cbn [p_decls]. unfold semi. red_eat. assert (X : word "const" (t_one d ++ ts) = false) by (destruct d as [|? []| |]; try reflexivity; destruct (NC n t v eq_refl)).
  rewrite X. eapply ev_bind2; [apply decl_read; assumption|]. cbv beta. eapply ev_bind; [exact H|]. cbv beta. apply ev_ret.
Qed.
Lemma open_group ts r : ev (fun n => p_decls v2 n (Some false) ts) r -> ev (fun n => p_decls v2 n None (semi :: id "const" :: op "(" :: ts)) r.
Proof using Type. intros H. apply ev_S. cbn [p_decls]. unfold semi, id. red_eat. exact H. Qed.
Lemma decls_read l : all okd l -> forall g, grouped (in_group g) l -> ev (fun n => p_decls v2 n g (t_decls v2 g l)) (map syntax l).
Proof using Type.
  induction l as [|d l IH]; intros A g G.
  - destruct g as [b|]; cbn [t_decls map]; [apply close_group|]; apply ev_S; cbn [p_decls]; apply ev_ret.
  - destruct A as (O & A). cbn [map].
    assert (C : (exists n t v, d = DConst n t v) \/ forall n t v, d <> DConst n t v) by (destruct d; [right; discriminate|right; discriminate|left; eauto|right; discriminate]).
    destruct C as [(n & t & v & ->)|NC].
    + cbn [grouped] in G. destruct G as (Eg & G). destruct g as [b|]; [|discriminate Eg]. cbn [t_decls syntax]. apply ev_S. cbn [p_decls].
      destruct b; cbn [app]; [unfold semi; red_eat|]; [|assert (X : forall y, nexts ")" (t_decl v2 (DConst n t v) ++ y) = false) by reflexivity; rewrite X]; rewrite const_read by exact O; (eapply ev_bind; [apply (IH A (Some true) G)|]; cbv beta; apply ev_ret).
    + assert (M : ev (fun n => p_decls v2 n None (semi :: t_decl v2 d ++ t_decls v2 (match d with DType _ TyEnum => Some false | _ => None end) l)) (syntax d :: map syntax l)).
      { destruct d as [n|n [|k v|fs]|n t v|f]; [apply (one_more (DVar n))| |apply (one_more (DType n (TyMap k v)))|apply (one_more (DType n (TyStruct fs)))|destruct (NC n t v eq_refl)|apply (one_more (DFunc f))];
        try assumption; try (apply (IH A None); exact G). change (semi :: t_decl v2 (DType n TyEnum) ++ t_decls v2 (Some false) l) with (semi :: t_one (DType n TyEnum) ++ semi :: id "const" :: op "(" :: t_decls v2 (Some false) l).
        apply one_more; [exact O|exact NC|]. apply open_group, (IH A (Some false)), G. }
      assert (T : t_decls v2 g (d :: l) = (match g with Some _ => [op ")"] | None => [] end) ++ semi :: t_decl v2 d ++ t_decls v2 (match d with DType _ TyEnum => Some false | _ => None end) l).
      { destruct d as [n|n [|k v|fs]|n t v|f]; try reflexivity. destruct (NC n t v eq_refl). }
      rewrite T. destruct g as [b|]; cbn [app]; [apply close_group|]; exact M.
Qed.
Lemma paths_read is l : p_paths ((match is with [] => [] | i :: l => Quoted i :: flat_map (fun i => [semi; Quoted i]) l end) ++ op ")" :: l) = Some (is, l).
Proof using Type.
  destruct is as [|i is]; [reflexivity|]. revert i. induction is as [|j is IH]; intros i; [reflexivity|]. specialize (IH j). cbn [flat_map app] in *. cbn [p_paths]. unfold semi at 1, op at 1. cbn [p_paths] in *. tst. rewrite IH. reflexivity.
Qed.
Lemma file_read p is P : nameb p = true -> all okd P -> grouped false P -> ev (fun n => p_file v2 n (t_file v2 p is P)) (p, is, map syntax P).
Proof using Type.
  intros N A G. unfold p_file, t_file, id. cbn [app]. red_eat. rewrite name_ok by exact N. unfold semi at 1. red_eat. rewrite <- ?app_assoc. rewrite paths_read. eapply ev_bind; [apply (decls_read P A None G)|]. cbv beta. apply ev_ret.
Qed.
End V.
