(** * Consequences for parameters, operators, enumerations and properties *)
From Coq Require Import Sorting.Sorted.
From Verif Require Import Base ParserModel ParserSpec AnnotModel AnnotSpec AnnotProofs AnnotStore AnnotFinal CollectModel CollectSpec CollectProofs GraphModel GraphSpec GraphWalk GraphProofs GraphFinal InlineModel EmitModel EmitSpec EmitProofs EmitMap EmitFold.

(** ** Stored attributes are those of the own annotations *)

Lemma graph_faithful u b : placed u -> build_graph u = Done (true, b) -> faithful u (bs_annotations b).
Proof.
  intros P Hb f a Ht Ha. destruct (collect u) as [s|] eqn:Hs; [|unfold build_graph in Hb; rewrite Hs in Hb; discriminate].
  destruct (attributes_of_targets u P b s Hs Hb f) as [Hu _].
  assert (Htag : forall al x, alias_of u al f x -> False).
  { intros al x (Hin & Hk & Hc & Hd & _). destruct (pl_target u P al f Hin Hk Hc Hd) as [E _]. congruence. }
  rewrite Hu in Ha.
  - destruct (collected_declarations u s (pl_sane u P) Hs) as (_ & _ & H & _).
    assert (Hin : In f (map fst (cs_annotations s))).
    { clear - Ha. induction (cs_annotations s) as [|[j y] l IH]; cbn in *; [discriminate|]. destruct (Nat.eqb_spec f j); auto. }
    destruct (H f Hin) as (st' & ds & y & Hi & Hl & Hl'). rewrite Hl' in Ha. injection Ha as ->. exists st', ds. auto.
  - intros al (x & Hx & _). exact (Htag al x Hx).
  - intros al (x & Hx & _). exact (Htag al x Hx).
Qed.

Lemma define_faithful u x e dv decls st st' ss rs : define u x e dv decls st = Some (st', ss, rs) -> faithful u st -> faithful u st'.
Proof.
  intros D F i a Ht Ha. destruct (define_spec _ _ _ _ _ _ _ _ _ D) as [_ H1 H2 H3 H4 _ _ _ _].
  destruct (in_dec Nat.eq_dec i (flat_map (expand x) decls)) as [Hin|Hin]; [|rewrite H2 in Ha by exact Hin; apply F; assumption].
  destruct (lookup_attrs st i) as [b|] eqn:El; [rewrite (H1 _ _ El) in Ha; injection Ha as <-; apply F; assumption|].
  destruct (d_skip (u_decls u i)) eqn:Es; [rewrite H4 in Ha by exact Es; congruence|].
  destruct (H3 i Hin Es El) as (b & Hb & Hl). rewrite Hl in Ha. injection Ha as <-. exact Hb.
Qed.

(** ** Hidden and visible declarations *)

Lemma concat_in {A} (l : list (list A)) a : In a (concat l) <-> exists p, In p l /\ In a p.
Proof. apply in_concat. Qed.

Lemma forall2_in_r {A B} (R : A -> B -> Prop) l m b : Forall2 R l m -> In b m -> exists a, In a l /\ R a b.
Proof. induction 1 as [|a c l m Ha _ IH]; intros []; [subst; eauto using in_eq|]. destruct IH as (d & Hd & Hr); auto. exists d. split; [right|]; assumption. Qed.
Lemma forall2_in_l {A B} (R : A -> B -> Prop) l m a : Forall2 R l m -> In a l -> exists b, In b m /\ R a b.
Proof. induction 1 as [|c b l m Ha _ IH]; intros []; [subst; eauto using in_eq|]. destruct IH as (d & Hd & Hr); auto. exists d. split; [right|]; assumption. Qed.

Lemma in_parts u x e dv decls st st' ss rs : define u x e dv decls st = Some (st', ss, rs) ->
  forall s, closing s = false -> (In s ss <-> exists i, In i (flat_map (expand x) decls) /\ emitted_for u x e dv st' i s).
Proof.
  intros D s Hs. destruct (define_spec _ _ _ _ _ _ _ _ _ D) as [(parts & final & -> & F & Fc & _) _ _ _ _ _ _ _ _].
  rewrite in_app_iff, concat_in. split.
  - intros [(p & Hp & Hin)|Hin].
    + destruct (forall2_in_r _ _ _ _ F Hp) as (i & Hi & _ & H). exists i. split; [exact Hi|]. apply H, Hin.
    + rewrite Forall_forall in Fc. rewrite (Fc _ Hin) in Hs. discriminate.
  - intros (i & Hi & H). left. destruct (forall2_in_l _ _ _ _ F Hi) as (p & Hp & _ & H'). exists p. split; [exact Hp|]. apply H', H.
Qed.

Lemma bound_mentions u x e i a s j : bound u x e i a s -> mentions s j -> j = i.
Proof.
  assert (Hf : forall s, bound_function u x i a s -> mentions s j -> j = i) by (intros t [] []; reflexivity).
  assert (Ha : forall s, bound_alias u x i a s -> mentions s j -> j = i) by (intros t [] []).
  destruct e; cbn [bound]; intros [] Hm; eauto; cbn in Hm; try contradiction; auto.
Qed.

Lemma users_in us n b m : In m (users us n b) -> exists t, In t us /\ fst (fst t) = m.
Proof. unfold users. rewrite in_map_iff. intros (t & <- & H). apply filter_In in H. exists t. tauto. Qed.

Lemma last_of_in l m : last_of l = Some m -> In m l.
Proof. unfold last_of. destruct (rev l) eqn:E; [discriminate|]. intros [= ->]. apply in_rev. rewrite E. apply in_eq. Qed.

Lemma uses_shown u e dv st l uss m : Forall2 (method_uses u e dv st) l uss -> forall t, In t (concat uss) -> fst (fst t) = m ->
  In m l /\ exists a, lookup_attrs st m = Some a /\ shown dv a.
Proof.
  intros F t Ht Hm. apply concat_in in Ht as (us & Hus & Ht). destruct (forall2_in_r _ _ _ _ F Hus) as (i & Hi & H1 & H2).
  destruct e as [|k|k|r p]; try (exfalso; rewrite H2 in Ht; [destruct Ht|intros (r0 & p0 & a0 & E & _); discriminate]).
  destruct (lookup_attrs st i) as [a|] eqn:El; [|exfalso; rewrite H2 in Ht; [destruct Ht|intros (r0 & p0 & a0 & _ & E & _); discriminate]].
  assert (Hsh : {shown dv a} + {~ shown dv a}).
  { unfold shown. destruct (n_visible (at_named a)) as [[]|]; [left; auto|right; intros [?|[? _]]; discriminate|].
    destruct dv; [left; auto|right; intros [?|[_ ?]]; discriminate]. }
  destruct Hsh as [Hsh|Hsh]; [|exfalso; rewrite H2 in Ht; [destruct Ht|intros (r0 & p0 & a0 & _ & [= <-] & E & _); auto]].
  destruct (supports_method (u_decls u i)) eqn:Es; [|exfalso; rewrite H2 in Ht; [destruct Ht|intros (r0 & p0 & a0 & _ & _ & _ & E); discriminate]].
  destruct (H1 r p a eq_refl eq_refl Hsh eq_refl) as (gs & ss & _ & _ & _ & _ & ->).
  assert (m = i) as -> by (apply in_app_or in Ht as [Ht|Ht]; apply in_map_iff in Ht as (n & <- & _); symmetry; exact Hm). eauto.
Qed.

Lemma mentioned_is_shown u x e dv decls st st' ss rs : define u x e dv decls st = Some (st', ss, rs) ->
  forall s i, In s ss -> mentions s i -> In i (flat_map (expand x) decls) /\ exists a, lookup_attrs st' i = Some a /\ shown dv a.
Proof.
  intros D s i Hs Hm. destruct (closing s) eqn:Hc.
  - destruct s; try discriminate; cbn in Hm; try contradiction.
    destruct (define_spec _ _ _ _ _ _ _ _ _ D) as [_ _ _ _ _ _ _ (uss & F & H & _) _]. apply H in Hs as [Hg Hset].
    assert (Hx : exists t, In t (concat uss) /\ fst (fst t) = i).
    { destruct Hm as [->|Hm]; [apply last_of_in, users_in in Hg; exact Hg|]. rewrite Hm in Hset. symmetry in Hset. apply last_of_in, users_in in Hset. exact Hset. }
    destruct Hx as (t & Ht & Hti). eapply uses_shown; eassumption.
  - apply (in_parts _ _ _ _ _ _ _ _ _ D s Hc) in Hs as (j & Hj & a & Ha & Hsh & Hb).
    rewrite (bound_mentions _ _ _ _ _ _ _ Hb Hm). eauto.
Qed.

(** ** Parameters *)

Lemma described_prefix ps : forall k p, nth_error ps k = Some p -> (forall q, In q (firstn (S k) ps) -> is_ordinary q = true) ->
  nth_error (described_params ps) k = Some p.
Proof.
  unfold described_params. induction ps as [|q ps IH]; intros [|k] p E H; try discriminate; cbn [nth_error] in E.
  - injection E as ->. assert (Ho : is_ordinary p = true) by (apply H; left; reflexivity). cbn [take_while].
    destruct (kinds_of p) as [(_ & K & O)|[(_ & K & O)|(_ & K & O)]]; try congruence. rewrite K. cbn [negb filter]. rewrite O. reflexivity.
  - assert (Ho : is_ordinary q = true) by (apply H; left; reflexivity). cbn [take_while].
    destruct (kinds_of q) as [(_ & K & O)|[(_ & K & O)|(_ & K & O)]]; try congruence. rewrite K. cbn [negb filter]. rewrite O. cbn [nth_error].
    apply IH; [exact E|]. intros r Hr. apply H. cbn [firstn]. right. exact Hr.
Qed.

Lemma unique_first (l : list str) s k : nth_error l k = Some s -> (forall j, nth_error l j = Some s -> j = k) ->
  forall s', first_index l s' k <-> s' = s.
Proof.
  intros E U s'. unfold first_index. split; [intros [H _]; congruence|]. intros ->. split; [exact E|]. intros j Hj H. apply U in H. lia.
Qed.

Lemma bound_parameters u x e i a s : bound u x e i a s -> forall f args, has_arguments s f args ->
  f = i /\ supports_function (u_decls u i) = true /\ describes (at_function a) (fi_params (x_fn x i)) args.
Proof.
  assert (Hf : forall s, bound_function u x i a s -> forall f args, has_arguments s f args -> f = i /\ supports_function (u_decls u i) = true /\ describes (at_function a) (fi_params (x_fn x i)) args).
  { intros t [st n ar Hs _ _ _ _ _ Hd] f args [(? & ? & ? & E)|(? & ? & E)]; inversion E; subst; auto. }
  assert (Ha : forall s, bound_alias u x i a s -> forall f args, has_arguments s f args -> f = i /\ supports_function (u_decls u i) = true /\ describes (at_function a) (fi_params (x_fn x i)) args).
  { intros t [] f args [(? & ? & ? & E)|(? & ? & E)]; discriminate. }
  assert (Hk : kind u i = KConstructor -> supports_function (u_decls u i) = true).
  { unfold kind. unfold supports_function. intros ->. reflexivity. }
  destruct e; cbn [bound]; intros Hb f args Hm; destruct Hb; eauto;
    destruct Hm as [(? & ? & ? & E)|(? & ? & E)]; inversion E; subst; auto.
Qed.

Lemma flags_reach u x e dv decls st st' ss rs : define u x e dv decls st = Some (st', ss, rs) -> faithful u st ->
  forall s f args, In s ss -> has_arguments s f args -> consistent u x f ->
  forall st0 ds, insert (u_decls u) f [] = Some (st0, ds) -> ~ has_error ds ->
  exists ans, carried (d_attrs (u_decls u f)) ans false /\
  forall k p, nth_error (fi_params (x_fn x f)) k = Some p -> (forall q, In q (firstn (S k) (fi_params (x_fn x f))) -> is_ordinary q = true) ->
    exists g, nth_error args k = Some g /\ ar_name g = pm_name p /\ ar_default g = pm_default p /\
    ((forall j q, nth_error (fi_params (x_fn x f)) j = Some q -> pm_name q = pm_name p -> j = k) ->
      (ar_noconvert g = true <-> named_by Noconvert ans (pm_name p)) /\ (ar_required g = true <-> named_by Required ans (pm_name p))).
Proof.
  intros D F s f args Hs Hm C st0 ds Hi He.
  assert (Hc : closing s = false) by (destruct Hm as [(? & ? & ? & ->)|(? & ? & ->)]; reflexivity).
  apply (in_parts _ _ _ _ _ _ _ _ _ D s Hc) in Hs as (i & Hin & a & Ha & Hsh & Hb).
  destruct (bound_parameters _ _ _ _ _ _ Hb _ _ Hm) as (-> & Hsf & [Hlen Hdesc]).
  assert (Hown : own_attributes u i a).
  { apply (define_faithful _ _ _ _ _ _ _ _ _ D F); [|exact Ha]. unfold is_tag_kind, kind. unfold supports_function in Hsf.
    destruct (d_kind (u_decls u i)); try discriminate; reflexivity. }
  destruct Hown as (st1 & ds1 & Hi1 & Hl1). rewrite Hi in Hi1. injection Hi1 as <- <-.
  assert (Hskip : d_skip (u_decls u i) = false).
  { destruct (d_skip (u_decls u i)) eqn:Es; [|reflexivity]. exfalso. unfold insert in Hi. rewrite Es in Hi. injection Hi as <- <-. discriminate Hl1. }
  destruct (insert_no_annotation_ignored _ _ _ _ _ Hi eq_refl Hskip) as (a' & ans & bad & Ha' & Hca & _ & Hok).
  rewrite Hl1 in Ha'. injection Ha' as <-. destruct (Hok He) as (-> & v & _ & De). exists ans. split; [exact Hca|].
  intros k p Hp Hord. assert (Hk := described_prefix _ _ _ Hp Hord).
  destruct (nth_error args k) as [g|] eqn:Eg.
  2:{ exfalso. apply nth_error_None in Eg. assert (k < length (described_params (fi_params (x_fn x i)))) by (apply nth_error_Some; congruence). lia. }
  destruct (Hdesc k p g Hk Eg) as (N & Df & Nc & Rq). exists g. split; [reflexivity|]. split; [exact N|]. split; [exact Df|].
  intros U.
  assert (Hfirst : forall s', first_index (d_params (u_decls u i)) s' k <-> s' = pm_name p).
  { apply unique_first.
    - rewrite (cs_params _ _ _ C). apply map_nth_error, Hp.
    - intros j Hj. rewrite (cs_params _ _ _ C), nth_error_map in Hj. destruct (nth_error (fi_params (x_fn x i)) j) as [q|] eqn:Ej; [|discriminate].
      injection Hj as Hj. eapply U; eassumption. }
  rewrite Nc, Rq, (de_noconvert _ _ _ _ De), (de_required _ _ _ _ De). split; split.
  - intros (s' & H1 & H2). apply Hfirst in H2 as ->. exact H1.
  - intros H. exists (pm_name p). split; [exact H|]. apply Hfirst. reflexivity.
  - intros (s' & H1 & H2). apply Hfirst in H2 as ->. exact H1.
  - intros H. exists (pm_name p). split; [exact H|]. apply Hfirst. reflexivity.
Qed.

(** ** Variadic parameters *)

Lemma clean_parameters f a ps : forall index pos args, emit_parameters f a index pos None ps = (args, []) ->
  forall i j p q, i < j -> nth_error ps i = Some p -> is_kwargs p = true -> nth_error ps j = Some q -> is_ordinary q = false.
Proof.
  induction ps as [|r ps IH]; intros index pos args E i j p q Hij Hp Kp Hq; [destruct i; discriminate|]. cbn [emit_parameters] in E.
  destruct j as [|j]; [lia|]. cbn [nth_error] in Hq.
  destruct (kinds_of r) as [(Er & K & O)|[(Er & K & O)|(Er & K & O)]]; rewrite Er in E.
  - destruct (after_kwargs f a ps index (S pos) pos) as (rs & Ea & H). rewrite Ea in E. injection E as _ ->.
    destruct H as [[_ H]|(l1 & q' & l2 & _ & _ & _ & [[_ H]|(m1 & p' & m2 & _ & _ & _ & H)])]; try discriminate.
    apply H. eapply nth_error_In, Hq.
  - destruct i as [|i]; cbn [nth_error] in Hp; [congruence|]. eapply (IH _ _ _ E i j); eauto. lia.
  - destruct i as [|i]; cbn [nth_error] in Hp; [congruence|].
    destruct (emit_parameters f a (S index) (S pos) None ps) as [args' rs'] eqn:Ee. injection E as _ ->. eapply (IH _ _ _ Ee i j); eauto. lia.
Qed.

Lemma trailing_exists ps : (exists k, trailing ps k) <-> exists i j p q, i < j /\ nth_error ps i = Some p /\ is_kwargs p = true /\ nth_error ps j = Some q /\ is_ordinary q = true.
Proof.
  split.
  - intros (k & l1 & p & l2 & q & l3 & -> & <- & Kp & Oq & _). exists (length l1), (length l1 + S (length l2)), p, q. split; [lia|].
    split; [rewrite nth_error_app2, Nat.sub_diag by lia; reflexivity|]. split; [exact Kp|]. split; [|exact Oq].
    rewrite nth_error_app2 by lia. replace (length l1 + S (length l2) - length l1) with (S (length l2)) by lia. cbn [nth_error].
    rewrite nth_error_app2, Nat.sub_diag by lia. reflexivity.
  - intros (i & j & p & q & Hij & Hp & Kp & Hq & Oq).
    destruct (parameters_spec 0 (mkFunction [] [] [] []) ps 0 0) as (args & rs & E & _ & [[-> H]|(k & _ & H)]); [|eauto]. exfalso.
    rewrite (clean_parameters _ _ _ _ _ _ E i j p q Hij Hp Kp Hq) in Oq. discriminate.
Qed.

Lemma variadic_reports u x e dv decls st st' ss rs : define u x e dv decls st = Some (st', ss, rs) ->
  (forall s f args, In s ss -> has_arguments s f args ->
    ((exists k, In (ETrailingParameters f k) rs) <->
     exists i j p q, i < j /\ nth_error (fi_params (x_fn x f)) i = Some p /\ is_kwargs p = true /\ nth_error (fi_params (x_fn x f)) j = Some q /\ is_ordinary q = true)) /\
  (forall f k, In (ETrailingParameters f k) rs -> (exists s args, In s ss /\ has_arguments s f args) /\
    exists p, nth_error (fi_params (x_fn x f)) k = Some p /\ is_kwargs p = true).
Proof.
  intros D. pose proof (df_trailing _ _ _ _ _ _ _ _ _ (define_spec _ _ _ _ _ _ _ _ _ D)) as T. split.
  - intros s f args Hs Hm. rewrite <- trailing_exists.
    assert (Hc : closing s = false) by (destruct Hm as [(? & ? & ? & ->)|(? & ? & ->)]; reflexivity).
    apply (in_parts _ _ _ _ _ _ _ _ _ D s Hc) in Hs as (i & Hin & He).
    assert (f = i) as ->. { destruct He as (a & _ & _ & Hb). apply (bound_parameters _ _ _ _ _ _ Hb _ _ Hm). }
    split.
    + intros (k & H). apply T in H as [_ (k' & _ & _ & _ & H & _)]. eauto.
    + intros (k & H). exists k. apply T. split; [exact Hin|]. exists k, s. split; [exact He|]. split; [|auto].
      destruct Hm as [(? & ? & ? & ->)|(? & ? & ->)]; [left|right]; eauto.
  - intros f k H. apply T in H as [Hin (k' & s & He & Hbf & (l1 & p & l2 & q & l3 & Ep & <- & Kp & _) & [= ->])]. split.
    + assert (Hm : exists args, has_arguments s f args).
      { destruct Hbf as [(? & ? & args & ? & ->)|(? & args & ? & ->)]; exists args; [left|right]; eauto. }
      destruct Hm as (args & Hm). exists s, args. split; [|exact Hm].
      apply (in_parts _ _ _ _ _ _ _ _ _ D s); [destruct Hm as [(? & ? & ? & ->)|(? & ? & ->)]; reflexivity|eauto].
    + exists p. split; [|exact Kp]. rewrite Ep, nth_error_app2, Nat.sub_diag by lia. reflexivity.
Qed.

(** ** Operators *)

Definition forms_of (n : str) : list pyform := flat_map (fun e => if str_eqb n (list_ascii_of_string (fst e)) then snd e else []) special_methods.

Lemma forms_of_iff n f : invoked_by n f <-> In f (forms_of n).
Proof.
  unfold invoked_by, forms_of. rewrite in_flat_map. split.
  - intros (s & fs & H & -> & Hf). exists (s, fs). split; [exact H|]. cbn [fst snd]. rewrite (proj2 (str_eqb_eq _ _) eq_refl). exact Hf.
  - intros ((s & fs) & H & Hf). cbn [fst snd] in Hf. destruct (str_eqb n (list_ascii_of_string s)) eqn:E; [|destruct Hf].
    exists s, fs. split; [exact H|]. split; [apply str_eqb_eq, E|exact Hf].
Qed.

Lemma unary_forms k form : In form (forms_of (unary_name k)) -> form = Unary k.
Proof. destruct k; vm_compute; intros H; repeat (destruct H as [<-|H]; [reflexivity|]); destruct H. Qed.
Lemma unary_named k : unary_name k <> [] -> In (Unary k) (forms_of (unary_name k)).
Proof. destruct k; intros H; try (exfalso; apply H; reflexivity); vm_compute; auto. Qed.

Lemma binary_forms k reverse form : In form (forms_of (binary_name k reverse)) ->
  form = Binary k (negb reverse) \/ exists s, form = Binary s reverse /\ mirrored s = Some k.
Proof.
  destruct k, reverse; vm_compute; intros H; repeat (destruct H as [<-|H]; [first [left; reflexivity | right; eexists; split; reflexivity]|]); destruct H.
Qed.
Lemma binary_named k reverse : binary_name k reverse <> [] -> In (Binary k (negb reverse)) (forms_of (binary_name k reverse)).
Proof. destruct k, reverse; intros H; try (exfalso; apply H; reflexivity); vm_compute; auto. Qed.

Lemma operator_bound u x e dv decls st st' ss rs : define u x e dv decls st = Some (st', ss, rs) ->
  forall n f l, In (SOperator n f l) ss -> exists r p a, e = XRecord r p /\ In f (flat_map (expand x) decls) /\ lookup_attrs st' f = Some a /\
    bound_in_record u x r f a (SOperator n f l).
Proof.
  intros D n f l H. apply (in_parts _ _ _ _ _ _ _ _ _ D) in H as (i & Hi & a & Ha & _ & Hb); [|reflexivity].
  assert (f = i) as -> by (eapply bound_mentions; [exact Hb|reflexivity]).
  destruct e as [|k|k|r p]; cbn [bound] in Hb.
  1,2: exfalso; inversion Hb; subst; match goal with H : bound_function _ _ _ _ _ |- _ => inversion H | H : bound_alias _ _ _ _ _ |- _ => inversion H end.
  - exfalso. inversion Hb.
  - exists r, p, a. auto.
Qed.

Lemma not_operator_def u x i a n f l : ~ bound_function u x i a (SOperator n f l).
Proof. intros H. inversion H. Qed.
Lemma not_operator_alias u x i a n f l : ~ bound_alias u x i a (SOperator n f l).
Proof. intros H. inversion H. Qed.

Lemma operator_shape u x r f a n l : bound_in_record u x r f a (SOperator n f l) -> consistent u x f ->
  exists k types, fi_operator (x_fn x f) = Some k /\ operands u x r f types /\ never_emitted k = false /\ fi_deleted (x_fn x f) = false /\
    la_operator l = k /\ la_result l = fi_result (x_fn x f) /\
    ((exists t, types = [t] /\ k <> OStar /\ k <> OAmp /\ n = unary_name k /\ la_types l = [t] /\ la_operands l = [Lhs]) \/
     (exists t1 t2, types = [t1; t2] /\ core_eqb (ty_core t1) (CRecord r) = true /\ n = binary_name k false /\ la_types l = [t1; t2] /\ la_operands l = [Lhs; Rhs]) \/
     (exists t1 t2, types = [t1; t2] /\ core_eqb (ty_core t1) (CRecord r) = false /\ n = binary_name k true /\ la_types l = [t2; t1] /\ la_operands l = [Rhs; Lhs])).
Proof.
  intros Hb C. inversion Hb as [? ? H|? H| | | | | |k types n' l' Hk Hd Hsup Hos Hne Hops Hun Hl Hn En]; subst.
  - destruct (not_operator_def _ _ _ _ _ _ _ H).
  - destruct (not_operator_alias _ _ _ _ _ _ _ H).
  - exists k, types. split; [exact Hk|]. split; [exact Hops|]. split; [exact Hne|]. split; [exact Hd|]. cbn [la_operator la_result la_types la_operands].
    split; [reflexivity|]. split; [reflexivity|].
    destruct (cs_operator _ _ _ C Hsup) as (k' & Hk' & _ & Hlen). rewrite Hk in Hk'. injection Hk' as <-.
    destruct (Hlen Hne types r Hops) as [E|E]; destruct types as [|t1 [|t2 [|t3 types]]]; try discriminate.
    + left. exists t1. split; [reflexivity|]. split; [intros ->; apply Hun; auto|]. split; [intros ->; apply Hun; auto|]. auto.
    + right. destruct (core_eqb (ty_core t1) (CRecord r)) eqn:Ec; [left|right]; exists t1, t2; cbn [negb]; auto 6.
Qed.

Lemma operators_compute u x e dv decls st st' ss rs : define u x e dv decls st = Some (st', ss, rs) ->
  forall n f l, In (SOperator n f l) ss -> consistent u x f ->
  exists r p k types, e = XRecord r p /\ fi_operator (x_fn x f) = Some k /\ operands u x r f types /\
    la_operator l = k /\ la_result l = fi_result (x_fn x f) /\
    map (operand_type l) (la_operands l) = map Some types /\ length (la_types l) = length types /\
    (forall V (meaning : opkind -> list V -> V) form, invoked_by n form -> arity form = length types /\ computes meaning l form) /\
    (n <> [] -> exists form, invoked_by n form /\ symbol form = k /\
       match form, types with Binary _ self_left, t :: _ => self_left = core_eqb (ty_core t) (CRecord r) | _, _ => True end) /\
    ((exists t, In t types /\ ty_core t = CRecord r) -> exists t ts, la_types l = t :: ts /\ ty_core t = CRecord r).
Proof.
  intros D n f l H C. destruct (operator_bound _ _ _ _ _ _ _ _ _ D _ _ _ H) as (r & p & a & -> & _ & _ & Hb).
  destruct (operator_shape _ _ _ _ _ _ _ Hb C) as (k & types & Hk & Hops & _ & _ & Hlk & Hlr & Hcases). exists r, p, k, types.
  split; [reflexivity|]. split; [exact Hk|]. split; [exact Hops|]. split; [exact Hlk|]. split; [exact Hlr|]. clear Hk Hops Hlr.
  assert (Hcore : forall t, core_eqb (ty_core t) (CRecord r) = true <-> ty_core t = CRecord r).
  { intros t. destruct (ty_core t) as [i|i]; cbn [core_eqb]; [rewrite Nat.eqb_eq|]; split; congruence. }
  destruct Hcases as [(t & -> & _ & _ & -> & Ht & Ho)|[(t1 & t2 & -> & Hc & -> & Ht & Ho)|(t1 & t2 & -> & Hc & -> & Ht & Ho)]];
    unfold operand_type; rewrite Ht, Ho; (split; [reflexivity|]); (split; [reflexivity|]).
  - split; [|split].
    + intros V meaning form Hf. apply forms_of_iff, unary_forms in Hf as ->. split; [reflexivity|]. intros self other. unfold run_lambda. rewrite Hlk, Ho. reflexivity.
    + intros Hn. exists (Unary k). split; [apply forms_of_iff, unary_named, Hn|auto].
    + intros (t' & [<-|[]] & E). eauto.
  - split; [|split].
    + intros V meaning form Hf. apply forms_of_iff, binary_forms in Hf. destruct Hf as [->|(s & -> & Hs)]; (split; [reflexivity|]); intros self other; cbn [negb]; unfold run_lambda; rewrite Hlk, Ho.
      * left. reflexivity.
      * right. exists k. split; [exact Hs|reflexivity].
    + intros Hn. exists (Binary k true). split; [apply forms_of_iff, (binary_named k false), Hn|]. split; [reflexivity|congruence].
    + intros _. exists t1, [t2]. split; [reflexivity|]. apply Hcore, Hc.
  - split; [|split].
    + intros V meaning form Hf. apply forms_of_iff, binary_forms in Hf. destruct Hf as [->|(s & -> & Hs)]; (split; [reflexivity|]); intros self other; cbn [negb]; unfold run_lambda; rewrite Hlk, Ho.
      * left. reflexivity.
      * right. exists k. split; [exact Hs|reflexivity].
    + intros Hn. exists (Binary k false). split; [apply forms_of_iff, (binary_named k true), Hn|]. split; [reflexivity|congruence].
    + intros (t' & [<-|[<-|[]]] & E); [apply Hcore in E; congruence|]. eauto.
Qed.

Lemma unary_nameless k : possible_unary k = true -> never_emitted k = false -> k <> OStar -> k <> OAmp -> (unary_name k = [] <-> k = OExclaim \/ k = OCoawait).
Proof. destruct k; intros P N S A; try discriminate; try congruence; split; intros H; try discriminate; auto; destruct H; discriminate. Qed.
Lemma binary_nameless k reverse : possible_binary k = true -> never_emitted k = false -> (binary_name k reverse = [] <-> reverse = true /\ compound_assignment k = true).
Proof. destruct k, reverse; intros P N; try discriminate; split; intros H; try discriminate; auto; destruct H; discriminate. Qed.
Lemma unary_injective k k' : unary_name k = unary_name k' -> unary_name k <> [] -> k = k'.
Proof.
  intros E H. assert (Hf := unary_named k H). rewrite E in Hf. apply unary_forms in Hf. injection Hf as ->. reflexivity.
Qed.
Lemma binary_injective k k' b : binary_name k b = binary_name k' b -> binary_name k b <> [] -> k = k'.
Proof.
  intros E H. assert (Hf := binary_named k b H). rewrite E in Hf. apply binary_forms in Hf. destruct Hf as [Hf|(s & Hf & _)].
  - injection Hf as ->. reflexivity.
  - injection Hf as _ Hf. destruct b; discriminate.
Qed.

Lemma operator_names u x e dv decls st st' ss rs : define u x e dv decls st = Some (st', ss, rs) ->
  (forall n f l, In (SOperator n f l) ss -> consistent u x f -> overloadable u x f ->
    (n = [] <-> (la_operands l = [Lhs] /\ (la_operator l = OExclaim \/ la_operator l = OCoawait)) \/
                (la_operands l = [Rhs; Lhs] /\ compound_assignment (la_operator l) = true))) /\
  (forall n f l f' l', In (SOperator n f l) ss -> In (SOperator n f' l') ss -> consistent u x f -> consistent u x f' ->
    n <> [] -> la_operands l = la_operands l' -> la_operator l = la_operator l').
Proof.
  intros D. split.
  - intros n f l H C Ov. destruct (operator_bound _ _ _ _ _ _ _ _ _ D _ _ _ H) as (r & p & a & -> & _ & _ & Hb).
    destruct (operator_shape _ _ _ _ _ _ _ Hb C) as (k & types & Hk & Hops & Hne & _ & -> & _ & Hcases). specialize (Ov k r types Hk Hops).
    destruct Hcases as [(t & -> & H1 & H2 & -> & _ & ->)|[(t1 & t2 & -> & _ & -> & _ & ->)|(t1 & t2 & -> & _ & -> & _ & ->)]]; cbn [length] in Ov.
    + rewrite (unary_nameless k Ov Hne H1 H2). split; [auto|]. intros [[_ E]|[E _]]; [exact E|discriminate].
    + rewrite (binary_nameless k false Ov Hne). split; [intros [E _]; discriminate|]. intros [[E _]|[E _]]; discriminate.
    + rewrite (binary_nameless k true Ov Hne). split; [intros [_ E]; auto|]. intros [[E _]|[_ E]]; [discriminate|auto].
  - intros n f l f' l' H H' C C' Hn Ho.
    destruct (operator_bound _ _ _ _ _ _ _ _ _ D _ _ _ H) as (r & p & a & -> & _ & _ & Hb).
    destruct (operator_bound _ _ _ _ _ _ _ _ _ D _ _ _ H') as (r' & p' & a' & [= <- <-] & _ & _ & Hb').
    destruct (operator_shape _ _ _ _ _ _ _ Hb C) as (k & types & _ & _ & _ & _ & -> & _ & Hcases).
    destruct (operator_shape _ _ _ _ _ _ _ Hb' C') as (k' & types' & _ & _ & _ & _ & -> & _ & Hcases').
    destruct Hcases as [(t & _ & _ & _ & -> & _ & E)|[(t1 & t2 & _ & _ & -> & _ & E)|(t1 & t2 & _ & _ & -> & _ & E)]]; rewrite E in Ho;
    destruct Hcases' as [(t' & _ & _ & _ & En & _ & E')|[(t1' & t2' & _ & _ & En & _ & E')|(t1' & t2' & _ & _ & En & _ & E')]]; rewrite E' in Ho; try discriminate.
    + apply unary_injective; assumption.
    + eapply binary_injective; eassumption.
    + eapply binary_injective; eassumption.
Qed.

(** ** Emission comes to an end *)

Record restricted (d : decl) (a : attrs) : Prop := {
  rs_implicit : at_implicit_conversion a = true -> length (d_params d) = 1;
  rs_postamble : f_postamble (at_field a) = true -> d_global d = true /\ d_kind d = KVar
}.

Lemma handlers_restricted d an : forall h, In h (handlers d) -> forall a, restricted d a -> restricted d (snd (fst (h an a))).
Proof.
  assert (Hid : forall a b, at_implicit_conversion b = at_implicit_conversion a -> f_postamble (at_field b) = f_postamble (at_field a) -> restricted d a -> restricted d b).
  { intros a b H1 H2 [X1 X2]. constructor; rewrite ?H1, ?H2; assumption. }
  assert (Hsel : forall k bs ins l a, (forall x a, restricted d a -> restricted d (ins x a)) -> restricted d a -> restricted d (snd (fst (select_bases k bs ins l a)))).
  { intros k bs ins l a Hi Ha. unfold select_bases. cbn [fst snd]. apply pres_fold; auto. }
  assert (Hadd : forall ins l a, (forall x a, restricted d a -> restricted d (ins x a)) -> restricted d a -> restricted d (snd (fst (add_properties ins l a)))).
  { intros ins l a Hi Ha. unfold add_properties. destruct l; [exact Ha|]. cbn [fst snd]. apply (pres_fold (restricted d) (fun a n => ins n a) (s :: l)); auto. }
  Ltac rso Hid := intros; repeat match goal with H : restricted ?d ?a |- restricted ?d _ => apply (Hid a); [reflexivity|reflexivity|exact H] end.
  intros h Hh a Ha. unfold handlers in Hh. repeat rewrite in_app_iff in Hh.
  assert (Hspell : forall k v, pres (restricted d) (store_spelling k v)).
  { intros k v. unfold store_spelling. destruct (StringModel.is_valid_identifier (get_string v)); [apply pres_change|apply pres_complain]. rso Hid. }
  assert (Hinv : forall (c : bool * list diag) s, fst c = false -> unmatched (ensure c s) = false).
  { intros c s Hc. unfold ensure, unmatched. destruct (ds_state s) eqn:E; rewrite ?E, ?Hc; reflexivity. }
  destruct Hh as [Hh|[Hh|[Hh|[Hh|[Hh|[Hh|[Hh|[Hh|[Hh|[Hh|Hh]]]]]]]]]];
    repeat match type of Hh with In _ (if ?b then _ else _) => destruct b end; cbn [In] in Hh; try contradiction;
    destruct Hh as [<-|[]];
    unfold process_named, process_namespace, process_enum, process_record, process_typedef, process_field, process_operator, process_conversion,
      process_method, process_constructor, process_function, no_check, flag;
    destruct (a_kind an); try exact Ha; cbn [fst snd];
    try apply (pres_check_match (restricted d));
    try (lazymatch goal with
    | |- context [mkField _ _ true] =>
        assert (Hv : manual_bindings_expr d <> None -> d_kind d = KVar) by (unfold manual_bindings_expr; destruct (d_kind d); congruence);
        destruct (manual_bindings_expr d); [destruct (d_global d) eqn:Eg|];
        [|unfold nullary at 1; rewrite Hinv by reflexivity; apply (pres_ensure (restricted d)), Ha..]
    | |- context [set_implicit_conversion] =>
        destruct (Nat.eqb_spec (length (d_params d)) 1) as [El|El]; cbn [negb orb];
        [|unfold unary at 1, nullary at 1; unfold nullary at 1; rewrite Hinv by reflexivity; rewrite Hinv by reflexivity; apply (pres_ensure (restricted d)), Ha]
    end);
    repeat first
      [ exact Ha | apply Hspell | apply Hsel | apply Hadd
      | apply (pres_nullary (restricted d)) | apply (pres_unary (restricted d)) | apply (pres_binary (restricted d)) | apply (pres_variadic (restricted d))
      | apply (pres_variadic_collect (restricted d)) | apply (pres_ensure (restricted d)) | apply (pres_on_match (restricted d))
      | match goal with |- pres _ (change _) => apply pres_change | |- pres _ (complain _) => apply pres_complain
          | |- pres _ (match ?x with _ => _ end) => destruct x
          | |- forall _, _ => intro | |- _ -> _ => intro end ];
    try (rso Hid).
  all: try (intros b Hb; exact Hb).
  all: match goal with H : restricted _ _ |- _ => destruct H; constructor; cbn; auto end.
  intros _. split; [exact Eg|]. apply Hv. discriminate.
Qed.

Lemma process_annotations_restricted d ans : forall a a' dss, process_annotations d ans a = Some (a', dss) -> restricted d a -> restricted d a'.
Proof.
  induction ans as [|an ans IH]; intros a a' dss; cbn [process_annotations].
  - intros [= <- _]. auto.
  - destruct (process_annotation d an a) as [[a1 ds]|] eqn:E1; [|discriminate].
    destruct (process_annotations d ans a1) as [[a2 dss2]|] eqn:E2; [|discriminate]. intros [= <- _] Ha.
    apply (IH _ _ _ E2). unfold process_annotation in E1.
    assert (H := pres_any_of (restricted d) (handlers d) an (handlers_restricted d an) a Ha).
    destruct (any_of (handlers d) an a) as [[ok a'] ds']. cbn in H.
    destruct (existsb is_error ds' || ok); [|destruct (supports_typedef_diags d)]; injection E1 as <- _ || discriminate; exact H.
Qed.

Lemma own_restricted u i a : own_attributes u i a -> restricted (u_decls u i) a.
Proof.
  intros (st & ds & Hi & Hl). unfold insert in Hi. cbn in Hi. destruct (d_skip (u_decls u i)); [injection Hi as <- <-; discriminate|].
  destruct (compute_attrs (u_decls u i)) as [[b ds']|] eqn:E; [|discriminate]. injection Hi as <- <-. cbn in Hl. rewrite Nat.eqb_refl in Hl. injection Hl as <-.
  unfold compute_attrs in E. destruct (parse_attrs (d_attrs (u_decls u i)) []) as [ans pds].
  destruct (process_annotations (u_decls u i) ans (initial_attrs (u_decls u i))) as [[a' dss]|] eqn:Ep; [|discriminate]. injection E as <- _.
  apply (process_annotations_restricted _ _ _ _ _ Ep). unfold initial_attrs. destruct (_ && _); constructor; discriminate.
Qed.

Lemma impl_total u x st e i a ps : lookup_attrs st i = Some a -> (is_tag_kind (kind u i) = false -> restricted (u_decls u i) a) ->
  consistent u x i -> in_place u e i -> first_class_named u x i -> handle_impl u x st e i ps <> None.
Proof.
  intros Ha R C P N.
  assert (G : kind u i <> KConstructor -> kind u i <> KField -> handle_generic u x st i <> None).
  { intros H1 H2. unfold handle_generic.
    assert (supports_constructor (u_decls u i) = false) as -> by (unfold supports_constructor; unfold kind in H1; destruct (d_kind (u_decls u i)); congruence).
    cbn [andb]. destruct (get_typedef u st i) as [t|].
    - destruct (n_visible _); [|discriminate]. destruct (t_expose_here t); [discriminate|]. destruct (x_tag x i); discriminate.
    - destruct (get u st supports_field at_field i) as [v|].
      + destruct (f_manual v); [destruct (f_postamble v); discriminate|]. destruct (kind u i); try discriminate; congruence.
      + destruct (match get u st supports_method at_method i with Some _ => _ | None => _ end); [discriminate|].
        destruct (get u st supports_function at_function i); [|discriminate]. destruct (fi_deleted (x_fn x i)); [discriminate|].
        destruct (parameters x i f); discriminate. }
  destruct e as [|k|k|r p]; cbn [handle_impl in_place] in *.
  1,2: destruct P as [P1 P2]; specialize (G P2 P1); destruct (handle_generic u x st i); [discriminate|congruence].
  { unfold handle_enum. destruct (x_enumerator x i); discriminate. }
  unfold handle_record. rewrite !(get_stored _ _ _ _ _ _ Ha).
  destruct (supports_constructor (u_decls u i)) eqn:Ec.
  - unfold handle_constructor. destruct (fi_move (x_fn x i) || fi_deleted (x_fn x i) || x_abstract x r); [discriminate|].
    destruct (parameters x i _) as [args rs]. destruct (at_implicit_conversion a) eqn:Ei; [|discriminate].
    destruct (fi_params (x_fn x i)) eqn:Ep; [|discriminate]. exfalso.
    assert (L : length (d_params (u_decls u i)) = 1).
    { apply (rs_implicit _ _ (R ltac:(unfold kind, is_tag_kind, supports_constructor in *; destruct (d_kind (u_decls u i)); congruence))), Ei. }
    rewrite (cs_params _ _ _ C), Ep in L. discriminate.
  - destruct (supports_operator (u_decls u i)) eqn:Eo.
    + unfold handle_operator. destruct (fi_deleted (x_fn x i)); [discriminate|].
      destruct (cs_operator _ _ _ C Eo) as (k & Hop & Hk & Hlen). rewrite Hop.
      assert (Hos : is_ostream_operator u x i k <> None).
      { unfold is_ostream_operator. destruct (is_method u i) eqn:Em; [discriminate|]. destruct k; cbn [negb orb]; try discriminate.
        destruct (operator_kind u i Eo) as [[Kk Km]|[Kk Km]]; [|congruence].
        destruct (fi_pointee (x_fn x i)) eqn:Ef; try discriminate. exfalso. eapply N; eauto. }
      destruct k; try congruence; match goal with |- context [is_ostream_operator ?A ?B ?C ?kk] => destruct (is_ostream_operator A B C kk) as [[|]|] eqn:Eos; [| |congruence] end;
        try (destruct (get_named u st i) as [n|]; [destruct (is_empty (n_spelling n))|]; discriminate).
      all: match goal with |- context [emit_operator ?A ?B ?C ?D ?kk] => assert (He : emit_operator A B C D kk <> None);
        [|destruct (emit_operator A B C D kk); [discriminate|congruence]] end.
      all: unfold emit_operator; destruct (never_emitted _) eqn:Ene; [discriminate|];
        pose proof (Hlen eq_refl (operand_types u x r i) r (proj2 (operands_iff u x r i _ Eo) eq_refl)) as L;
        destruct (operand_types u x r i) as [|t1 [|t2 [|t3 ts]]]; cbn [length] in L; try (exfalso; lia); cbn; discriminate.
    + destruct (match (if supports_method (u_decls u i) then Some (at_method a) else None) with Some _ => _ | None => _ end) as [m|].
      { destruct (define_properties i m ps). discriminate. }
      destruct (supports_field (u_decls u i)) eqn:Ef.
      * destruct (f_manual (at_field a)) eqn:Em; [|discriminate]. destruct (f_postamble (at_field a)) eqn:Epo; [|discriminate]. exfalso.
        assert (Ht : is_tag_kind (kind u i) = false) by (unfold kind, is_tag_kind, supports_field in *; destruct (d_kind (u_decls u i)); congruence).
        destruct (rs_postamble _ _ (R Ht) Epo) as [Hg Hk]. rewrite (P Hk) in Hg. discriminate.
      * specialize (G ltac:(unfold kind, supports_constructor in *; destruct (d_kind (u_decls u i)); congruence) ltac:(unfold kind, supports_field in *; destruct (d_kind (u_decls u i)); congruence)).
        destruct (handle_generic u x st i); [discriminate|congruence].
Qed.

Lemma insert_faithful u i st st' ds : insert (u_decls u) i st = Some (st', ds) -> faithful u st -> faithful u st'.
Proof.
  intros H F j a Ht Ha. destruct (insert_spec _ _ _ _ _ H) as (H1 & H2 & H3 & _ & H5).
  destruct (Nat.eq_dec j i) as [->|E]; [|rewrite H1 in Ha by exact E; auto].
  destruct (lookup_attrs st i) as [b|] eqn:El; [rewrite (H2 b eq_refl) in Ha; injection Ha as <-; apply F; assumption|].
  destruct (d_skip (u_decls u i)) eqn:Es; [destruct (H5 eq_refl) as [-> _]; congruence|].
  destruct (H3 eq_refl eq_refl) as (b & Hc & Hl). rewrite Hl in Ha. injection Ha as <-.
  unfold own_attributes, insert, has. rewrite Es. cbn [lookup_attrs]. rewrite Hc. eexists _, _. split; [reflexivity|]. cbn. rewrite Nat.eqb_refl. reflexivity.
Qed.

Lemma define_total u x e dv decls st : faithful u st ->
  (forall i, In i (flat_map (expand x) decls) -> consistent u x i /\ in_place u e i /\ first_class_named u x i /\ insert (u_decls u) i [] <> None) ->
  define u x e dv decls st <> None.
Proof.
  intros F H. unfold define.
  destruct (fold_opt_inv (handle_decl u x e dv) (flat_map (expand x) decls) (fun _ s => faithful u (em_storage s)) (mkState st [] [] [])) as (s & -> & _).
  - exact F.
  - intros l1 i l2 s E Fs. assert (Hi : In i (flat_map (expand x) decls)) by (rewrite E, in_app_iff; right; apply in_eq).
    destruct (H i Hi) as (C & P & N & I). unfold handle_decl.
    assert (Hins : insert (u_decls u) i (em_storage s) <> None).
    { unfold insert in *. destruct (d_skip (u_decls u i)); [discriminate|]. destruct (has (em_storage s) i); [discriminate|]. unfold has in I. cbn in I.
      destruct (compute_attrs (u_decls u i)) as [[? ?]|]; [discriminate|exact I]. }
    destruct (insert (u_decls u) i (em_storage s)) as [[st1 ds]|] eqn:Ei; [|congruence].
    assert (F1 := insert_faithful _ _ _ _ _ Ei Fs). destruct (is_visible u st1 dv i) eqn:Ev; [|eexists; split; [reflexivity|exact F1]].
    apply is_visible_iff in Ev as (a & Ha & _).
    assert (Ht := impl_total u x st1 e i a (em_properties s) Ha (fun Ht => own_restricted _ _ _ (F1 i a Ht Ha)) C P N).
    destruct (handle_impl u x st1 e i (em_properties s)) as [[[ss rs] ps]|]; [|congruence]. eexists. split; [reflexivity|exact F1].
  - destruct (finalize u x (em_storage s) e (em_properties s)). discriminate.
Qed.

(** ** Visible declarations are bound *)

Lemma called_exists u a i fallback : exists n, called u a i fallback n.
Proof.
  unfold called. destruct (n_spelling (at_named a)) as [|c s]; [|exists (c :: s); left; split; [discriminate|reflexivity]].
  destruct fallback as [|c s]; [exists (u_name u i); auto|]. exists (c :: s). right. left. split; [reflexivity|]. split; [discriminate|reflexivity].
Qed.

Lemma describes_exists x f a : exists args, describes a (fi_params (x_fn x f)) args.
Proof. destruct (parameters_described x f a) as (args & rs & _ & H & _). eauto. Qed.

Lemma visible_bound u x e dv decls st st' ss rs : define u x e dv decls st = Some (st', ss, rs) ->
  forall i a, In i (flat_map (expand x) decls) -> lookup_attrs st' i = Some a -> shown dv a ->
  (forall k, e = XEnum k -> x_enumerator x i = true -> exists n, In (SValue n i) ss) /\
  ((forall k, e <> XEnum k) -> supports_function (u_decls u i) = true -> kind u i <> KConstructor -> fi_deleted (x_fn x i) = false ->
     (supports_method (u_decls u i) = true -> ~ is_property a) -> (forall r p, e = XRecord r p -> supports_operator (u_decls u i) = false) ->
     exists static n args, In (SFunction static n i args (at_function a)) ss) /\
  ((forall k, e <> XEnum k) -> (forall r p, e <> XRecord r p) -> kind u i = KVar -> f_manual (at_field a) = None -> exists n, In (SVariable n i) ss) /\
  (forall r p, e = XRecord r p -> kind u i = KField \/ kind u i = KVar -> f_manual (at_field a) = None -> exists static readonly n, In (SMember static readonly n i) ss) /\
  (forall r p, e = XRecord r p -> kind u i = KConstructor -> fi_move (x_fn x i) = false -> fi_deleted (x_fn x i) = false -> x_abstract x r = false ->
     exists args, In (SInit i (map pm_type (fi_params (x_fn x i))) args (at_function a)) ss).
Proof.
  intros D i a Hi Ha Hs.
  assert (K : forall t, closing t = false -> bound u x e i a t -> In t ss).
  { intros t Hc Hb. apply (in_parts _ _ _ _ _ _ _ _ _ D t Hc). exists i. split; [exact Hi|]. exists a. auto. }
  split; [|split; [|split; [|split]]].
  - intros k -> Hx. destruct (called_exists u a i []) as (n & Hn). exists n. apply K; [reflexivity|]. constructor; assumption.
  - intros He Hf Hk Hd Hp Ho. destruct (called_exists u a i (match fi_operator (x_fn x i) with Some OCall => $"__call__" | _ => [] end)) as (n & Hn).
    destruct (describes_exists x i (at_function a)) as (args & Hargs).
    exists (is_method u i && d_static (u_decls u i)), n, args. apply K; [reflexivity|].
    assert (Hb : bound_function u x i a (SFunction (is_method u i && d_static (u_decls u i)) n i args (at_function a))).
    { constructor; auto. apply static_iff; assumption. }
    destruct e as [|k|k|r p]; cbn [bound]; [apply ns_function, Hb..| |apply rec_function; [eapply Ho; reflexivity|exact Hb]]. destruct (He k eq_refl).
  - intros He Hr Hk Hm. destruct (called_exists u a i []) as (n & Hn). exists n. apply K; [reflexivity|].
    destruct e as [|k|k|r p]; cbn [bound]; [constructor; assumption..| |]; [destruct (He k eq_refl)|destruct (Hr r p eq_refl)].
  - intros r p -> Hk Hm. destruct (called_exists u a i []) as (n & Hn).
    exists (match kind u i with KVar => true | _ => false end), (x_const x i || f_readonly (at_field a)), n. apply K; [reflexivity|]. cbn [bound].
    apply rec_member; [|exact Hm|exact Hn|apply orb_true_iff]. destruct Hk as [-> | ->]; auto.
  - intros r p -> Hk Hmv Hd Hab. destruct (describes_exists x i (at_function a)) as (args & Hargs). exists args. apply K; [reflexivity|]. cbn [bound].
    apply rec_init; assumption.
Qed.

(** ** Operators in associated namespaces *)

Lemma adl_kinds_iff k : In k adl_kinds <-> k = OSpaceship \/ exists n form, invoked_by n form /\ symbol form = k.
Proof.
  split.
  - intros H. assert (Hn : k = OSpaceship \/ binary_name k false <> [] \/ unary_name k <> []).
    { unfold adl_kinds in H. cbn [In] in H. repeat (destruct H as [<-|H]; [first [left; reflexivity|right; left; discriminate|right; right; discriminate]|]). destruct H. }
    destruct Hn as [Hn|[Hn|Hn]]; [left; exact Hn| |]; right.
    + exists (binary_name k false), (Binary k true). split; [apply forms_of_iff, (binary_named k false), Hn|reflexivity].
    + exists (unary_name k), (Unary k). split; [apply forms_of_iff, unary_named, Hn|reflexivity].
  - intros [->|(n & form & (s & fs & Hs & _ & Hf) & <-)]; [cbn; auto 40|]. unfold special_methods in Hs. cbn [In] in Hs.
    repeat (destruct Hs as [Hs|Hs]; [injection Hs as <- <-; cbn [In] in Hf; repeat (destruct Hf as [<-|Hf]; [cbn; auto 40|]); destruct Hf|]). destruct Hs.
Qed.

Lemma in_place_name n form : invoked_by n form ->
  match form with
  | Unary k => never_emitted k = false /\ k <> OStar /\ k <> OAmp /\ invoked_by (unary_name k) form
  | Binary k self_left => never_emitted k = false /\ invoked_by (binary_name k (negb self_left)) form
  end.
Proof.
  intros (s & fs & Hs & _ & Hf). unfold special_methods in Hs. cbn [In] in Hs.
  repeat (destruct Hs as [Hs|Hs]; [injection Hs as <- <-; cbn [In] in Hf; repeat (destruct Hf as [<-|Hf];
    [repeat split; try discriminate; apply forms_of_iff; first [apply unary_named; discriminate|apply (binary_named _ false); discriminate|apply (binary_named _ true); discriminate]|]); destruct Hf|]). destruct Hs.
Qed.

Lemma core_eqb_record t r : core_eqb (ty_core t) (CRecord r) = true <-> ty_core t = CRecord r.
Proof. destruct (ty_core t) as [i|i]; cbn [core_eqb]; [rewrite Nat.eqb_eq|]; split; congruence. Qed.

Lemma associated_iff x r i : templates_once x -> In i (flat_map (expand x) (associated_operators x r)) <-> associated x r i.
Proof.
  intros O. assert (E : forall j, In j (associated_operators x r) -> expand x j = [j]).
  { intros j Hj. unfold associated_operators in Hj. apply filter_In in Hj as [Hj _]. apply in_flat_map in Hj as (k & _ & Hk). unfold expand in *.
    destruct (x_specializations x k) as [l|] eqn:Ek; [rewrite (O _ _ _ Ek Hk); reflexivity|]. destruct Hk as [<-|[]]. rewrite Ek. reflexivity. }
  assert (H : In i (flat_map (expand x) (associated_operators x r)) <-> In i (associated_operators x r)).
  { rewrite in_flat_map. split; [intros (j & Hj & Hi); rewrite (E j Hj) in Hi; destruct Hi as [<-|[]]; exact Hj|intros Hi; exists i; split; [exact Hi|rewrite (E i Hi); left; reflexivity]]. }
  rewrite H. unfold associated_operators, associated. rewrite filter_In, existsb_exists. unfold has_type_of_record. rewrite in_flat_map. split.
  - intros ((j & Hj & Hi) & p & Hp & Ht). apply in_flat_map in Hj as (k & Hk & Hj). split; [exists k, j; split; [exact Hj|split; [exact Hi|apply adl_kinds_iff, Hk]]|].
    exists p. split; [exact Hp|apply core_eqb_record, Ht].
  - intros ((k & j & Hj & Hi & Hk) & p & Hp & Ht). split; [exists j; split; [apply in_flat_map; exists k; split; [apply adl_kinds_iff, Hk|exact Hj]|exact Hi]|].
    exists p. split; [exact Hp|apply core_eqb_record, Ht].
Qed.

Lemma declarations_iff u x r visible i : templates_once x ->
  (In i (flat_map (expand x) (declarations u x r visible)) <-> In i (flat_map (expand x) visible) \/ (kind u r = KRecord /\ associated x r i)).
Proof.
  intros O. unfold declarations. rewrite flat_map_app, in_app_iff.
  assert (Hs : In i (flat_map (expand x) (sort_by_location u visible)) <-> In i (flat_map (expand x) visible)).
  { rewrite !in_flat_map. split; intros (j & Hj & Hi); exists j; (split; [|exact Hi]); [apply (Permutation.Permutation_in _ (Permutation.Permutation_sym (sort_perm u visible))), Hj|apply (Permutation.Permutation_in _ (sort_perm u visible)), Hj]. }
  rewrite Hs. destruct (kind u r) eqn:K; cbn [flat_map In]; try (split; [intros [H|[]]; auto|intros [H|[H _]]; [auto|discriminate]]).
  rewrite (associated_iff x r i O). tauto.
Qed.

Lemma free_operators_bound u x r p dv visible st st' ss rs :
  define u x (XRecord r p) dv (declarations u x r visible) st = Some (st', ss, rs) -> templates_once x -> kind u r = KRecord ->
  forall i, associated x r i \/ In i (flat_map (expand x) visible) -> forall a k types n0 form, lookup_attrs st' i = Some a -> shown dv a ->
  supports_operator (u_decls u i) = true -> fi_operator (x_fn x i) = Some k -> fi_deleted (x_fn x i) = false ->
  ~ (k = OLessLess /\ kind u i = KFunction OtherOperator /\ fi_pointee (x_fn x i) = Named true) ->
  operands u x r i types -> invoked_by n0 form -> corresponds r k types form ->
  exists n l, In (SOperator n i l) ss /\ invoked_by n form.
Proof.
  intros D O Kr i Hi a k types n0 form Ha Hsh Hop Hk Hdel Hos Hops Hf (Hsym & Har & Hside).
  assert (Hin : In i (flat_map (expand x) (declarations u x r visible))) by (apply declarations_iff; [exact O|]; destruct Hi; auto).
  destruct (define_spec _ _ _ _ _ _ _ _ _ D) as [(parts & final & Hss & Hparts & _) _ _ _ _ _ _ _ _].
  assert (Hpart : exists part, In part parts /\ forall t, In t part <-> emitted_for u x (XRecord r p) dv st' i t).
  { clear - Hparts Hin. induction Hparts as [|j part l parts [_ H] _ IH]; [destruct Hin|]. destruct Hin as [<-|Hin]; [exists part; split; [left; reflexivity|exact H]|].
    destruct (IH Hin) as (part' & H1 & H2). exists part'. split; [right; exact H1|exact H2]. }
  destruct Hpart as (part & Hpart & Hemit). assert (Hname := in_place_name _ _ Hf).
  assert (Hgo : forall n, never_emitted k = false -> ~ (length types = 1 /\ (k = OStar \/ k = OAmp)) ->
    n = (match types with lhs :: _ :: _ => binary_name k (negb (core_eqb (ty_core lhs) (CRecord r))) | _ => unary_name k end) -> exists l, In (SOperator n i l) ss).
  { intros n Hne Hst Hn. eexists. rewrite Hss. apply in_app_iff. left. apply in_concat. exists part. split; [exact Hpart|]. apply Hemit. exists a. split; [exact Ha|]. split; [exact Hsh|].
    cbn [bound]. eapply rec_operator; try eassumption. reflexivity. }
  destruct form as [k'|k' sl]; cbn in Hsym, Har; subst k'.
  - destruct Hname as (H1 & H2 & H3 & H4). destruct types as [|t [|t' ts]]; try discriminate.
    destruct (Hgo (unary_name k) H1) as (l & Hl); [intros [_ [E|E]]; congruence|reflexivity|]. exists (unary_name k), l. auto.
  - destruct Hname as (H1 & H2). destruct types as [|t [|t' [|? ?]]]; try discriminate.
    destruct (Hgo (binary_name k (negb (core_eqb (ty_core t) (CRecord r)))) H1) as (l & Hl); [intros [E _]; discriminate|reflexivity|].
    exists (binary_name k (negb (core_eqb (ty_core t) (CRecord r)))), l. split; [exact Hl|].
    assert (El : sl = core_eqb (ty_core t) (CRecord r)). { apply eq_true_iff_eq. rewrite core_eqb_record. exact Hside. }
    rewrite <- El. exact H2.
Qed.
