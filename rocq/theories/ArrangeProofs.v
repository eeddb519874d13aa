(** * Proofs about the order of annotations *)
From Coq Require Import Lia Sorting.Permutation.
From Verif Require Import Base ParserModel StringModel AnnotModel AnnotSpec AnnotProofs AnnotStore AnnotFinal CollectModel GraphModel GraphSpec EmitModel ModuleModel LocalSpec RewriteSpec RewriteProofs ArrangeSpec.

Lemma akind_dec (k l : akind) : {k = l} + {k <> l}.
Proof. decide equality. Qed.

(** ** Updates *)

Inductive update :=
| UVisible (v : option bool) | USpelling (s : str) | UModule | UOnly (s : str) | UArithmetic (b : bool) | UExport (b : bool)
| UDynamic (b : bool) | UHide (x : nat) | UInline (x : nat) | UHolder (s : str) | UEncourage | UHere
| UReadonly (b : bool) | UManual (m : option nat) | UPostamble | UGetter (s : str) | USetter (s : str) | UImplicit (b : bool)
| UKeep (p : nat * nat) | UNoconvert (x : nat) | URequired (x : nat) | UPolicy (s : str).

Definition apply (x : update) : attrs -> attrs :=
  match x with
  | UVisible v => set_visible v
  | USpelling s => set_spelling s
  | UModule => set_namespace (fun n => mkNamespace true (ns_only_expose_in n))
  | UOnly s => set_namespace (fun n => mkNamespace (ns_module n) (ns_only_expose_in n ++ [s]))
  | UArithmetic b => set_enum (fun e => mkEnum b (e_export_values e))
  | UExport b => set_enum (fun e => mkEnum (e_arithmetic e) (Some b))
  | UDynamic b => set_record (fun r => mkRecord b (r_hide_base r) (r_inline_base r) (r_holder_type r))
  | UHide x => set_record (fun r => mkRecord (r_dynamic_attr r) (add_nat x (r_hide_base r)) (r_inline_base r) (r_holder_type r))
  | UInline x => set_record (fun r => mkRecord (r_dynamic_attr r) (r_hide_base r) (add_nat x (r_inline_base r)) (r_holder_type r))
  | UHolder s => set_record (fun r => mkRecord (r_dynamic_attr r) (r_hide_base r) (r_inline_base r) s)
  | UEncourage => set_typedef (fun t => mkTypedef true (t_expose_here t))
  | UHere => set_typedef (fun t => mkTypedef (t_encourage t) true)
  | UReadonly b => set_field (fun f => mkField b (f_manual f) (f_postamble f))
  | UManual m => set_field (fun f => mkField (f_readonly f) m (f_postamble f))
  | UPostamble => set_field (fun f => mkField (f_readonly f) (f_manual f) true)
  | UGetter s => set_method (fun m => mkMethod (add_str s (m_getter_for m)) (m_setter_for m))
  | USetter s => set_method (fun m => mkMethod (m_getter_for m) (add_str s (m_setter_for m)))
  | UImplicit b => set_implicit_conversion b
  | UKeep p => set_function (fun f => mkFunction (fn_keep_alive f ++ [p]) (fn_noconvert f) (fn_required f) (fn_policy f))
  | UNoconvert x => set_function (fun f => mkFunction (fn_keep_alive f) (add_nat x (fn_noconvert f)) (fn_required f) (fn_policy f))
  | URequired x => set_function (fun f => mkFunction (fn_keep_alive f) (fn_noconvert f) (add_nat x (fn_required f)) (fn_policy f))
  | UPolicy s => set_function (fun f => mkFunction (fn_keep_alive f) (fn_noconvert f) (fn_required f) s)
  end.

Definition topic (x : update) : akind :=
  match x with
  | UVisible _ => Visible | USpelling _ => ExposeAs | UModule => Module | UOnly _ => OnlyExposeIn | UArithmetic _ => Arithmetic | UExport _ => ExportValues
  | UDynamic _ => DynamicAttr | UHide _ => HideBase | UInline _ => InlineBase | UHolder _ => HolderType | UEncourage | UHere => ExposeHere
  | UReadonly _ => Readonly | UManual _ => Manual | UPostamble => Postamble | UGetter _ => GetterFor | USetter _ => SetterFor | UImplicit _ => ImplicitConversion
  | UKeep _ => KeepAlive | UNoconvert _ => Noconvert | URequired _ => Required | UPolicy _ => ReturnValuePolicy
  end.

Definition applied (us : list update) (a : attrs) : attrs := fold_left (fun a x => apply x a) us a.

Lemma applied_app us vs a : applied (us ++ vs) a = applied vs (applied us a).
Proof. apply fold_left_app. Qed.

Lemma apply_comm x y a : topic x <> topic y -> apply x (apply y a) = apply y (apply x a).
Proof. intros N. destruct x, y; first [reflexivity|exfalso; apply N; reflexivity]. Qed.

Lemma applied_comm x us a : ~ In (topic x) (map topic us) -> applied us (apply x a) = apply x (applied us a).
Proof.
  revert a. induction us as [|y us IH]; intros a N; [reflexivity|]. cbn in *. rewrite apply_comm; [apply IH; tauto|intros E; tauto].
Qed.

Lemma applied_swap us vs a : (forall k, In k (map topic us) -> ~ In k (map topic vs)) -> applied us (applied vs a) = applied vs (applied us a).
Proof.
  revert a. induction us as [|x us IH]; intros a D; [reflexivity|]. cbn in *. rewrite <- (applied_comm x vs); [|apply D; auto]. apply IH. auto.
Qed.

(** ** Handlers *)

Section Annotation.
Variable an : annotation.

(** Only what the annotation concerns is updated. *)
Definition inside (us : list update) : Prop := Forall (fun x => In (topic x) (concerns an)) us.

Definition simple (f : action) : Prop := exists us ds, inside us /\ forall a, f a = (applied us a, ds).

Definition staged (F : attrs -> dispatcher) : Prop :=
  exists st m us ds, inside us /\ forall a, F a = mkDispatcher st m (applied us a) ds.

Definition settled (f : attrs -> bool * attrs * list diag) : Prop :=
  exists ok us (ds : attrs -> list diag), inside us /\ (forall a, f a = (ok, applied us a, ds a)) /\
    (forall x a, ~ In (topic x) (concerns an) -> ds (apply x a) = ds a) /\ (ok = true \/ exists l, forall a, ds a = l).

Lemma simple_change x : In (topic x) (concerns an) -> simple (change (apply x)).
Proof. intros H. exists [x], []. split; [repeat constructor; exact H|reflexivity]. Qed.

Lemma simple_complain d : simple (complain d).
Proof. exists [], [d]. split; [constructor|reflexivity]. Qed.

Lemma simple_says ds : simple (fun a => (a, ds)).
Proof. exists [], ds. split; [constructor|reflexivity]. Qed.

Lemma staged_dispatch : staged dispatch.
Proof. exists Unmatched, None, [], []. split; [constructor|reflexivity]. Qed.

Lemma staged_perform f F : simple f -> staged F -> staged (fun a => perform f (F a)).
Proof.
  intros (us & ds & I & Ef) (st & m & us' & ds' & I' & EF). exists st, m, (us' ++ us), (ds' ++ ds). split; [apply Forall_app; auto|].
  intros a. unfold perform. rewrite EF. cbn [ds_attrs ds_state ds_mismatch ds_diags]. rewrite Ef, applied_app. reflexivity.
Qed.

Lemma staged_matched F : staged F -> staged (fun a => matched (F a)).
Proof. intros (st & m & us & ds & I & E). exists Matched, m, us, ds. split; [exact I|]. intros a. rewrite E. reflexivity. Qed.

Lemma staged_invalid F : staged F -> staged (fun a => invalid (F a)).
Proof. intros (st & m & us & ds & I & E). exists Invalid, m, us, ds. split; [exact I|]. intros a. rewrite E. reflexivity. Qed.

Lemma staged_mismatch v F : staged F -> staged (fun a => mismatch v (F a)).
Proof. intros (st & m & us & ds & I & E). exists st, (Some v), us, ds. split; [exact I|]. intros a. rewrite E. reflexivity. Qed.

Lemma staged_ext F G : (forall a, F a = G a) -> staged G -> staged F.
Proof. intros E (st & m & us & ds & I & H). exists st, m, us, ds. split; [exact I|]. intros a. rewrite E. apply H. Qed.

Lemma staged_if F G : staged F -> staged G -> staged (fun a => if unmatched (F a) then G a else F a).
Proof.
  intros HF HG. pose proof HF as (st & m & us & ds & I & E). destruct st; [apply (staged_ext _ G); [intros a; rewrite E; reflexivity|exact HG]|..];
    (apply (staged_ext _ F); [intros a; rewrite E; reflexivity|exact HF]).
Qed.

Lemma staged_nullary args f F : simple f -> staged F -> staged (fun a => nullary args f (F a)).
Proof. intros Hf HF. unfold nullary. apply staged_if; [exact HF|]. destruct args; [|exact HF]. apply staged_matched. now apply staged_perform. Qed.

Lemma staged_unary args k f F : (forall v, simple (f v)) -> staged F -> staged (fun a => unary args k f (F a)).
Proof.
  intros Hf HF. unfold unary. apply staged_if; [exact HF|]. destruct args as [|v [|w args]]; try exact HF. destruct (wrong_kind k [v]); [now apply staged_mismatch|].
  apply staged_matched. apply staged_perform; auto.
Qed.

Lemma staged_binary args k f F : (forall v w, simple (f v w)) -> staged F -> staged (fun a => binary args k f (F a)).
Proof.
  intros Hf HF. unfold binary. apply staged_if; [exact HF|]. destruct args as [|v [|w [|x args]]]; try exact HF. destruct (wrong_kind k [v; w]); [now apply staged_mismatch|].
  apply staged_matched. apply staged_perform; auto.
Qed.

Lemma staged_perform_all f args : (forall v, simple (f v)) -> forall F, staged F -> staged (fun a => perform_all f args (F a)).
Proof.
  intros Hf. induction args as [|v args IH]; intros F HF; [exact HF|]. cbn [perform_all]. apply (IH (fun a => perform (f v) (F a))). apply staged_perform; auto.
Qed.

Lemma staged_variadic args k f F : (forall v, simple (f v)) -> staged F -> staged (fun a => variadic args k f (F a)).
Proof.
  intros Hf HF. unfold variadic. apply staged_if; [exact HF|]. destruct args as [|v args]; [exact HF|]. destruct (wrong_kind k (v :: args)); [now apply staged_mismatch|].
  apply staged_matched. apply staged_perform_all; auto.
Qed.

Lemma staged_collect args k transform p F : (forall names, exists ok us ds, inside us /\ forall a, p names a = (ok, applied us a, ds)) ->
  staged F -> staged (fun a => variadic_collect args k transform p (F a)).
Proof.
  intros Hp HF. unfold variadic_collect. apply staged_if; [exact HF|]. destruct (wrong_kind k args); [now apply staged_mismatch|].
  destruct (Hp (map (fun v => fst (transform v)) args)) as (ok & us & ds & I & E).
  destruct (staged_perform _ _ (simple_says (flat_map (fun v => snd (transform v)) args)) HF) as (st & m & us' & ds' & I' & E').
  cbv zeta. exists (if ok then Matched else st), m, (us' ++ us), (ds' ++ ds). split; [apply Forall_app; auto|]. intros a. rewrite E'. cbn [ds_attrs ds_state ds_mismatch ds_diags]. rewrite E, applied_app.
  destruct ok; reflexivity.
Qed.

Lemma staged_ensure c F : staged F -> staged (fun a => ensure c (F a)).
Proof.
  intros HF. pose proof HF as (st & m & us & ds & I & E). assert (S : staged (fun a => if fst c then perform (fun a => (a, snd c)) (F a) else invalid (perform (fun a => (a, snd c)) (F a)))).
  { destruct (fst c); [|apply staged_invalid]; apply staged_perform; [apply simple_says|exact HF|apply simple_says|exact HF]. }
  destruct st; [eapply staged_ext; [|exact S]|eapply staged_ext; [|exact S]|eapply staged_ext; [|exact HF]]; intros a; unfold ensure; rewrite E; reflexivity.
Qed.

Lemma settled_check k F : staged F -> settled (fun a => check_match k (F a)).
Proof.
  intros (st & m & us & ds & I & E). unfold settled.
  destruct st; [exists false, us, (fun _ => ds ++ [match m with Some v => DWrongArgumentType k v | None => DWrongNumberOfArguments k end])|exists true, us, (fun _ => ds)|exists false, us, (fun _ => ds)];
    (split; [exact I|split; [intros a; rewrite E; reflexivity|split; [reflexivity|right; eauto]]]).
Qed.

Lemma settled_no_check F : staged F -> settled (fun a => no_check (F a)).
Proof. intros (st & m & us & ds & I & E). exists false, us, (fun _ => ds). split; [exact I|]. split; [intros a; unfold no_check; rewrite E; reflexivity|]. split; [reflexivity|right; eauto]. Qed.

Lemma settled_not_mine : settled not_mine.
Proof. exists false, [], (fun _ => []). split; [constructor|]. split; [reflexivity|]. split; [reflexivity|right; eauto]. Qed.
End Annotation.

Ltac topic_in := unfold concerns; cbn [topic a_kind]; cbn; tauto.

Ltac staged_step :=
  match goal with
  | |- staged _ dispatch => apply staged_dispatch
  | |- staged _ (fun a => dispatch a) => apply staged_dispatch
  | |- staged _ (fun a => nullary ?args ?f (@?F a)) => apply (staged_nullary _ args f F)
  | |- staged _ (fun a => unary ?args ?k ?f (@?F a)) => apply (staged_unary _ args k f F); [intros ?v|]
  | |- staged _ (fun a => binary ?args ?k ?f (@?F a)) => apply (staged_binary _ args k f F); [intros ?v ?w|]
  | |- staged _ (fun a => variadic ?args ?k ?f (@?F a)) => apply (staged_variadic _ args k f F); [intros ?v|]
  | |- staged _ (fun a => variadic_collect ?args ?k ?t ?p (@?F a)) => apply (staged_collect _ args k t p F); [intros ?names|]
  | |- staged _ (fun a => ensure ?c (@?F a)) => apply (staged_ensure _ c F)
  end.

Lemma named_settled d an : settled an (process_named d an).
Proof.
  destruct an as [k args]. unfold process_named. cbn [a_kind a_args].
  destruct k; try apply settled_not_mine.
  - apply settled_check. repeat staged_step.
    + unfold store_spelling. destruct (is_valid_identifier (get_string v)); [apply (simple_change _ (USpelling (get_string v))); topic_in|apply simple_complain].
    + apply (simple_change _ (USpelling [])); topic_in.
  - apply settled_check. repeat staged_step. apply (simple_change _ (UVisible (Some false))); topic_in.
  - apply settled_check. repeat staged_step;
      [apply (simple_change _ (UVisible (Some (get_boolean v))))|apply (simple_change _ (UVisible None))|apply (simple_change _ (UVisible (Some true)))]; topic_in.
  - apply settled_no_check. repeat staged_step.
    unfold store_spelling. destruct (is_valid_identifier (get_string v)); [apply (simple_change _ (USpelling (get_string v))); topic_in|apply simple_complain].
Qed.

Lemma namespace_settled d an : settled an (process_namespace d an).
Proof.
  destruct an as [k args]. unfold process_namespace. cbn [a_kind a_args]. cbv zeta.
  destruct k; try apply settled_not_mine.
  - apply settled_check. repeat staged_step; (apply (simple_change _ UModule); topic_in).
  - apply settled_check. repeat staged_step. apply (simple_change _ (UOnly (get_string v))); topic_in.
Qed.

Lemma enum_settled d an : settled an (process_enum d an).
Proof.
  destruct an as [k args]. unfold process_enum, flag. cbn [a_kind a_args].
  destruct k; try apply settled_not_mine; (apply settled_check; repeat staged_step).
  - apply (simple_change _ (UArithmetic (get_boolean v))); topic_in.
  - apply (simple_change _ (UArithmetic true)); topic_in.
  - apply (simple_change _ (UExport (get_boolean v))); topic_in.
  - apply (simple_change _ (UExport true)); topic_in.
Qed.

Lemma selected (f : nat -> update) (insert : nat -> attrs -> attrs) (bs : list base) : (forall x, insert x = apply (f x)) ->
  forall a, fold_left (fun a b => insert (b_decl b) a) bs a = applied (map (fun b => f (b_decl b)) bs) a.
Proof. intros E. induction bs as [|b bs IH]; intros a; [reflexivity|]. cbn [fold_left map]. rewrite IH, E. reflexivity. Qed.

Lemma select_settled an k bs (f : nat -> update) insert : (forall x, insert x = apply (f x)) -> (forall x, In (topic (f x)) (concerns an)) ->
  forall names, exists ok us ds, inside an us /\ forall a, select_bases k bs insert names a = (ok, applied us a, ds).
Proof.
  intros E H names. unfold select_bases. set (sel := filter _ bs). exists true, (map (fun b => f (b_decl b)) sel), (match sel with [] => [DUnknownBase k] | _ => [] end). split.
  - apply Forall_forall. intros x Hx. apply in_map_iff in Hx as (b & <- & _). apply H.
  - intros a. cbv zeta. rewrite (selected f insert sel E). reflexivity.
Qed.

Lemma record_settled d an : settled an (process_record d an).
Proof.
  destruct an as [k args]. unfold process_record, flag. cbn [a_kind a_args].
  destruct k; try apply settled_not_mine; (apply settled_check; repeat staged_step).
  - apply (simple_change _ (UDynamic (get_boolean v))); topic_in.
  - apply (simple_change _ (UDynamic true)); topic_in.
  - revert names. apply (select_settled _ _ _ UHide); [reflexivity|intros x; topic_in].
  - apply (simple_change _ (UHolder (get_string v))); topic_in.
  - revert names. apply (select_settled _ _ _ UInline); [reflexivity|intros x; topic_in].
Qed.

Lemma field_settled d an : settled an (process_field d an).
Proof.
  destruct an as [k args]. unfold process_field, flag. cbn [a_kind a_args].
  destruct k; try apply settled_not_mine; (apply settled_check; repeat staged_step).
  - apply (simple_change _ (UManual (manual_bindings_expr d))); topic_in.
  - apply (simple_change _ UPostamble); topic_in.
  - apply (simple_change _ (UReadonly (get_boolean v))); topic_in.
  - apply (simple_change _ (UReadonly true)); topic_in.
Qed.

Lemma constructor_settled d an : settled an (process_constructor d an).
Proof.
  destruct an as [k args]. unfold process_constructor, flag. cbn [a_kind a_args]. cbv zeta.
  destruct k; try apply settled_not_mine; (apply settled_check; repeat staged_step).
  - apply (simple_change _ (UImplicit (get_boolean v))); topic_in.
  - apply (simple_change _ (UImplicit true)); topic_in.
Qed.

Lemma properties_settled an (f : str -> update) insert : (forall x, insert x = apply (f x)) -> (forall x, In (topic (f x)) (concerns an)) ->
  forall names, exists ok us ds, inside an us /\ forall a, add_properties insert names a = (ok, applied us a, ds).
Proof.
  intros E H names. assert (F : forall names a, fold_left (fun a n => insert n a) names a = applied (map f names) a).
  { clear names. induction names as [|n names IH]; intros a; [reflexivity|]. cbn [fold_left map]. rewrite IH, E. reflexivity. }
  destruct names as [|n names]; [exists false, [], []; split; [constructor|reflexivity]|].
  exists true, (map f (n :: names)), []. split; [apply Forall_forall; intros x Hx; apply in_map_iff in Hx as (b & <- & _); apply H|].
  intros a. unfold add_properties. rewrite F. reflexivity.
Qed.

Lemma method_settled d an : settled an (process_method d an).
Proof.
  destruct an as [k args]. unfold process_method. cbn [a_kind a_args].
  destruct k; try apply settled_not_mine; (apply settled_check; repeat staged_step); revert names.
  - apply (properties_settled _ UGetter); [reflexivity|intros x; topic_in].
  - apply (properties_settled _ USetter); [reflexivity|intros x; topic_in].
Qed.

Lemma function_settled d an : settled an (process_function d an).
Proof.
  destruct an as [k args]. unfold process_function. cbn [a_kind a_args]. cbv zeta.
  destruct k; try apply settled_not_mine; (apply settled_check; repeat staged_step).
  - destruct (index_of (get_string v) _) as [i|]; [|apply simple_complain]. destruct (index_of (get_string w) _) as [j|]; [|apply simple_complain]. apply (simple_change _ (UKeep (i, j))); topic_in.
  - destruct (index_of (get_string v) _) as [i|]; [|apply simple_complain]. apply (simple_change _ (UNoconvert i)); topic_in.
  - destruct (index_of (get_string v) _) as [i|]; [|apply simple_complain]. apply (simple_change _ (URequired i)); topic_in.
  - apply (simple_change _ (UPolicy (get_string v))); topic_in.
Qed.

Lemma typedef_settled d an : settled an (process_typedef d an).
Proof.
  destruct an as [k args]. unfold process_typedef. cbn [a_kind a_args].
  assert (G : forall x, topic x <> ExposeHere -> forall a, at_typedef (apply x a) = at_typedef a) by (intros x N a; destruct x; try reflexivity; destruct (N eq_refl)).
  destruct k; try apply settled_not_mine.
  - destruct args as [|v args].
    + exists true, [UHere], (fun a => if t_encourage (at_typedef a) then [DConflicting] else []). split; [repeat constructor; topic_in|]. split.
      * intros a. cbn. rewrite Bool.andb_true_r. reflexivity.
      * split; [|left; reflexivity]. intros x a N. rewrite G; [reflexivity|]. intros E. apply N. rewrite E. topic_in.
    + apply (settled_check _ _ (fun a => dispatch a)). apply staged_dispatch.
  - destruct args as [|v args].
    + exists true, [UEncourage], (fun a => if t_expose_here (at_typedef a) then [DConflicting] else []). split; [repeat constructor; topic_in|]. split; [reflexivity|].
      split; [|left; reflexivity]. intros x a N. rewrite G; [reflexivity|]. intros E. apply N. rewrite E. topic_in.
    + apply (settled_check _ _ (fun a => dispatch a)). apply staged_dispatch.
Qed.

(** ** One annotation *)

Lemma any_settled an hs : Forall (fun h : handler => settled an (h an)) hs -> settled an (any_of hs an).
Proof.
  induction 1 as [|h hs (ok & us & ds & I & E & V & C) _ (ok' & us' & ds' & I' & E' & V' & C')]; cbn [any_of]; [apply settled_not_mine|].
  destruct ok.
  - exists true, us, ds. split; [exact I|]. split; [intros a; rewrite E; reflexivity|]. auto.
  - destruct C as [C|[l C]]; [discriminate C|]. exists ok', (us ++ us'), (fun a => l ++ ds' (applied us a)). split; [apply Forall_app; auto|]. split.
    + intros a. rewrite E, E', applied_app, C. reflexivity.
    + split.
      * intros x a N. f_equal. rewrite applied_comm; [apply V'; exact N|]. intros Hx. apply N. apply in_map_iff in Hx as (y & <- & Hy). unfold inside in I. rewrite Forall_forall in I. auto.
      * destruct C' as [C'|[l' C']]; [left; exact C'|]. right. exists (l ++ l'). intros a. rewrite C'. reflexivity.
Qed.

Lemma handlers_settled d an : Forall (fun h : handler => settled an (h an)) (handlers d).
Proof.
  assert (I : forall (b : bool) (h : handler), settled an (h an) -> Forall (fun h : handler => settled an (h an)) (if b then [h] else [])) by (intros [|] h H; repeat constructor; exact H).
  unfold handlers. repeat (apply Forall_app; split); first [repeat constructor; apply named_settled|apply I].
  - apply namespace_settled.
  - apply enum_settled.
  - apply record_settled.
  - apply typedef_settled.
  - apply field_settled.
  - apply settled_not_mine.
  - apply settled_not_mine.
  - apply method_settled.
  - apply constructor_settled.
  - apply function_settled.
Qed.

Lemma process_settled d an : (forall a, process_annotation d an a = None) \/
  exists us (ds : attrs -> list diag), inside an us /\ (forall a, process_annotation d an a = Some (applied us a, ds a)) /\ forall x a, ~ In (topic x) (concerns an) -> ds (apply x a) = ds a.
Proof.
  destruct (any_settled an _ (handlers_settled d an)) as (ok & us & ds & I & E & V & C). unfold process_annotation.
  destruct C as [->|[l C]].
  - right. exists us, ds. split; [exact I|]. split; [|exact V]. intros a. rewrite E, Bool.orb_true_r. reflexivity.
  - destruct (existsb is_error l || ok) eqn:B.
    + right. exists us, ds. split; [exact I|]. split; [|exact V]. intros a. rewrite E, C, B. reflexivity.
    + destruct (supports_typedef_diags d) as [|e es].
      * right. exists us, (fun a => ds a ++ [DInvalidForDeclKind (friendly_name d) an]). split; [exact I|]. split; [intros a; rewrite E, C, B; reflexivity|].
        intros x a N. rewrite V; [reflexivity|exact N].
      * left. intros a. rewrite E, C, B. reflexivity.
Qed.

(** ** Two annotations *)

Definition independent (x y : annotation) : Prop := forall k, In k (concerns x) -> ~ In k (concerns y).

Definition similar_outcome (r r' : option (attrs * list (list diag))) : Prop :=
  match r, r' with
  | None, None => True
  | Some (a, dss), Some (a', dss') => a = a' /\ Permutation dss dss'
  | _, _ => False
  end.

Lemma outcome_refl r : similar_outcome r r.
Proof. destruct r as [[a dss]|]; cbn; auto. Qed.

Lemma outcome_trans r1 r2 r3 : similar_outcome r1 r2 -> similar_outcome r2 r3 -> similar_outcome r1 r3.
Proof.
  destruct r1 as [[a1 d1]|], r2 as [[a2 d2]|], r3 as [[a3 d3]|]; cbn; try tauto. intros [-> P] [-> Q]. split; [reflexivity|]. now transitivity d2.
Qed.

Lemma invariant (ds : attrs -> list diag) (ks : list akind) us : (forall x a, ~ In (topic x) ks -> ds (apply x a) = ds a) -> (forall x, In x us -> ~ In (topic x) ks) -> forall a, ds (applied us a) = ds a.
Proof.
  intros V. induction us as [|x us IH]; intros D a; [reflexivity|]. cbn. change (ds (applied us (apply x a)) = ds a). rewrite IH; [apply V, D; left; reflexivity|].
  intros y Hy. apply D. right. exact Hy.
Qed.

Lemma swap_outcome d x y ans a : independent x y -> similar_outcome (process_annotations d (x :: y :: ans) a) (process_annotations d (y :: x :: ans) a).
Proof.
  intros In'. cbn [process_annotations].
  destruct (process_settled d x) as [Ex|(us & ds & I & Ex & V)]; destruct (process_settled d y) as [Ey|(us' & ds' & I' & Ey & V')].
  - rewrite Ex, Ey. exact Logic.I.
  - rewrite Ex, Ey, Ex. exact Logic.I.
  - rewrite Ex, Ey, Ey. exact Logic.I.
  - unfold inside in I, I'. rewrite Forall_forall in I, I'. rewrite Ex, Ey, Ey, Ex. rewrite (invariant ds' (concerns y) us V'); [|intros z Hz; apply (In' (topic z)); exact (I z Hz)].
    rewrite (invariant ds (concerns x) us' V); [|intros z Hz Hk; exact (In' (topic z) Hk (I' z Hz))].
    rewrite (applied_swap us us'); [|intros k Hk Hk'; apply in_map_iff in Hk as (z & <- & Hz); apply in_map_iff in Hk' as (z' & Ez & Hz'); apply (In' (topic z)); [exact (I z Hz)|rewrite <- Ez; exact (I' z' Hz')]].
    destruct (process_annotations d ans (applied us' (applied us a))) as [[b dss]|]; [|exact Logic.I]. split; [reflexivity|constructor].
Qed.

Lemma cons_outcome d x l l' : (forall a, similar_outcome (process_annotations d l a) (process_annotations d l' a)) -> forall a, similar_outcome (process_annotations d (x :: l) a) (process_annotations d (x :: l') a).
Proof.
  intros H a. cbn [process_annotations]. destruct (process_annotation d x a) as [[b ds]|]; [|exact I]. specialize (H b).
  destruct (process_annotations d l b) as [[c dss]|], (process_annotations d l' b) as [[c' dss']|]; cbn in *; try tauto. destruct H as [-> P]. split; [reflexivity|now constructor].
Qed.

Lemma bubble_outcome d x p q : (forall y, In y p -> independent x y) -> forall a, similar_outcome (process_annotations d (p ++ x :: q) a) (process_annotations d (x :: p ++ q) a).
Proof.
  induction p as [|y p IH]; intros D a; [apply outcome_refl|]. cbn [app].
  apply (outcome_trans _ (process_annotations d (y :: x :: p ++ q) a)).
  - apply cons_outcome. apply IH. intros z Hz. apply D. right. exact Hz.
  - apply swap_outcome. intros k Hk Hk'. exact (D y (or_introl eq_refl) k Hk' Hk).
Qed.

(** ** Rearranged annotations *)

Definition concern_dec k an : {In k (concerns an)} + {~ In k (concerns an)} := in_dec akind_dec k (concerns an).

Definition chosen k (ans : list annotation) : list annotation := filter (fun an => if concern_dec k an then true else false) ans.

Lemma about_chosen k ans sel : about k ans sel <-> sel = chosen k ans.
Proof.
  revert sel. unfold chosen. induction ans as [|an ans IH]; intros sel; cbn [filter].
  - split; [intros H; inversion H; reflexivity|intros ->; constructor].
  - destruct (concern_dec k an) as [C|C]; split.
    + intros H. inversion H; subst; [f_equal; now apply IH|contradiction].
    + intros ->. apply about_this; [exact C|now apply IH].
    + intros H. inversion H; subst; [contradiction|now apply IH].
    + intros ->. apply about_other; [exact C|now apply IH].
Qed.

Lemma rearranged_chosen ans ans' : rearranged ans ans' <-> forall k, chosen k ans = chosen k ans'.
Proof.
  split.
  - intros R k. apply about_chosen. apply R. now apply about_chosen.
  - intros R k sel. rewrite !about_chosen, R. reflexivity.
Qed.

Lemma concerns_something an : exists k, In k (concerns an).
Proof. unfold concerns. destruct (a_kind an); eexists; left; reflexivity. Qed.

Lemma chosen_app k l l' : chosen k (l ++ l') = chosen k l ++ chosen k l'.
Proof. apply filter_app. Qed.

Lemma chosen_cons k an ans : chosen k (an :: ans) = if concern_dec k an then an :: chosen k ans else chosen k ans.
Proof. unfold chosen. cbn [filter]. destruct (concern_dec k an); reflexivity. Qed.

Lemma chosen_empty k p : chosen k p = [] -> forall y, In y p -> ~ In k (concerns y).
Proof.
  intros E y Hy C. assert (H : In y (chosen k p)) by (apply filter_In; split; [exact Hy|destruct (concern_dec k y); [reflexivity|contradiction]]). rewrite E in H. exact H.
Qed.

Lemma chosen_first k ans x rest : chosen k ans = x :: rest -> exists p q, ans = p ++ x :: q /\ chosen k p = [] /\ chosen k q = rest.
Proof.
  induction ans as [|y ans IH]; [discriminate|]. rewrite chosen_cons. destruct (concern_dec k y) as [C|C]; intros E.
  - injection E as -> E. exists [], ans. auto.
  - destruct (IH E) as (p & q & -> & Ep & Eq). exists (y :: p), q. split; [reflexivity|]. split; [|exact Eq]. rewrite chosen_cons. destruct (concern_dec k y); [contradiction|exact Ep].
Qed.

Lemma rearranged_outcome d ans : forall ans', (forall k, chosen k ans = chosen k ans') -> forall a, similar_outcome (process_annotations d ans a) (process_annotations d ans' a).
Proof.
  induction ans as [|x ans IH]; intros ans' R a.
  - destruct ans' as [|y ans']; [apply outcome_refl|]. destruct (concerns_something y) as (k & Hk). specialize (R k). rewrite chosen_cons in R. destruct (concern_dec k y); [discriminate R|contradiction].
  - destruct (concerns_something x) as (k0 & Hk0). pose proof (R k0) as R0. rewrite chosen_cons in R0. destruct (concern_dec k0 x) as [_|]; [|contradiction].
    symmetry in R0. destruct (chosen_first _ _ _ _ R0) as (p & q & -> & Ep & Eq).
    assert (P : forall k, In k (concerns x) -> chosen k p = []).
    { intros k Hk. pose proof (R k) as Rk. rewrite chosen_cons in Rk. destruct (concern_dec k x) as [_|]; [|contradiction]. rewrite chosen_app in Rk. destruct (chosen k p) as [|y l] eqn:E; [reflexivity|].
      cbn [app] in Rk. injection Rk as <- _. exfalso. assert (Hx : In x p) by (assert (H : In x (chosen k p)) by (rewrite E; left; reflexivity); apply filter_In in H; tauto).
      exact (chosen_empty k0 p Ep x Hx Hk0). }
    apply (outcome_trans _ (process_annotations d (x :: p ++ q) a)).
    + apply cons_outcome. apply IH. intros k. specialize (R k). rewrite chosen_cons, chosen_app, chosen_cons in R. rewrite chosen_app. destruct (concern_dec k x) as [C|C].
      * rewrite (P k C) in *. cbn [app] in *. injection R as R. exact R.
      * exact R.
    + assert (B := bubble_outcome d x p q). assert (Ind : forall y, In y p -> independent x y) by (intros y Hy k Hk; exact (chosen_empty k p (P k Hk) y Hy)). specialize (B Ind a).
      destruct (process_annotations d (p ++ x :: q) a) as [[b dss]|], (process_annotations d (x :: p ++ q) a) as [[b' dss']|]; cbn in *; try tauto. destruct B as [-> B]. split; [reflexivity|now symmetry].
Qed.

(** ** Attributes *)

Lemma concat_perm {A} (l l' : list (list A)) : Permutation l l' -> Permutation (concat l) (concat l').
Proof.
  induction 1 as [|x l l' _ IH|x y l|l l' l'' _ IH _ IH']; cbn; [constructor|now apply Permutation_app_head| |now transitivity (concat l')].
  rewrite !app_assoc. apply Permutation_app_tail. apply Permutation_app_comm.
Qed.

Lemma same_but_order_attributes d texts : same_but_order d texts ->
  match compute_attrs d, compute_attrs (with_texts d texts) with
  | None, None => True
  | Some (a, ds), Some (a', ds') => a = a' /\ Permutation ds ds'
  | _, _ => False
  end.
Proof.
  intros [(ans & ans' & C & C' & R) M]. unfold compute_attrs. change (d_attrs (with_texts d texts)) with texts.
  destruct (parse_attrs (d_attrs d) []) as [l ds] eqn:E. destruct (parse_attrs_carried _ _ _ _ E) as (l0 & E0 & C0 & F0). cbn in E0. subst l0.
  destruct (carried_unique _ _ _ C _ _ C0) as [<- B]. destruct ds as [|e ds]; [|discriminate B].
  destruct (parse_attrs texts []) as [l' ds'] eqn:E'. destruct (parse_attrs_carried _ _ _ _ E') as (l0 & E0 & C0' & F0'). cbn in E0. subst l0.
  destruct (carried_unique _ _ _ C' _ _ C0') as [<- B']. destruct ds' as [|e ds']; [|discriminate B'].
  assert (T : supports_typedef_diags (with_texts d texts) = supports_typedef_diags d).
  { unfold supports_typedef_diags. assert (Hp : has_annotations (with_texts d texts) true = has_annotations d true) by (apply Bool.eq_true_iff_eq; rewrite !has_annotations_true; symmetry; exact M).
    change (is_typedef (with_texts d texts)) with (is_typedef d). change (d_target (with_texts d texts)) with (d_target d). rewrite Hp. reflexivity. }
  pose proof (proj1 (rearranged_chosen ans ans') R) as R'. clear R. rename R' into R.
  assert (N : ans <> [] <-> ans' <> []).
  { assert (Z : forall l l', (forall k, chosen k l = chosen k l') -> l = [] -> l' = []).
    { clear. intros l l' R ->. destruct l' as [|y l']; [reflexivity|]. destruct (concerns_something y) as (k & Hk). specialize (R k). rewrite chosen_cons in R. destruct (concern_dec k y); [discriminate R|contradiction]. }
    split; intros H H'; apply H; [apply (Z ans' ans); [intros k; symmetry; apply R|exact H']|apply (Z ans ans'); [exact R|exact H']]. }
  assert (Ini : initial_attrs (with_texts d texts) = initial_attrs d).
  { unfold initial_attrs. change (is_namespace (with_texts d texts)) with (is_namespace d). replace (has_annotations (with_texts d texts) false) with (has_annotations d false); [reflexivity|].
    apply Bool.eq_true_iff_eq. rewrite !has_annotations_false. rewrite (annotated_iff_nonempty d ans C), (annotated_iff_nonempty (with_texts d texts) ans' C'). exact N. }
  rewrite Ini, (process_texts d texts ans' T), T. pose proof (rearranged_outcome d ans ans' R (initial_attrs d)) as O. unfold similar_outcome in O.
  destruct (process_annotations d ans (initial_attrs d)) as [[a dss]|], (process_annotations d ans' (initial_attrs d)) as [[a' dss']|]; try tauto.
  destruct O as [-> P]. split; [reflexivity|]. cbn [app]. apply Permutation_app_head. now apply concat_perm.
Qed.

Lemma same_but_order_inserted u texts j : texts j = d_attrs (u_decls u j) \/ same_but_order (u_decls u j) (texts j) ->
  match AnnotModel.insert (u_decls u) j [], AnnotModel.insert (u_decls (rewritten u texts)) j [] with
  | None, None => True
  | Some (st, ds), Some (st', ds') => st = st' /\ Permutation ds ds'
  | _, _ => False
  end.
Proof.
  intros H. unfold AnnotModel.insert. cbn [u_decls rewritten]. change (d_skip (with_texts (u_decls u j) (texts j))) with (d_skip (u_decls u j)). destruct (d_skip (u_decls u j)); [split; reflexivity|]. cbn [has lookup_attrs].
  destruct H as [H|H].
  - assert (E : with_texts (u_decls u j) (texts j) = u_decls u j) by (rewrite H; destruct (u_decls u j); reflexivity). rewrite E. destruct (compute_attrs (u_decls u j)) as [[a ds]|]; [|exact I]. split; reflexivity.
  - pose proof (same_but_order_attributes _ _ H) as S. destruct (compute_attrs (u_decls u j)) as [[a ds]|], (compute_attrs (with_texts (u_decls u j) (texts j))) as [[a' ds']|]; try tauto.
    destruct S as [-> P]. split; [reflexivity|exact P].
Qed.

Lemma rearranged_attributes u texts :
  (forall j, texts j = d_attrs (u_decls u j) \/ same_but_order (u_decls u j) (texts j) /\ unobjectionable u j) ->
  same_attributes u texts.
Proof.
  intros H. constructor.
  - intros j. pose proof (same_but_order_inserted u texts j) as S. destruct (H j) as [E|[O (st & Q)]].
    + unfold AnnotModel.insert, rewritten. cbn [u_decls]. assert (E' : with_texts (u_decls u j) (texts j) = u_decls u j) by (rewrite E; destruct (u_decls u j); reflexivity). rewrite E'. reflexivity.
    + specialize (S (or_intror O)). rewrite Q in S. destruct (AnnotModel.insert (u_decls (rewritten u texts)) j []) as [[st' ds']|]; [|contradiction]. destruct S as [-> P]. apply Permutation_nil in P. subst ds'. exact Q.
  - intros j. cbn [u_decls rewritten]. destruct (H j) as [E|[O _]].
    + assert (E' : with_texts (u_decls u j) (texts j) = u_decls u j) by (rewrite E; destruct (u_decls u j); reflexivity). rewrite E'. reflexivity.
    + apply Bool.eq_true_iff_eq. rewrite !has_annotations_true. exact (so_marked _ _ O).
Qed.

Lemma rearranged_same_code u texts w found implicit iteration n name :
  (forall j, texts j = d_attrs (u_decls u j) \/ same_but_order (u_decls u j) (texts j) /\ unobjectionable u j) ->
  generate (rewritten u texts) w found implicit iteration n name = generate u w found implicit iteration n name.
Proof. intros H. apply rw_generate, rearranged_attributes, H. Qed.
