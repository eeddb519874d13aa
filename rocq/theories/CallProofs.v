(** * Proofs about the calls in the generated text *)
From Verif Require Import Base ParserModel StringModel StringProofs AnnotModel AnnotStore CollectModel GraphModel OrderModel InlineModel EmitModel ModuleModel TextModel TextSpec TextProofs TextFinal CallSpec.

(** ** Statements that occur *)

Definition proper_lambda (l : lambda) : Prop :=
  (exists t, la_types l = [t] /\ la_operands l = [Lhs]) \/
  (exists t1 t2, la_types l = [t1; t2] /\ (la_operands l = [Lhs; Rhs] \/ la_operands l = [Rhs; Lhs])).

Definition proper_stmt (p : parameter) (s : stmt) : Prop :=
  match s with
  | SConvertible from _ => from <> None
  | SValue _ _ => exists e, p = PEnum e
  | SOperator _ _ l => proper_lambda l
  | _ => True
  end.

Definition proper_item (i : item) : Prop := match i with IDefine _ p body => Forall (proper_stmt p) body | _ => True end.

Section Unit.
Context (u : unit) (w : facts).
Notation x := (w_extra w).

Lemma generic_proper p st i ss rs : handle_generic u x st i = Some (ss, rs) -> Forall (proper_stmt p) ss.
Proof.
  unfold handle_generic. destruct (_ && _); [discriminate|].
  destruct (get_typedef u st i) as [t|].
  - destruct (n_visible _); [|intros [= <- _]; constructor]. destruct (t_expose_here t); [intros [= <- _]; constructor|].
    destruct (x_tag x i); intros [= <- _]; repeat constructor.
  - destruct (get u st supports_field at_field i) as [v|].
    + destruct (f_manual v); [destruct (f_postamble v); intros [= <- _]; repeat constructor|]. destruct (kind u i); try discriminate; intros [= <- _]; repeat constructor.
    + destruct (match get u st supports_method at_method i with Some _ => _ | None => _ end); [intros [= <- _]; constructor|].
      destruct (get u st supports_function at_function i) as [a|] eqn:E; [|intros [= <- _]; constructor].
      destruct (fi_deleted _); [intros [= <- _]; constructor|]. destruct (parameters x i a) as [args rs'].
      intros [= <- _]. repeat constructor.
Qed.

Lemma constructor_proper p st r i implicit ss rs : handle_constructor u x st r i implicit = Some (ss, rs) -> Forall (proper_stmt p) ss.
Proof.
  unfold handle_constructor. destruct (_ || _ || _); [intros [= <- _]; constructor|].
  destruct (parameters x i _) as [args rs'].
  destruct implicit; [|intros [= <- _]; repeat constructor]. destruct (fi_params (x_fn x i)); [discriminate|].
  intros [= <- _]. constructor; [discriminate|repeat constructor].
Qed.

Lemma lambda_proper k types result reverse l : operator_lambda k types result reverse = Some l -> proper_lambda l.
Proof.
  destruct types as [|t1 [|t2 [|]]]; cbn; try discriminate; destruct reverse; intros [= <-]; [left|left|right|right]; cbn; eauto.
Qed.

Lemma operator_proper p st r i ss rs : handle_operator u x st r i = Some (ss, rs) -> Forall (proper_stmt p) ss.
Proof.
  unfold handle_operator. destruct (fi_deleted _); [intros [= <- _]; constructor|]. destruct (fi_operator (x_fn x i)) as [k|]; [|discriminate].
  assert (X : forall h : handled, h = match is_ostream_operator u x i k with
        | None => None
        | Some true =>
            match get_named u st i with
            | Some n => if is_empty (n_spelling n) then nothing else says (SPrint (n_spelling n) r)
            | None => nothing
            end
        | Some false => option_map (fun ss => (ss, [])) (emit_operator u x r i k)
        end -> h = Some (ss, rs) -> Forall (proper_stmt p) ss).
  { intros h -> Hh. revert Hh. destruct (is_ostream_operator u x i k) as [[]|]; [|unfold emit_operator|discriminate].
    - destruct (get_named u st i) as [n|]; [destruct (is_empty _)|]; intros [= <- _]; repeat constructor.
    - destruct (never_emitted k); [intros [= <- _]; constructor|]. destruct (_ && _); [intros [= <- _]; constructor|].
      destruct (operand_types u x r i) as [|t ts]; [discriminate|]. destruct (operator_lambda _ _ _ _) eqn:E; [|discriminate]. intros [= <- _].
      constructor; [exact (lambda_proper _ _ _ _ _ E)|constructor]. }
  destruct k; try discriminate; exact (X _ eq_refl).
Qed.

Lemma record_proper p st r i ps ss rs ps' : handle_record u x st r i ps = Some (ss, rs, ps') -> Forall (proper_stmt p) ss.
Proof.
  unfold handle_record.
  assert (K : forall h : handled, (forall ss rs, h = Some (ss, rs) -> Forall (proper_stmt p) ss) ->
            option_map (fun sr : list stmt * list ereport => (sr, ps)) h = Some (ss, rs, ps') -> Forall (proper_stmt p) ss).
  { intros [[ss' rs']|] Hh; [|discriminate]. cbn. intros [= <- _ _]. exact (Hh _ _ eq_refl). }
  destruct (get u st supports_constructor at_implicit_conversion i) as [implicit|]; [apply K; intros; eapply constructor_proper; eassumption|].
  destruct (supports_operator (u_decls u i)); [apply K; intros; eapply operator_proper; eassumption|].
  destruct (match get u st supports_method at_method i with Some _ => _ | None => _ end) as [m|].
  - destruct (define_properties i m ps) as [ps1 rs1]. intros [= <- _ _]. constructor.
  - destruct (get u st supports_field at_field i) as [v|]; apply K.
    + destruct (f_manual v); [destruct (f_postamble v); [discriminate|]|]; intros ss' rs' [= <- _]; repeat constructor.
    + intros ss' rs'. now apply generic_proper.
Qed.

Lemma impl_proper e p st i ps ss rs ps' : own_parameter e p -> handle_impl u x st e i ps = Some (ss, rs, ps') -> Forall (proper_stmt p) ss.
Proof.
  intros Hp. unfold handle_impl. destruct e as [|n|n|r pol].
  - destruct (handle_generic u x st i) as [[ss' rs']|] eqn:E; [|discriminate]. cbn. intros [= <- _ _]. exact (generic_proper _ _ _ _ _ E).
  - destruct (handle_generic u x st i) as [[ss' rs']|] eqn:E; [|discriminate]. cbn. intros [= <- _ _]. exact (generic_proper _ _ _ _ _ E).
  - unfold handle_enum. cbn in Hp. subst p. destruct (x_enumerator x i); intros [= <- _ _]; [|constructor]. constructor; [eexists; reflexivity|constructor].
  - now apply record_proper.
Qed.

Lemma decls_proper e p dv l : own_parameter e p -> forall s s', fold_opt (handle_decl u x e dv) l s = Some s' -> Forall (proper_stmt p) (em_stmts s) -> Forall (proper_stmt p) (em_stmts s').
Proof.
  intro Hp. induction l as [|i l IH]; intros s s' H Hs; cbn [fold_opt] in H; [now injection H as <-|].
  destruct (handle_decl u x e dv s i) as [s1|] eqn:E; [|discriminate H]. apply (IH _ _ H). revert E. unfold handle_decl.
  destruct (insert (u_decls u) i (em_storage s)) as [[st ds]|]; [|discriminate]. destruct (is_visible u st dv i); [|now intros [= <-]].
  destruct (handle_impl u x st e i (em_properties s)) as [[[ss rs] ps]|] eqn:E; [|discriminate]. intros [= <-].
  apply Forall_app. split; [exact Hs|]. exact (impl_proper _ _ _ _ _ _ _ _ Hp E).
Qed.

Lemma define_proper e p dv decls st st' ss rs : own_parameter e p -> define u x e dv decls st = Some (st', ss, rs) -> Forall (proper_stmt p) ss.
Proof.
  intros Hp. unfold define. destruct (fold_opt _ _ _) as [s|] eqn:E; [|discriminate]. intros H.
  assert (H2 := decls_proper _ _ _ _ Hp _ _ E (Forall_nil _)).
  destruct (finalize u x (em_storage s) e (em_properties s)) as [ss' rs'] eqn:Ef. injection H as _ <- _. apply Forall_app. split; [exact H2|].
  revert Ef. unfold finalize. destruct e as [|n|n|r pol].
  - intros [= <- _]. repeat constructor.
  - intros [= <- _]. repeat constructor.
  - destruct (get u _ supports_enum at_enum n) as [a|]; [destruct (match e_export_values a with Some _ => _ | None => _ end)|]; intros [= <- _]; repeat constructor.
  - intros [= <- _]. apply Forall_forall. intros t Ht. apply in_flat_map in Ht as (q & _ & Ht). unfold emit_property in Ht.
    destruct (pr_getter (snd q)), (pr_setter (snd q)); cbn in Ht; try (destruct Ht as [<-|[]]); try (now destruct Ht); exact I.
Qed.

Lemma parameter_own g st e p : parameter_of u w g st e = Some p -> own_parameter e p.
Proof. destruct e; cbn; auto. now intros [= <-]. Qed.

Lemma write_proper k items : Forall proper_item items -> forall streams streams', write_to k items streams = Some streams' ->
  Forall (Forall proper_item) streams -> Forall (Forall proper_item) streams'.
Proof.
  intro Hi. induction k as [|k IH]; intros [|s streams] streams'; cbn; try discriminate; intros H Hs; inversion Hs as [|? ? H1 H2]; subst.
  - injection H as <-. constructor; [now apply Forall_app|exact H2].
  - destruct (write_to k items streams) as [r|] eqn:E; [|discriminate H]. injection H as <-. constructor; [exact H1|]. exact (IH _ _ E H2).
Qed.

Lemma loop_proper g vis total ts : forall o o', fold_opt (define_step u w g vis total) ts o = Some o' ->
  Forall (Forall proper_item) (o_streams o) -> Forall (Forall proper_item) (o_streams o').
Proof.
  induction ts as [|t ts IH]; intros o o' H Ho; cbn [fold_opt] in H; [now injection H as <-|].
  destruct (define_step u w g vis total o t) as [o1|] eqn:E; [|discriminate H]. apply (IH _ _ H). clear H IH.
  revert E. unfold define_step, define_context.
  destruct (parameter_of u w g (o_storage o) (wk_exposer t)) as [p|] eqn:Ep; [|discriminate].
  destruct (define u (w_extra w) (wk_exposer t) _ _ (o_storage o)) as [[[st body] rs]|] eqn:Ed; [|discriminate].
  destruct (write_to _ _ (o_streams o)) as [streams|] eqn:Ew; [|discriminate]. intros [= <-]. cbn [o_streams].
  apply (write_proper _ _) with (2 := Ew); [|exact Ho]. apply Forall_app. split; [destruct (Nat.eqb _ 0); repeat constructor|].
  constructor; [|constructor]. exact (define_proper _ _ _ _ _ _ _ _ (parameter_own _ _ _ _ Ep) Ed).
Qed.

Lemma generate_proper found implicit iteration n name b streams rs st :
  generate u w found implicit iteration n name = Some (RGraph b (EWritten streams rs st)) -> Forall (Forall proper_item) streams.
Proof.
  unfold generate. destruct (process u found implicit name) as [[| |g contexts vis warned b']| |]; try discriminate.
  destruct (emit_module u w g vis (bs_annotations b') (iteration (g_nodes g)) n name) as [e|] eqn:Ee; [|discriminate]. intros [= <- ->].
  revert Ee. unfold emit_module. destruct n as [|n]; [discriminate|]. destruct (find_enclosing_scopes u _ g) as [scopes|]; [|discriminate].
  destruct (sort_contexts _ _ _ _ _ _) as [[order|]|]; try discriminate. destruct (make_plan u w _ order) as [p|]; [|discriminate].
  destruct (map_opt (declare u w g _) (pl_work p)) as [ds|] eqn:Ed; [|discriminate].
  destruct (map_opt (introduce u w g _ scopes (pl_identifiers p)) (pl_work p)) as [is|]; [|discriminate].
  destruct (fold_opt _ _ _) as [o|] eqn:Eo; [|discriminate]. intros [= <- _ _]. apply (loop_proper _ _ _ _ _ _ Eo). cbn [o_streams]. constructor.
  - apply Forall_app. split; [|repeat constructor].
    revert Ed. apply map_opt_forall with (P := fun _ => True); [|now apply Forall_forall]. intros t i _. unfold declare.
    destruct (parameter_of u w g _ (wk_exposer t)); [|discriminate]. intros [= <-]. exact I.
  - apply Forall_forall. intros s Hx. apply repeat_spec in Hx. subst s. constructor.
Qed.
End Unit.

(** ** Text *)

Lemma commas_join l : commas l = join l.
Proof.
  destruct l as [|s l]; [reflexivity|]. revert s. induction l as [|t l IH]; intro s; [cbn; now rewrite app_nil_r|].
  change (commas (s :: t :: l)) with (s ++ $", " ++ commas (t :: l)). rewrite IH. cbn [join flat_map]. now rewrite <- !app_assoc.
Qed.

Lemma join_app a l m : join ((a :: l) ++ m) = join (a :: l) ++ flat_map (fun t => $", " ++ t) m.
Proof. cbn [app join]. now rewrite flat_map_app, app_assoc. Qed.

Lemma operator_spelled k : symbolic k = true -> operator_of (operator_spelling k) = Some k.
Proof. destruct k; intro H; try discriminate H; reflexivity. Qed.

Section Text.
Context (tx : texts) (w : facts).

Lemma pointer_says f : pointer_text tx w f = pointer tx w f.
Proof.
  unfold pointer_text, pointer, call, of_types. rewrite commas_join.
  destruct (fi_const (x_fn (w_extra w) f)); cbn [join flat_map]; rewrite ?app_nil_r, <- ?app_assoc; reflexivity.
Qed.

Lemma keyword_says a : exists s, keyword a s /\ arg_text a = $", " ++ s.
Proof.
  exists (call ($"::pybind11::arg") [literal (ar_name a)] ++ concat ((if ar_noconvert a then [$".noconvert()"] else []) ++ (if ar_required a then [$".none(false)"] else [])) ++
    match ar_default a with Some e => $" = " ++ e | None => [] end).
  split.
  - constructor.
    + destruct (ar_noconvert a), (ar_required a); repeat constructor; cbn; intuition discriminate.
    + intro m. destruct (ar_noconvert a), (ar_required a); cbn; intuition (auto; discriminate).
    + now intros e ->.
    + now intros ->.
  - unfold arg_text, call, literal, join. cbn [flat_map]. rewrite app_nil_r, <- !app_assoc. 
    destruct (ar_noconvert a), (ar_required a); cbn [concat app]; rewrite ?app_nil_r, <- ?app_assoc; reflexivity.
Qed.

Lemma keywords_say args : exists l, Forall2 keyword args l /\ flat_map arg_text args = flat_map (fun t => $", " ++ t) l.
Proof.
  induction args as [|a args (l & H & E)]; [exists []; split; constructor|]. destruct (keyword_says a) as (s & Hs & Es).
  exists (s :: l). split; [now constructor|]. cbn [flat_map]. now rewrite Es, E, <- app_assoc.
Qed.

Lemma extras_say args a : exists l, extras args a l /\ flat_map arg_text args ++ policies_text a = flat_map (fun t => $", " ++ t) l.
Proof.
  destruct (keywords_say args) as (l & H & E). set (alive := map (fun k => call (of_types ($"pybind11::keep_alive") [decimal (N.of_nat (fst k)); decimal (N.of_nat (snd k))]) []) (fn_keep_alive a)).
  exists (l ++ map (fun p => $"pybind11::return_value_policy::" ++ p) (shown (fn_policy a)) ++ alive). split.
  - exists l, (map (fun p => $"pybind11::return_value_policy::" ++ p) (shown (fn_policy a))), alive. repeat split; auto.
    unfold alive. clear. induction (fn_keep_alive a); constructor; [reflexivity|assumption].
  - rewrite !flat_map_app, E. f_equal. unfold policies_text. f_equal.
    + destruct (fn_policy a); [reflexivity|]. cbn [shown map flat_map]. now rewrite app_nil_r, <- ?app_assoc.
    + unfold alive. induction (fn_keep_alive a) as [|k r IH]; [reflexivity|]. cbn [flat_map map]. rewrite IH. f_equal.
      unfold call, of_types, number. cbn [join flat_map]. rewrite !app_nil_r, <- !app_assoc. reflexivity.
Qed.

Lemma lambda_says l : proper_lambda l -> symbolic (la_operator l) = true -> applies tx l (lambda_text tx l).
Proof.
  intros H S%operator_spelled. unfold lambda_text. destruct H as [(t & Et & Eo)|(t1 & t2 & Et & [Eo|Eo])]; rewrite Et, Eo; cbn [lambda_parameters commas name_text].
  - replace ($"[](" ++ _) with (call ($"[]") [tx_type tx t ++ $" lhs"] ++ $" -> " ++ tx_type tx (la_result l) ++ $" { return " ++ operator_spelling (la_operator l) ++ $"lhs; }"); [now constructor|].
    unfold call, join. cbn [flat_map]. rewrite app_nil_r, <- !app_assoc. reflexivity.
  - replace ($"[](" ++ _) with (call ($"[]") [tx_type tx t1 ++ $" lhs"; tx_type tx t2 ++ $" rhs"] ++ $" -> " ++ tx_type tx (la_result l) ++ $" { return lhs " ++ operator_spelling (la_operator l) ++ $" rhs; }"); [now constructor|].
    unfold call, join. cbn [flat_map]. rewrite app_nil_r, <- !app_assoc. reflexivity.
  - replace ($"[](" ++ _) with (call ($"[]") [tx_type tx t1 ++ $" lhs"; tx_type tx t2 ++ $" rhs"] ++ $" -> " ++ tx_type tx (la_result l) ++ $" { return rhs " ++ operator_spelling (la_operator l) ++ $" lhs; }"); [now constructor|].
    unfold call, join. cbn [flat_map]. rewrite app_nil_r, <- !app_assoc. reflexivity.
Qed.

Lemma brief_says i : brief_text tx i = flat_map (fun t => $", " ++ t) (documented tx i).
Proof. unfold brief_text, documented. destruct (tx_brief tx i); [reflexivity|]. cbn [shown map flat_map]. now rewrite app_nil_r. Qed.

Lemma manual_text_says l : manual_says tx l (manual_text tx l).
Proof.
  unfold manual_says, manual_text. destruct (tx_lambda tx l) as [[p|] body]; [|reflexivity].
  unfold statement, call, join. cbn [flat_map]. rewrite !app_nil_r, <- !app_assoc. reflexivity.
Qed.

Ltac flat := unfold assigned, statement, member, call, of_types, literal, tag; cbn [join flat_map]; rewrite ?app_nil_r, <- ?app_assoc; cbn [app]; rewrite <- ?app_assoc.

Lemma stmt_text_says p s : proper_stmt p s -> stmt_says tx w p s (stmt_text tx w p s).
Proof.
  destruct s as [sp target|sp i|l|static sp f args a|from r|f n args a|sp f l|sp r|sp g s|static readonly sp i|sp i| |]; cbn [proper_stmt stmt_text stmt_says]; intro H.
  - flat. reflexivity.
  - flat. reflexivity.
  - apply manual_text_says.
  - destruct (extras_say args a) as (l & Hl & E). exists l. split; [exact Hl|]. rewrite docstring_doc, pointer_says.
    rewrite (app_assoc (flat_map arg_text args)), E. flat. destruct static; flat; reflexivity.
  - destruct from as [t|]; [|congruence]. exists t. split; [reflexivity|]. flat. reflexivity.
  - destruct (extras_say args a) as (l & Hl & E). exists l. split; [exact Hl|]. rewrite docstring_doc, commas_join.
    rewrite (app_assoc (flat_map arg_text args)), E. flat. reflexivity.
  - intro S. exists (lambda_text tx l). split; [now apply lambda_says|]. rewrite docstring_doc. flat. reflexivity.
  - flat. reflexivity.
  - destruct s as [f|]; rewrite !pointer_says; flat; reflexivity.
  - destruct readonly, static; flat; reflexivity.
  - destruct H as (e & ->). exists e. split; [reflexivity|]. rewrite brief_says. flat. reflexivity.
  - reflexivity.
  - reflexivity.
Qed.

Lemma class_says t : class_text w t = class_type w t.
Proof.
  unfold class_text, class_type. flat. rewrite flat_map_app.
  assert (E : flat_map (fun b => $", " ++ w_qualified w b) (ct_bases t) = flat_map (fun s => $", " ++ s) (map (w_qualified w) (ct_bases t))).
  { induction (ct_bases t) as [|b l IH]; [reflexivity|]. cbn [flat_map map]. now rewrite IH. }
  rewrite E.
  destruct (ct_holder t); cbn [shown flat_map]; rewrite ?app_nil_r, <- ?app_assoc; reflexivity.
Qed.

Lemma declarator_says id p : declarator_text w id p = function_head w id p.
Proof.
  unfold declarator_text, function_head, parameter_text, parameter_type. destruct p as [|i|t]; rewrite ?class_says; unfold enum_text, enum_type; flat; reflexivity.
Qed.

Lemma introducer_says n : introducer_text tx w n = object tx w n.
Proof.
  destruct n as [parent|parent sp|i parent sp a|t parent sp d]; cbn [introducer_text object]; rewrite ?class_says, ?brief_says; unfold enum_text, enum_type; flat; try reflexivity.
  - rewrite flat_map_app, <- app_assoc. destruct a; cbn [flag flat_map]; rewrite ?app_nil_r; reflexivity.
  - rewrite flat_map_app, <- app_assoc. destruct d; cbn [flag flat_map]; rewrite ?app_nil_r; reflexivity.
Qed.

Lemma item_text_says i : proper_item i -> item_says tx w i (item_text tx w i).
Proof.
  destruct i as [id p|name introductions calls postamble|id p body]; cbn [proper_item item_says item_text]; intro H.
  - rewrite declarator_says. reflexivity.
  - exists (map (manual_text tx) postamble). split; [induction postamble; constructor; auto using manual_text_says|].
    assert (E1 : flat_map (fun e => $"auto " ++ fst e ++ $" = " ++ introducer_text tx w (snd e) ++ $";" ++ end_line) introductions =
                 flat_map (fun e => statement ($"auto " ++ fst e ++ $" = " ++ object tx w (snd e))) introductions).
    { apply flat_map_ext. intro e. rewrite introducer_says. unfold statement. rewrite <- !app_assoc. reflexivity. }
    assert (E2 : flat_map (fun c => $"expose_" ++ fst c ++ $"(" ++ snd c ++ $");" ++ end_line) calls =
                 flat_map (fun c => statement (call ($"expose_" ++ fst c) [snd c])) calls).
    { apply flat_map_ext. intro e. flat. reflexivity. }
    assert (E3 : flat_map (fun l => end_line ++ manual_text tx l) postamble = flat_map (app end_line) (map (manual_text tx) postamble)).
    { clear. induction postamble as [|l r IH]; [reflexivity|]. cbn [flat_map map]. now rewrite IH. }
    rewrite E1, E2, E3. unfold block. flat. reflexivity.
  - exists (map (stmt_text tx w p) body). split; [induction H; constructor; auto using stmt_text_says|].
    rewrite declarator_says, flat_map_concat_map. reflexivity.
Qed.
End Text.

Lemma generate_says u w tx found implicit iteration n name b streams rs st s :
  generate u w found implicit iteration n name = Some (RGraph b (EWritten streams rs st)) -> In s streams ->
  exists parts, Forall2 (item_says tx w) s parts /\ stream_text tx w s = concat parts.
Proof.
  intros H Hs. apply generate_proper in H. rewrite Forall_forall in H. specialize (H s Hs). clear Hs.
  exists (map (item_text tx w) s). split; [induction H; constructor; auto using item_text_says|]. unfold stream_text. apply flat_map_concat_map.
Qed.
