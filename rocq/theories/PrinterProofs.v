(** * Proofs about printed default arguments *)
From Verif Require Import Base PrinterModel PrinterSpec.

(** ** Names *)

Lemma scope_path_printed l :
  existsb unnameable l = false -> scope_path l (flat_map scope_text l).
Proof.
  induction l as [|s l IH]; cbn; [constructor|].
  intros [Hs Hl]%orb_false_elim. specialize (IH Hl).
  destruct s as [n| |n|k|n []]; try discriminate Hs; cbn; unfold colons; rewrite <- ?app_assoc; cbn.
  - now apply (sp_namespace n).
  - now apply (sp_class n).
  - now apply (sp_enumeration n).
  - now apply sp_unscoped.
Qed.

Lemma existsb_rev {A} (f : A -> bool) l : existsb f (rev l) = existsb f l.
Proof.
  induction l as [|x l IH]; cbn; [reflexivity|]. rewrite existsb_app, IH. cbn. rewrite orb_false_r. apply orb_comm.
Qed.

Lemma global_name_printed en :
  en_local en = false -> existsb unnameable (en_scopes en) = false ->
  global_name en (colons ++ nested_specifier en ++ template_keyword en ++ en_name en ++ en_args en).
Proof.
  intros Hl Hs. unfold nested_specifier. rewrite Hl. apply (global_name_path en). apply scope_path_printed. now rewrite existsb_rev.
Qed.

(** ** Arguments *)

Lemma from_source_not_default e : from_source e -> is_default_argument e = false.
Proof.
  induction 1 as [e Hd Hb Hp IH Hm]. destruct e; try reflexivity; try congruence; cbn in *.
  - apply IH; [tauto|]. intro Hx. apply Hm. now left.
  - apply IH; [tauto|]. intro Hx. apply Hm. now left.
Qed.

Lemma listed_printed (isd : expr -> bool) (p : expr -> str) es rest :
  (forall e, In e es -> isd e = false) -> (rest = [] \/ exists r, rest = DefaultArg :: r /\ isd DefaultArg = true) ->
  (forall e, In e es -> fits e (p e)) ->
  exists x, listed es x /\ arguments isd p false (es ++ rest) = x /\
            arguments isd p true (es ++ rest) = match es with [] => [] | _ => $", " ++ x end.
Proof.
  intros Hd Hr. induction es as [|e es IH]; intro Hf.
  - exists []. split; [constructor|]. destruct Hr as [->|(r & -> & Hr)]; cbn; [auto|]. now rewrite Hr.
  - destruct IH as (x & Hx & E1 & E2); [intros; apply Hd; now right|intros; apply Hf; now right|].
    assert (He : fits e (p e)) by (apply Hf; now left).
    assert (Hde : isd e = false) by (apply Hd; now left).
    cbn [app arguments]. rewrite Hde, E2. destruct es as [|e' es].
    + exists (p e). rewrite app_nil_r. repeat split. now constructor.
    + exists (p e ++ $", " ++ x). repeat split. now constructor.
Qed.

Lemma written_printed (isd : expr -> bool) (p : expr -> str) args es :
  written_args args es -> isd DefaultArg = true ->
  (forall e, In e es -> isd e = false) -> (forall e, In e es -> fits e (p e)) ->
  listed es (arguments isd p false args).
Proof.
  intros [es0 Hn|es0 es' Hn] Hd Hi Hf.
  - destruct (listed_printed isd p es0 [] Hi (or_introl eq_refl) Hf) as (x & Hx & E & _). rewrite app_nil_r in E. now rewrite E.
  - destruct (listed_printed isd p es0 (DefaultArg :: es') Hi) as (x & Hx & E & _); [right; eauto|assumption|]. now rewrite E.
Qed.

Lemma written_single (isd : expr -> bool) (p : expr -> str) args e :
  written_args args [e] -> isd DefaultArg = true -> isd e = false -> arguments isd p false args = p e.
Proof.
  intros H Hd He. inversion H as [es Hn E|es es' Hn E]; subst; cbn; rewrite He; cbn; [apply app_nil_r|].
  now rewrite Hd, app_nil_r.
Qed.

Lemma written_in args es e : written_args args es -> In e es -> In e args /\ e <> DefaultArg.
Proof.
  intros [es0 Hn|es0 es' Hn] He; (split; [|congruence]); [assumption|]. apply in_or_app. now left.
Qed.

Lemma written_cut args : exists es, written_args args es.
Proof.
  induction args as [|e args (es & IH)]; [exists []; apply written_all; tauto|].
  destruct (is_default_expr e) eqn:E.
  - destruct e; try discriminate E. exists []. apply (written_some [] args). tauto.
  - assert (Hn : e <> DefaultArg) by (intros ->; discriminate E). exists (e :: es).
    destruct IH as [es Hi|es es' Hi]; [apply written_all|apply (written_some (e :: es) es')]; intros [|]; auto.
Qed.

(** ** Expressions *)

Definition fine (w : bool) (e : expr) : Prop := forall w' e', part_of w e w' e' -> ~ problem w' e'.

Lemma fine_part w e o : fine w e -> In o (operands e ++ clauses e) ->
  fine (w || match prepended e with Some _ => true | None => false end) o.
Proof. intros H Ho w' e' Hp. apply H. eapply po_part; eassumption. Qed.

Lemma fine_node w e :
  ~ problem w e -> (forall o, In o (operands e ++ clauses e) -> fine (w || match prepended e with Some _ => true | None => false end) o) -> fine w e.
Proof. intros H1 H2 w' e' Hp. inversion Hp; subst; [assumption|]. eapply H2; eassumption. Qed.

Definition Printed (e : expr) : Prop :=
  forall w, fine w e -> (w = true -> braces e = true -> bare e (print w e)) /\ (w = false \/ braces e = false -> denotes e (print w e)).

Lemma printed_fits e w : Printed e -> fine w e -> fits e (print w e).
Proof.
  intros H Hf. destruct (H w Hf) as [H1 H2]. destruct w.
  - destruct (braces e) eqn:Eb; [apply fi_bare|apply fi_expr]; auto.
  - apply fi_expr. auto.
Qed.

Lemma is_default_expr_false e : e <> DefaultArg -> is_default_expr e = false.
Proof. now destruct e. Qed.

Lemma clauses_printed (isd : expr -> bool) w args es :
  written_args args es -> isd DefaultArg = true ->
  (forall o, In o args -> o <> DefaultArg -> isd o = false) ->
  (forall o, In o args -> o <> DefaultArg -> Printed o) -> (forall o, In o args -> fine w o) ->
  listed es (arguments isd (print w) false args).
Proof.
  intros Hw Hd Hi HP Hf. apply written_printed; auto; intros e He; destruct (written_in _ _ _ Hw He) as [Ha Hn]; auto.
  apply printed_fits; auto.
Qed.

Lemma source_printed e : from_source e -> Printed e.
Proof.
  induction 1 as [e Hd Hb Hp IH Hm]. intros w Hf.
  assert (Hnp : ~ problem w e) by (apply Hf; constructor).
  (* an operand *)
  assert (Hop : prepended e = None -> forall o, In o (operands e) -> o <> DefaultArg -> denotes o (print w o)).
  { intros Ep o Ho Hn. assert (Hi : In o (operands e ++ clauses e)) by (apply in_or_app; now left).
    pose proof (fine_part w e o Hf Hi) as F. rewrite Ep, orb_false_r in F.
    destruct (IH o Hi Hn w F) as [_ H2]. apply H2. right. now apply Hb. }
  destruct e as [s|e|e|op e|e op|l op r|c l r|e i|f args| |t es|t l args|t l args|t e|k t e|t parens e|en|base arrow en|head e];
    cbn [prepended] in *.
  - (* Leaf *) split; [discriminate|]. intros _. cbn. rewrite andb_false_r. constructor.
  - (* Wrapped *)
    assert (Hn : e <> DefaultArg) by (intros ->; apply Hm; now left).
    pose proof (fine_part w _ e Hf (or_introl eq_refl)) as F. cbn in F. rewrite orb_false_r in F.
    destruct (IH e (or_introl eq_refl) Hn w F) as [H1 H2].
    cbn. rewrite andb_false_r, orb_false_r. cbn. split; intros; constructor; auto.
  - (* Paren *) split; [discriminate|]. intros _. cbn [print prepended]. rewrite andb_false_r, orb_false_r. cbn [app].
    constructor. apply Hop; [reflexivity|now left|]. intros ->. apply Hm. now left.
  - split; [discriminate|]. intros _. cbn [print prepended]. rewrite andb_false_r, orb_false_r. cbn [app].
    constructor. apply Hop; [reflexivity|now left|]. intros ->. apply Hm. now left.
  - split; [discriminate|]. intros _. cbn [print prepended]. rewrite andb_false_r, orb_false_r. cbn [app].
    constructor. apply Hop; [reflexivity|now left|]. intros ->. apply Hm. now left.
  - split; [discriminate|]. intros _. cbn [print prepended]. rewrite andb_false_r, orb_false_r. cbn [app].
    apply de_binary; (apply Hop; [reflexivity|cbn; tauto|]; intros ->; apply Hm; cbn; tauto).
  - split; [discriminate|]. intros _. cbn [print prepended]. rewrite andb_false_r, orb_false_r. cbn [app].
    apply de_conditional; (apply Hop; [reflexivity|cbn; tauto|]; intros ->; apply Hm; cbn; tauto).
  - split; [discriminate|]. intros _. cbn [print prepended]. rewrite andb_false_r, orb_false_r. cbn [app].
    apply de_subscript; (apply Hop; [reflexivity|cbn; tauto|]; intros ->; apply Hm; cbn; tauto).
  - (* Call *) split; [discriminate|]. intros _. cbn [print prepended]. rewrite andb_false_r, orb_false_r. cbn [app].
    destruct (written_cut args) as (es & Hw). rename Hm into Hn. apply de_call with es; [|assumption|].
    + apply Hop; [reflexivity|now left|assumption].
    + apply clauses_printed; auto using is_default_expr_false.
      * intros o Ho Hno. apply IH; [cbn; tauto|assumption].
      * intros o Ho. pose proof (fine_part w _ o Hf (or_intror Ho)) as F. cbn in F. now rewrite orb_false_r in F.
  - congruence.
  - (* InitList *)
    assert (HL : listed es (arguments (fun _ => false) (print true) false es)).
    { rewrite <- (app_nil_r es) at 2. destruct (listed_printed (fun _ => false) (print true) es []) as (x & Hx & E & _); auto.
      - intros o Ho. apply printed_fits; [apply IH; [assumption|congruence]|].
        pose proof (fine_part w _ o Hf Ho) as F. cbn in F. now rewrite orb_true_r in F.
      - now rewrite E. }
    destruct w; cbn [print prepended negb andb orb app]; split; try discriminate; intros H0.
    + intros _. now constructor.
    + destruct H0; discriminate.
    + apply de_list; [now constructor|]. destruct (t_array t) eqn:E; [|reflexivity]. exfalso. apply Hnp. now split.
  - (* Construct *)
    destruct l.
    + split; [discriminate|]. intros _. cbn [print prepended]. rewrite andb_false_r, orb_false_r. cbn [app].
      destruct Hm as (o & Hw). destruct (written_in _ _ o Hw (or_introl eq_refl)) as [Ho Hn].
      rewrite app_nil_r, (written_single _ _ _ _ Hw); auto using is_default_expr_false.
      apply de_construct with o; [assumption|]. apply Hop; auto.
    + destruct (written_cut args) as (es & Hw).
      assert (HL : listed es (arguments is_default_expr (print true) false args)).
      { apply clauses_printed; auto using is_default_expr_false.
        intros o Ho. pose proof (fine_part w _ o Hf Ho) as F. cbn in F. now rewrite orb_true_r in F. }
      destruct w; cbn [print prepended negb andb orb app]; split; try discriminate; intros H0.
      * intros _. now apply ba_construct with es.
      * destruct H0; discriminate.
      * apply de_construct_list. now apply ba_construct with es.
    + destruct Hm as (o & Hw & Eb). destruct (written_in _ _ o Hw (or_introl eq_refl)) as [Ho Hn].
      assert (HB : bare o (print true o)).
      { apply IH; auto. pose proof (fine_part w _ o Hf Ho) as F. cbn in F. now rewrite orb_true_r in F. }
      destruct w; cbn [print prepended negb andb orb app]; rewrite app_nil_r, (written_single _ _ _ _ Hw) by auto using is_default_expr_false;
        split; try discriminate; intros H0.
      * intros _. now apply ba_construct_std with o.
      * destruct H0; discriminate.
      * apply de_construct_list. now apply ba_construct_std with o.
  - (* Temporary *)
    split; [discriminate|]. intros _. cbn [print prepended]. rewrite andb_false_r, orb_false_r. cbn [app].
    assert (HF : forall o, In o args -> fine w o).
    { intros o Ho. pose proof (fine_part w _ o Hf Ho) as F. cbn in F. now rewrite orb_false_r in F. }
    assert (HD : forall o, In o args -> o <> DefaultArg -> is_default_argument o = false).
    { intros o Ho Hn. apply from_source_not_default. apply Hp; assumption. }
    destruct l; cbn [opening closing app].
    + destruct (written_cut args) as (es & Hw). apply de_temporary_parens with es; [assumption|]. apply clauses_printed; auto.
    + destruct (written_cut args) as (es & Hw). apply de_temporary_braces with es; [assumption|]. apply clauses_printed; auto.
    + destruct Hm as (o & Hw & Eb). destruct (written_in _ _ o Hw (or_introl eq_refl)) as [Ho Hn].
      rewrite app_nil_r, (written_single _ _ _ _ Hw); auto.
      apply de_temporary_std with o; [assumption|]. destruct w; [|exfalso; now apply Hnp].
      apply IH; auto.
  - split; [discriminate|]. intros _. cbn [print prepended]. rewrite andb_false_r, orb_false_r. cbn [app].
    apply de_cast. apply Hop; [reflexivity|now left|]. intros ->. apply Hm. now left.
  - split; [discriminate|]. intros _. cbn [print prepended]. rewrite andb_false_r, orb_false_r. cbn [app].
    apply de_named_cast. apply Hop; [reflexivity|now left|]. intros ->. apply Hm. now left.
  - split; [discriminate|]. intros _. cbn [print prepended]. rewrite andb_false_r, orb_false_r. destruct parens; cbn [app].
    + apply de_functional. apply Hop; [reflexivity|now left|]. intros ->. apply Hm. now left.
    + rewrite app_nil_r. apply de_functional_list. destruct w; [|exfalso; now apply Hnp].
      assert (Hn : e <> DefaultArg) by (intros ->; discriminate Hm).
      exact (proj1 (IH e (or_introl eq_refl) Hn true (fine_part true _ e Hf (or_introl eq_refl))) eq_refl Hm).
  - split; [discriminate|]. intros _. cbn [print prepended]. rewrite andb_false_r. cbn [app].
    constructor. unfold refers. cbn in Hnp. destruct (en_local en) eqn:El; [tauto|].
    apply global_name_printed; [assumption|]. now destruct (existsb unnameable (en_scopes en)); [tauto|].
  - split; [discriminate|]. intros _. cbn [print prepended]. rewrite andb_false_r, orb_false_r. cbn [app].
    cbn in Hnp. destruct (anonymous_field base) eqn:Ea; [tauto|]. rewrite app_assoc. apply de_member.
    + apply se_object; [assumption|]. apply Hop; [reflexivity|now left|]. intros ->. apply Hm. now left.
    + right. destruct (en_local en) eqn:El; [tauto|]. split; [reflexivity|].
      apply global_name_printed; [assumption|]. now destruct (existsb unnameable (en_scopes en)); [tauto|].
  - split; [discriminate|]. intros _. cbn [print prepended]. rewrite andb_false_r, orb_false_r. cbn [app].
    apply de_lambda. apply Hop; [reflexivity|now left|]. intros ->. apply Hm. now left.
Qed.

Theorem default_printed e : from_source e -> unproblematic e -> denotes e (print_default e).
Proof. intros Hs Hu. apply (source_printed e Hs false Hu). now left. Qed.
