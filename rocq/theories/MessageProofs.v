From Verif Require Import Base ParserModel StringModel StringSpec StringProofs AnnotModel AnnotSpec AnnotProofs MessageModel MessageSpec.

(** * Diagnostics of the handlers *)

Section Faults.
  Variables (d : decl) (args : list lit) (P : diag -> Prop).

  Definition fine (s : dispatcher) : Prop := Forall P (ds_diags s).
  Definition talks (f : action) : Prop := forall a, Forall P (snd (f a)).

  Lemma talks_change f : talks (change f).
  Proof. intros a. constructor. Qed.
  Lemma talks_complain e : P e -> talks (complain e).
  Proof. intros H a. constructor; [exact H|constructor]. Qed.
  Lemma fine_perform f s : fine s -> talks f -> fine (perform f s).
  Proof. unfold fine, perform. intros H Hf. specialize (Hf (ds_attrs s)). destruct (f (ds_attrs s)). cbn in *. apply Forall_app. auto. Qed.
  Lemma fine_perform_all f l : forall s, fine s -> (forall v, In v l -> talks (f v)) -> fine (perform_all f l s).
  Proof.
    induction l as [|v l IH]; intros s H Hf; [exact H|]. cbn [perform_all]. apply IH; [|intros w Hw; apply Hf; right; exact Hw].
    apply fine_perform; [exact H|]. apply Hf. left. reflexivity.
  Qed.
  Lemma fine_ensure c s : fine s -> Forall P (snd c) -> fine (ensure c s).
  Proof.
    intros H Hc. unfold ensure. assert (Hp : fine (perform (fun a => (a, snd c)) s)) by (apply fine_perform; [exact H|intros a; exact Hc]).
    destruct (ds_state s), (fst c); auto.
  Qed.
  Lemma fine_check k s : fine s ->
    (ds_state s = Unmatched -> P (match ds_mismatch s with Some v => DWrongArgumentType k v | None => DWrongNumberOfArguments k end)) ->
    Forall P (snd (check_match k s)).
  Proof.
    intros H Hm. unfold check_match. destruct (ds_state s) eqn:E; cbn [snd]; [|exact H|exact H].
    apply Forall_app. split; [exact H|]. constructor; [apply Hm; reflexivity|constructor].
  Qed.
End Faults.

Lemma wrong_kind_some k args w : wrong_kind k args = Some w -> In w args /\ isa k w = false.
Proof. unfold wrong_kind. intros H. apply find_some in H. rewrite negb_true_iff in H. exact H. Qed.

Lemma wrong_kind_all k args : wrong_kind k args = None -> forall v, In v args -> isa k v = true.
Proof. intros H. apply wrong_kind_none in H. rewrite forallb_forall in H. exact H. Qed.

Lemma string_arg v : isa AnnotModel.VString v = true -> v = LString (get_string v).
Proof. destruct v; try discriminate. reflexivity. Qed.

Lemma not_string k v : isa AnnotModel.VString v = false -> In k [OnlyExposeIn; GetterFor; SetterFor; HideBase; HolderType; InlineBase; KeepAlive; Noconvert; Required; ReturnValuePolicy; Module] -> ~ type_fits k v.
Proof.
  intros H Hk. destruct v; try discriminate; cbn in Hk |- *; intuition (subst; try discriminate).
Qed.

Lemma kind_fits_iff d k : kind_fits d k ->
  match k with
  | Manual | Postamble => exists e, manual_bindings_expr d = Some e
  | _ => applicable d k = true
  end.
Proof.
  destruct k; cbn [kind_fits applicable];
    rewrite ?is_namespace_iff, ?is_typedef_iff, ?supports_enum_iff, ?supports_record_iff, ?supports_constructor_iff, ?supports_field_iff, ?supports_function_iff, ?supports_method_iff; auto;
    intros [H1 H2]; apply manual_iff; split; try exact H1; destruct (d_lambda d); eauto; congruence.
Qed.

Lemma fits_kind d k :
  match k with
  | Manual | Postamble => exists e, manual_bindings_expr d = Some e
  | _ => applicable d k = true
  end -> kind_fits d k.
Proof.
  destruct k; cbn [kind_fits applicable];
    rewrite ?is_namespace_iff, ?is_typedef_iff, ?supports_enum_iff, ?supports_record_iff, ?supports_constructor_iff, ?supports_field_iff, ?supports_function_iff, ?supports_method_iff; auto;
    intros H; apply manual_iff in H as [H1 [e H2]]; split; try exact H1; congruence.
Qed.

Definition explained (d : decl) (an : annotation) (a : attrs) (x : diag) : Prop :=
  fault d an x \/ (x = DConflicting /\ is_typedef d = true /\ conflict_b an a = true).

Ltac not_fits := cbn; intuition (try discriminate; try lia).

Lemma flag_faults d k args set s : kind_fits d k -> In k [Arithmetic; ExportValues; DynamicAttr; ImplicitConversion; Readonly] ->
  Forall (fault d (mkAnnotation k args)) (ds_diags s) -> (ds_mismatch s = None) ->
  Forall (fault d (mkAnnotation k args)) (snd (check_match k (flag args set s))).
Proof.
  intros Hd Hk Hs Hn. unfold flag, nullary, unary, unmatched, check_match, perform, change, matched.
  destruct s as [[] m x ds]; cbn [ds_state ds_mismatch ds_attrs ds_diags snd] in *; subst;
  destruct args as [|[] [|w r]]; cbn; rewrite ?app_nil_r; auto;
    apply Forall_app; (split; [exact Hs|]); constructor; auto.
  all: try (apply fa_type; [exact Hd|left; reflexivity|cbn in Hk |- *; intuition (subst; discriminate)]).
  all: apply fa_number; [exact Hd|]; cbn in Hk; repeat (destruct Hk as [<-|Hk]; [cbn; lia|]); destruct Hk.
Qed.

Lemma variadic_faults d k args f a : kind_fits d k -> In k [OnlyExposeIn; Noconvert; Required] ->
  (forall s, In (LString s) args -> forall a, Forall (fault d (mkAnnotation k args)) (snd (f (LString s) a))) ->
  Forall (fault d (mkAnnotation k args)) (snd (check_match k (variadic args AnnotModel.VString f (dispatch a)))).
Proof.
  intros Hd Hk Hf. apply fine_check.
  - unfold variadic. cbn [unmatched dispatch ds_state]. destruct args as [|v r] eqn:Ea; [constructor|]. rewrite <- Ea in *.
    destruct (wrong_kind _ args) eqn:Ew; [constructor|]. unfold matched, fine. cbn [ds_diags].
    apply fine_perform_all; [constructor|]. intros x Hx. pose proof (wrong_kind_all _ _ Ew x Hx) as Hi. rewrite (string_arg x Hi) in Hx |- *.
    intros b. apply Hf. exact Hx.
  - unfold variadic. cbn [unmatched dispatch ds_state]. destruct args as [|v r] eqn:Ea.
    + intros _. cbn. apply fa_number; [exact Hd|]. cbn in Hk. intuition (subst; cbn in *; auto).
    + rewrite <- Ea in *. destruct (wrong_kind _ args) eqn:Ew; cbn; [|discriminate]. intros _.
      apply wrong_kind_some in Ew as [H1 H2]. apply fa_type; [exact Hd|exact H1|]. apply not_string; [exact H2|]. cbn in Hk |- *. tauto.
Qed.

Lemma collect_faults d k args t p s : kind_fits d k -> In k [GetterFor; SetterFor; HideBase; InlineBase] ->
  Forall (fault d (mkAnnotation k args)) (ds_diags s) -> ds_mismatch s = None ->
  (forall s, In (LString s) args -> Forall (fault d (mkAnnotation k args)) (snd (t (LString s)))) ->
  (forall l a, (forall v, In v args -> isa AnnotModel.VString v = true) -> l = map (fun v => fst (t v)) args ->
    Forall (fault d (mkAnnotation k args)) (snd (p l a)) /\ (fst (fst (p l a)) = false -> ~ number_fits k (length args))) ->
  Forall (fault d (mkAnnotation k args)) (snd (check_match k (variadic_collect args AnnotModel.VString t p s))).
Proof.
  intros Hd Hk Hs Hn Ht Hp. apply fine_check.
  - unfold variadic_collect. destruct (unmatched s); [|exact Hs]. destruct (wrong_kind _ args) eqn:Ew; [exact Hs|].
    destruct (Hp _ (ds_attrs s) (wrong_kind_all _ _ Ew) eq_refl) as [H1 H2].
    unfold perform. cbn [ds_attrs ds_state ds_mismatch ds_diags].
    destruct (p _ (ds_attrs s)) as [[ok b] ds]. cbn [fst snd] in H1.
    assert (H : Forall (fault d (mkAnnotation k args)) ((ds_diags s ++ flat_map (fun v => snd (t v)) args) ++ ds)).
    { rewrite !Forall_app. repeat split; auto. apply Forall_flat_map, Forall_forall. intros v Hv.
      pose proof (wrong_kind_all _ _ Ew v Hv) as Hi. rewrite (string_arg v Hi) in Hv |- *. apply Ht, Hv. }
    destruct ok; exact H.
  - unfold variadic_collect. destruct (unmatched s) eqn:Eu; [|intros E; unfold unmatched in Eu; rewrite E in Eu; discriminate].
    destruct (wrong_kind _ args) eqn:Ew.
    + intros _. cbn. apply wrong_kind_some in Ew as [H1 H2]. apply fa_type; [exact Hd|exact H1|]. apply not_string; [exact H2|]. cbn in Hk |- *. tauto.
    + destruct (Hp _ (ds_attrs s) (wrong_kind_all _ _ Ew) eq_refl) as [H1 H2].
      unfold perform. cbn [ds_attrs ds_state ds_mismatch ds_diags].
      destruct (p _ (ds_attrs s)) as [[ok b] ds]. cbn [fst snd] in H2. destruct ok; cbn; [discriminate|]. intros _. rewrite Hn.
      apply fa_number; auto.
Qed.

Lemma select_faults d k bases ins args a : k = HideBase /\ bases = d_bases d \/ k = InlineBase /\ bases = d_all_bases d -> kind_fits d k ->
  Forall (fault d (mkAnnotation k args)) (snd (check_match k (variadic_collect args AnnotModel.VString plain_string (select_bases k bases ins) (dispatch a)))).
Proof.
  intros Hk Hd. apply collect_faults; [exact Hd|destruct Hk as [[-> _]|[-> _]]; cbn; tauto|constructor|reflexivity|intros; constructor|].
  intros l b Hall ->. unfold select_bases. cbn [fst snd]. split; [|discriminate].
  destruct (filter _ bases) eqn:Ef; [|constructor]. constructor; [|constructor].
  assert (Hn : no_base_named bases args).
  { split.
    - intros ->. cbn in Ef. destruct bases; [reflexivity|]. cbn in Ef. discriminate.
    - intros c n Hc Hin Hname.
      assert (Hf : In c (filter (fun b0 => match map (fun v => fst (plain_string v)) args with [] => true | _ :: _ => matches (map (fun v => fst (plain_string v)) args) b0 end) bases)).
      { apply filter_In. split; [exact Hc|]. destruct (map (fun v => fst (plain_string v)) args) eqn:Em; [reflexivity|]. rewrite <- Em.
        unfold matches. apply existsb_exists. exists n. split.
        - apply in_map_iff. exists (LString n). split; [reflexivity|exact Hin].
        - apply existsb_exists. exists n. split; [exact Hname|]. apply str_eqb_eq. reflexivity. }
      rewrite Ef in Hf. exact Hf. }
  destruct Hk as [[-> ->]|[-> ->]]; constructor; assumption.
Qed.

Lemma property_faults d k ins args a ok : (k = GetterFor \/ k = SetterFor) -> kind_fits d k -> (ok = false -> ~ signature_fits d k) ->
  Forall (fault d (mkAnnotation k args)) (snd (check_match k
    (variadic_collect args AnnotModel.VString (collect_identifier k) (add_properties ins) (ensure (signature_ok k ok) (dispatch a))))).
Proof.
  intros Hk Hd Hs. apply collect_faults; [exact Hd|destruct Hk as [->| ->]; cbn; tauto| | | | ].
  - apply fine_ensure; [constructor|]. destruct ok; cbn; [constructor|]. constructor; [|constructor]. apply fa_signature; auto.
  - unfold ensure. cbn. destruct ok; reflexivity.
  - intros s Hin. unfold collect_identifier. cbn [get_string]. destruct (is_valid_identifier s) eqn:E; constructor; [|constructor].
    apply fa_spelling; [exact Hd|destruct Hk as [->| ->]; cbn; tauto|exact Hin|]. intros H. apply is_valid_identifier_iff in H. congruence.
  - intros l b _ ->. destruct args; cbn; split; try constructor; try discriminate. intros _. destruct Hk as [->| ->]; cbn; auto.
Qed.

Lemma parameter_fault d k t : kind_fits d k -> In k [Noconvert; Required] -> index_of t (parameter_names false false d) = None -> ~ In t (d_params d).
Proof.
  intros _ _ H Hin. pose proof (proj2 (known_iff d t) Hin) as Hk. unfold known in Hk. cbn [get_string] in Hk.
  unfold parameter_names in H. cbn [app] in H. rewrite H in Hk. discriminate.
Qed.

Lemma slot_fault d t : index_of t (parameter_names true (is_method_decl d) d) = None -> ~ call_slot d t.
Proof.
  intros H Hin. pose proof (proj2 (known_slot_iff d t) Hin) as Hk. unfold known_slot in Hk. cbn [get_string] in Hk. rewrite H in Hk. discriminate.
Qed.

Lemma forall_explained d an a ds : Forall (fault d an) ds -> Forall (explained d an a) ds.
Proof. apply Forall_impl. intros x Hx. left. exact Hx. Qed.

Ltac fault_list Hd :=
  repeat first [apply Forall_nil | apply Forall_cons];
  first [apply fa_type; [exact Hd|cbn; tauto|cbn; intuition discriminate] | apply fa_number; [exact Hd|cbn; lia]].

Lemma owner_faults d k args a : k <> Module -> applicable d k = true ->
  Forall (explained d (mkAnnotation k args) a) (snd (owner k d (mkAnnotation k args) a)).
Proof.
  intros Hm Ha.
  assert (Hd : match k with Manual | Postamble => True | _ => kind_fits d k end)
    by (destruct k; try exact I; apply fits_kind; exact Ha).
  destruct k; try congruence; cbn [owner];
    unfold process_named, process_namespace, process_enum, process_record, process_typedef, process_field,
      process_method, process_constructor, process_function; cbn [a_kind a_args].
  all: try (apply forall_explained; apply flag_faults; [exact Hd|cbn; tauto|constructor|reflexivity]).
  all: try (apply forall_explained; apply select_faults; [tauto|exact Hd]).
  - (* ExposeAs *) apply forall_explained. destruct args as [|[] [|w r]]; cbn -[is_valid_identifier]; try (constructor; fail); try fault_list Hd.
    unfold store_spelling. cbn [get_string]. destruct (is_valid_identifier s) eqn:E; cbn; constructor; [|constructor].
    apply fa_spelling; [exact Hd|cbn; tauto|left; reflexivity|]. intros H. apply is_valid_identifier_iff in H. congruence.
  - (* Hidden *) apply forall_explained. destruct args; cbn; try (constructor; fail); fault_list Hd.
  - (* Visible *) apply forall_explained. destruct args as [|[] [|w r]]; cbn; try (constructor; fail); fault_list Hd.
  - (* GetterFor *) apply forall_explained. apply property_faults; [tauto|exact Hd|]. intros H [H1 H2]. rewrite H1, H2 in H. discriminate.
  - (* SetterFor *) apply forall_explained. apply property_faults; [tauto|exact Hd|]. intros H [H1 H2].
    apply negb_false_iff, orb_true_iff in H. rewrite !Nat.ltb_lt in H. destruct (d_params d); [congruence|]. cbn in H. lia.
  - (* HolderType *) apply forall_explained. destruct args as [|[] [|w r]]; cbn; try (constructor; fail); fault_list Hd.
  - (* ImplicitConversion *) apply forall_explained. apply flag_faults; [exact Hd|cbn; tauto| | ].
    + apply fine_ensure; [constructor|]. destruct (negb _) eqn:E; cbn; [constructor|]. constructor; [|constructor].
      apply fa_converting; [exact Hd|]. intros [H1 H2]. rewrite H1, H2 in E. discriminate.
    + unfold ensure. cbn. destruct (negb _); reflexivity.
  - (* KeepAlive *) apply forall_explained. destruct args as [|v [|w [|x r]]]; try (cbn; fault_list Hd).
    unfold binary. cbn [unmatched dispatch ds_state]. destruct (wrong_kind _ [v; w]) eqn:Ew.
    + apply wrong_kind_some in Ew as [H1 H2]. cbn. constructor; [|constructor]. apply fa_type; [exact Hd|exact H1|].
      apply not_string; [exact H2|cbn; tauto].
    + pose proof (wrong_kind_all _ _ Ew v (or_introl eq_refl)) as Hv. pose proof (wrong_kind_all _ _ Ew w (or_intror (or_introl eq_refl))) as Hw.
      rewrite (string_arg v Hv), (string_arg w Hw). generalize (get_string v) as s, (get_string w) as t. intros s t. cbn [get_string].
      destruct (index_of s _) eqn:E1; [destruct (index_of t _) eqn:E2|]; cbn; try (constructor; fail); (constructor; [|constructor]);
        (apply fa_slot; [exact Hd|cbn; tauto|apply slot_fault; assumption]).
  - (* Noconvert *) apply forall_explained. apply variadic_faults; [exact Hd|cbn; tauto|]. intros t Hin b. cbn [get_string].
    destruct (index_of t _) eqn:Ei; constructor; [|constructor]. apply fa_parameter; [exact Hd|cbn; tauto|exact Hin|].
    eapply parameter_fault; [exact Hd|cbn; tauto|exact Ei].
  - (* Required *) apply forall_explained. apply variadic_faults; [exact Hd|cbn; tauto|]. intros t Hin b. cbn [get_string].
    destruct (index_of t _) eqn:Ei; constructor; [|constructor]. apply fa_parameter; [exact Hd|cbn; tauto|exact Hin|].
    eapply parameter_fault; [exact Hd|cbn; tauto|exact Ei].
  - (* ReturnValuePolicy *) apply forall_explained. destruct args as [|[] [|w r]]; cbn; try (constructor; fail); fault_list Hd.
  - (* Manual *) apply forall_explained. destruct (manual_bindings_expr d) eqn:E; [|destruct args; constructor].
    assert (Hk : kind_fits d Manual) by (apply fits_kind; eauto). destruct args; cbn; try (constructor; fail); fault_list Hk.
  - (* Postamble *) apply forall_explained. destruct (manual_bindings_expr d) eqn:E; [|destruct args; constructor].
    assert (Hk : kind_fits d Postamble) by (apply fits_kind; eauto). destruct (d_global d) eqn:Eg.
    + destruct args; cbn; try (constructor; fail); fault_list Hk.
    + cbn. constructor; [|constructor]. apply fa_scope; assumption.
  - (* OnlyExposeIn *) apply forall_explained. apply variadic_faults; [exact Hd|cbn; tauto|]. intros. constructor.
  - (* ExposeHere *) destruct args; cbn.
    + rewrite andb_true_r. destruct (t_encourage (at_typedef a)) eqn:E; constructor; [|constructor]. right. cbn. rewrite E. auto.
    + apply forall_explained. fault_list Hd.
  - (* Encourage *) destruct args; cbn.
    + destruct (t_expose_here (at_typedef a)) eqn:E; constructor; [|constructor]. right. cbn. rewrite E. auto.
    + apply forall_explained. fault_list Hd.
Qed.

Lemma module_faults d args a :
  Forall (fault d (mkAnnotation Module args)) (snd (any_of (handlers d) (mkAnnotation Module args) a)).
Proof.
  rewrite any_of_module. unfold process_named, no_check. cbn [a_kind a_args].
  destruct (is_namespace d) eqn:En.
  - assert (Hd : kind_fits d Module) by (apply fits_kind; exact En).
    assert (H2 : forall b, Forall (fault d (mkAnnotation Module args)) (snd (process_namespace d (mkAnnotation Module args) b))).
    { intros b. unfold process_namespace. cbn [a_kind a_args].
      destruct args as [|[] [|w r]]; cbn; try (constructor; fail); fault_list Hd. }
    match goal with |- context [process_namespace d ?an ?b] => specialize (H2 b); destruct (process_namespace d an b) as [[ok a2] ds2] end.
    cbn [snd] in *. apply Forall_app. split; [|exact H2]. clear H2.
    destruct args as [|[] [|w r]]; cbn -[is_valid_identifier]; try (constructor; fail).
    unfold store_spelling. cbn [get_string]. destruct (is_valid_identifier s) eqn:E; cbn; constructor; [|constructor].
    apply fa_spelling; [exact Hd|cbn; tauto|left; reflexivity|]. intros H. apply is_valid_identifier_iff in H. congruence.
  - destruct args as [|[] [|w r]]; constructor.
Qed.

Lemma handlers_faults d an a : Forall (explained d an a) (snd (any_of (handlers d) an a)).
Proof.
  destruct an as [k args]. destruct (akind_eqb k Module) eqn:Em.
  - apply akind_eqb_eq in Em. subst k. apply forall_explained, module_faults.
  - assert (Hm : k <> Module) by (intros ->; discriminate).
    rewrite any_of_owner by exact Hm. cbn [a_kind]. destruct (applicable d k) eqn:Ea; [|constructor].
    apply owner_faults; assumption.
Qed.

(** * Annotations that fit are handled or complained about *)

Definition loud (s : dispatcher) : Prop := ds_state s = Invalid -> errs (ds_diags s) = true.

Lemma loud_same s s' : loud s -> (ds_state s' = Invalid -> s' = s) -> loud s'.
Proof. intros H He Hi. pose proof (He Hi) as E. rewrite E in Hi |- *. apply H, Hi. Qed.

Lemma perform_state f s : ds_state (perform f s) = ds_state s.
Proof. unfold perform. destruct (f (ds_attrs s)). reflexivity. Qed.

Lemma unmatched_state s : unmatched s = true -> ds_state s = Unmatched.
Proof. unfold unmatched. destruct (ds_state s); try discriminate. reflexivity. Qed.

Lemma loud_nullary args f s : loud s -> loud (nullary args f s).
Proof.
  intros H. apply (loud_same s); [exact H|]. unfold nullary. destruct (unmatched s) eqn:E; [|auto]. destruct args; [discriminate|auto].
Qed.
Lemma loud_unary args k f s : loud s -> loud (unary args k f s).
Proof.
  intros H. apply (loud_same s); [exact H|]. unfold unary. destruct (unmatched s) eqn:E; [|auto]. apply unmatched_state in E.
  destruct args as [|v [|]]; auto. destruct (wrong_kind _ _); cbn; [congruence|discriminate].
Qed.
Lemma loud_binary args k f s : loud s -> loud (binary args k f s).
Proof.
  intros H. apply (loud_same s); [exact H|]. unfold binary. destruct (unmatched s) eqn:E; [|auto]. apply unmatched_state in E.
  destruct args as [|v [|w [|]]]; auto. destruct (wrong_kind _ _); cbn; [congruence|discriminate].
Qed.
Lemma loud_variadic args k f s : loud s -> loud (variadic args k f s).
Proof.
  intros H. apply (loud_same s); [exact H|]. unfold variadic. destruct (unmatched s) eqn:E; [|auto]. apply unmatched_state in E.
  destruct args as [|v r]; auto. destruct (wrong_kind _ _); cbn; [congruence|discriminate].
Qed.
Lemma loud_collect args k t p s : loud s -> loud (variadic_collect args k t p s).
Proof.
  intros H. apply (loud_same s); [exact H|]. unfold variadic_collect. destruct (unmatched s) eqn:E; [|auto]. apply unmatched_state in E.
  destruct (wrong_kind _ _); cbn; [congruence|]. destruct (p _ _) as [[[] b] ds]; cbn; [discriminate|congruence].
Qed.
Lemma loud_ensure c s : loud s -> (fst c = false -> errs (snd c) = true) -> loud (ensure c s).
Proof.
  intros H Hc. unfold ensure, loud in *. destruct (ds_state s) eqn:E; auto; destruct (fst c) eqn:Ec; rewrite ?perform_state, ?E; try discriminate;
    intros _; unfold invalid, perform; cbn [ds_diags]; unfold errs in *; rewrite existsb_app, (Hc eq_refl); apply orb_true_r.
Qed.
Lemma loud_flag args set s : loud s -> loud (flag args set s).
Proof. intros H. apply loud_unary, loud_nullary, H. Qed.
Lemma loud_on_match f s : loud s -> loud (on_match f s).
Proof.
  intros H. apply (loud_same s); [exact H|]. unfold on_match. destruct (ds_state s) eqn:E; auto. rewrite perform_state. congruence.
Qed.
Lemma loud_dispatch a : loud (dispatch a).
Proof. discriminate. Qed.

Definition handled (r : bool * attrs * list diag) : Prop := fst (fst r) = true \/ errs (snd r) = true.

Lemma handled_check k s : loud s -> handled (check_match k s).
Proof.
  intros H. unfold handled, check_match. destruct (ds_state s) eqn:E; cbn [fst snd].
  - right. unfold errs. rewrite existsb_app. destruct (ds_mismatch s); cbn; rewrite ?orb_true_r; reflexivity.
  - left. reflexivity.
  - right. apply H. exact E.
Qed.

Lemma fits_handled d an a : kind_fits d (a_kind an) -> handled (any_of (handlers d) an a).
Proof.
  intros Hd. destruct an as [k args]. cbn [a_kind] in Hd. destruct (akind_eqb k Module) eqn:Em.
  - apply akind_eqb_eq in Em. subst k. rewrite any_of_module. apply kind_fits_iff in Hd. cbn [applicable] in Hd. rewrite Hd.
    destruct (process_named d _ a) as [[x a1] ds1].
    assert (H : handled (process_namespace d (mkAnnotation Module args) a1)).
    { unfold process_namespace. cbn [a_kind a_args]. apply handled_check, loud_unary, loud_nullary, loud_dispatch. }
    destruct (process_namespace d _ a1) as [[ok a2] ds2]. destruct H as [H|H]; cbn [fst snd] in H; [left; exact H|right].
    cbn [snd]. unfold errs in *. rewrite existsb_app, H. apply orb_true_r.
  - assert (Hm : k <> Module) by (intros ->; discriminate).
    rewrite any_of_owner by exact Hm. cbn [a_kind]. pose proof (kind_fits_iff d k Hd) as Hk.
    assert (Ha : applicable d k = true).
    { destruct k; try exact Hk; destruct Hk as [e He]; cbn; unfold supports_field; unfold manual_bindings_expr in He; destruct (d_kind d); congruence. }
    rewrite Ha. destruct k; try congruence; cbn [owner];
      unfold process_named, process_namespace, process_enum, process_record, process_typedef, process_field,
        process_method, process_constructor, process_function; cbn [a_kind a_args]; apply handled_check;
      repeat first [apply loud_flag | apply loud_nullary | apply loud_unary | apply loud_binary | apply loud_variadic | apply loud_collect | apply loud_on_match | apply loud_dispatch | apply loud_ensure].
    + cbn. intros ->. reflexivity.
    + cbn. intros ->. reflexivity.
    + cbn. intros ->. reflexivity.
    + destruct Hk as [e ->]. discriminate.
    + destruct Hk as [e ->]. destruct (d_global d); [discriminate|reflexivity].
Qed.

Lemma annotation_faults d an a a' ds : process_annotation d an a = Some (a', ds) -> Forall (explained d an a) ds.
Proof.
  unfold process_annotation. pose proof (handlers_faults d an a) as Hf. pose proof (fits_handled d an a) as Hh.
  destruct (any_of (handlers d) an a) as [[ok x] ds0]. cbn [snd] in Hf. destruct (existsb is_error ds0 || ok) eqn:E.
  - intros [= <- <-]. exact Hf.
  - destruct (supports_typedef_diags d); [|discriminate]. intros [= <- <-]. apply Forall_app. split; [exact Hf|].
    constructor; [|constructor]. left. destruct an as [k args]. apply fa_kind. intros Hk. apply orb_false_iff in E as [E1 E2].
    destruct (Hh Hk) as [H|H]; cbn [fst snd] in H; unfold errs in H; congruence.
Qed.

(** * All diagnostics of a declaration *)

Definition so_far (d : decl) (before : list annotation) (a : attrs) : Prop :=
  (t_encourage (at_typedef a) = true -> In (mkAnnotation Encourage []) before) /\
  (t_expose_here (at_typedef a) = true -> In (mkAnnotation ExposeHere []) before).

Lemma so_far_step d before an a a' ds : so_far d before a -> process_annotation d an a = Some (a', ds) -> so_far d (before ++ [an]) a'.
Proof.
  intros [H1 H2] H. apply step_typedef in H. unfold so_far. rewrite H. cbn [t_encourage t_expose_here].
  rewrite !orb_true_iff, !andb_true_iff, !akind_eqb_eq. destruct an as [k args]. cbn [a_kind a_args].
  split; (intros [Ht|[[_ ->] Hn]]; apply in_app_iff; [left; auto|right; left]); destruct args; try discriminate; reflexivity.
Qed.

Lemma annotations_justified d : forall ans before a a' dss, so_far d before a -> (forall an, In an (before ++ ans) -> written d an) ->
  process_annotations d ans a = Some (a', dss) -> Forall (justified d) (concat dss).
Proof.
  induction ans as [|an ans IH]; intros before a a' dss Hs Hw; cbn [process_annotations].
  - intros [= <- <-]. constructor.
  - destruct (process_annotation d an a) as [[a1 ds]|] eqn:E1; [|discriminate].
    destruct (process_annotations d ans a1) as [[a2 dss']|] eqn:E2; [|discriminate]. intros [= <- <-]. cbn [concat]. apply Forall_app. split.
    + eapply Forall_impl; [|eapply annotation_faults; exact E1]. intros x [Hx|(-> & Ht & Hc)].
      * eapply ju_fault; [|exact Hx]. apply Hw. apply in_app_iff. right. left. reflexivity.
      * apply is_typedef_iff in Ht. destruct an as [k args]. unfold conflict_b in Hc. cbn [a_kind a_args] in Hc.
        destruct k; try discriminate; apply andb_true_iff in Hc as [Hn Hc]; (destruct args; [|discriminate]).
        -- apply ju_conflict; [exact Ht| |]; apply Hw; apply in_app_iff; [left; apply Hs, Hc|right; left; reflexivity].
        -- apply ju_conflict; [exact Ht| |]; apply Hw; apply in_app_iff; [right; left; reflexivity|left; apply Hs, Hc].
    + eapply IH; [|intros x Hx; apply Hw|exact E2].
      * eapply so_far_step; [exact Hs|exact E1].
      * rewrite <- app_assoc in Hx. exact Hx.
Qed.

Lemma consume_front_some p : forall s r, consume_front p s = Some r -> s = p ++ r.
Proof.
  induction p as [|c p IH]; intros s r; cbn; [congruence|]. destruct s as [|x s]; [discriminate|]. destruct (ascii_dec c x); [|discriminate].
  intros H. cbn. f_equal; [congruence|]. apply IH, H.
Qed.

Lemma parse_justified d : forall texts acc, (forall t, In t texts -> In t (d_attrs d)) -> Forall (justified d) (snd (parse_attrs texts acc)).
Proof.
  induction texts as [|t texts IH]; intros acc Hin; cbn [parse_attrs]; [constructor|].
  assert (Hr : forall x, In x texts -> In x (d_attrs d)) by (intros x Hx; apply Hin; right; exact Hx).
  destruct (consume_front lozenge t) as [rest|] eqn:E; [|apply IH, Hr]. apply consume_front_some in E.
  destruct (parse_annotations_into rest acc) as [r acc'] eqn:Ep. specialize (IH acc' Hr).
  destruct (parse_attrs texts acc') as [acc2 ds2]. cbn [snd] in *. apply Forall_app. split; [|exact IH].
  destruct r as [|e|]; try constructor; [|constructor]. eapply ju_parser; [|exact Ep]. apply Hin. left. congruence.
Qed.

Lemma compute_justified d a ds : compute_attrs d = Some (a, ds) -> Forall (justified d) ds.
Proof.
  unfold compute_attrs. pose proof (parse_justified d (d_attrs d) [] (fun t H => H)) as Hp.
  destruct (parse_attrs (d_attrs d) []) as [ans pds] eqn:Ep. cbn [snd] in Hp.
  destruct (process_annotations d ans (initial_attrs d)) as [[a' dss]|] eqn:E; [|discriminate]. intros [= <- <-].
  rewrite !Forall_app. split; [|split; [exact Hp|]].
  - unfold supports_typedef_diags. destruct (is_typedef d) eqn:Et; [|constructor]. destruct (d_target d) eqn:Etg; [constructor|].
    destruct (has_annotations d true) eqn:Ea; [|constructor]. constructor; [|constructor]. apply ju_target. split; [apply is_typedef_iff, Et|]. split; [exact Etg|].
    unfold has_annotations in Ea. apply existsb_exists in Ea as (t & Hin & Ht). destruct (consume_front lozenge t) as [rest|] eqn:Ec; [|discriminate].
    apply consume_front_some in Ec. exists rest. rewrite <- Ec. exact Hin.
  - eapply (annotations_justified d ans []); [| |exact E].
    + split; unfold initial_attrs; destruct (_ && _); discriminate.
    + intros an Han. unfold written. rewrite Ep. exact Han.
Qed.

(** * Texts *)

Definition quoted_kind (k : akind) : str := in_quotes (kind_spelling k).

Definition text (p : problem) : str :=
  match p with
  | PAnnotation d x =>
      match x with
      | DParser (mkError InvalidToken t) => $"Invalid token in genpybind annotation: " ++ t
      | DParser (mkError MissingClosingParen t) => $"Invalid token in genpybind annotation while looking for ')': " ++ t
      | DParser (mkError InvalidAnnotation t) => $"Invalid genpybind annotation: " ++ t
      | DWrongArgumentType k v => $"Wrong type of argument for " ++ quoted_kind k ++ $" annotation: " ++ print_lit v
      | DWrongNumberOfArguments k => $"Wrong number of arguments for " ++ quoted_kind k ++ $" annotation"
      | DInvalidForDeclKind what a => $"Invalid annotation for " ++ what ++ $": " ++ print_annotation a
      | DInvalidSpelling k t => $"Invalid spelling in " ++ quoted_kind k ++ $" annotation: " ++ in_quotes t
      | DInvalidArgumentSpecifier k t => $"Invalid argument specifier in " ++ quoted_kind k ++ $" annotation: " ++ in_quotes t
      | DIncompatibleSignature k => $"Signature of " ++ friendly_name d ++ $" is incompatible with " ++ quoted_kind k ++ $" annotation"
      | DOnlyGlobalScope k => quoted_kind k ++ $" can only be used in global scope"
      | DConflicting => $"'encourage' and 'expose_here' cannot be used at the same time"
      | DUnsupportedAliasTarget => $"Annotated alias has unsupported target kind"
      | DUnknownBase k => $"Unknown base type in " ++ quoted_kind k ++ $" annotation"
      | DInvalidAssumption => $"Invalid assumption in genpybind (please report this): annotations are only parsed during initial pass"
      end
  | PAlreadyExposed name => in_quotes name ++ $" has already been exposed elsewhere"
  | PPrevious name => $"Previously exposed here"
  | PMismatch => $"Annotations need to match those of the first declaration"
  | PCycle => $"'expose_here' annotations form a cycle"
  | PQualifiers => $"Ignoring qualifiers on alias"
  | PNoGetter name => $"No getter for the " ++ in_quotes name ++ $" property"
  | PAlreadyDefined name setter => (if setter then $"setter" else $"getter") ++ $" already defined for " ++ in_quotes name
  | PTrailing => $"cannot be followed by other parameters"
  | PUnreachable name => $"Declaration context " ++ in_quotes name ++ $" contains 'visible' declarations but is not exposed"
  end.

Lemma end_of (s : str) : s = s ++ [].
Proof. rewrite app_nil_r. reflexivity. Qed.

Lemma message_text p : message p = Some (text p).
Proof.
  destruct p as [d x| | | | | | | | | ]; cbn [message text].
  - destruct x; cbn [message text]; unfold quoted_kind, in_quotes;
      repeat match goal with
        | |- context [kind_spelling ?k] => is_var k; generalize (kind_spelling k); intros ?
        | |- context [print_lit ?k] => generalize (print_lit k); intros ?
        | |- context [print_annotation ?k] => generalize (print_annotation k); intros ?
        | |- context [friendly_name ?k] => generalize (friendly_name k); intros ? end.
    + destruct e as [[] t]; lazy -[app]; cbn [app]; rewrite app_nil_r; reflexivity.
    + lazy -[app]; cbn [app]; rewrite app_nil_r, <- ?app_assoc. reflexivity.
    + lazy -[app]; cbn [app]; rewrite <- ?app_assoc. reflexivity.
    + lazy -[app]; cbn [app]; rewrite app_nil_r, <- ?app_assoc. reflexivity.
    + lazy -[app]; cbn [app]; rewrite <- ?app_assoc. reflexivity.
    + lazy -[app]; cbn [app]; rewrite <- ?app_assoc. reflexivity.
    + lazy -[app]; cbn [app]; rewrite <- ?app_assoc. reflexivity.
    + lazy -[app]; cbn [app]; rewrite <- ?app_assoc. reflexivity.
    + reflexivity.
    + reflexivity.
    + lazy -[app]; cbn [app]; rewrite <- ?app_assoc. reflexivity.
    + reflexivity.
  - lazy -[app]; cbn [app]; rewrite <- ?app_assoc. reflexivity.
  - reflexivity.
  - reflexivity.
  - reflexivity.
  - reflexivity.
  - lazy -[app]; cbn [app]; rewrite <- ?app_assoc. reflexivity.
  - destruct setter; lazy -[app]; cbn [app]; rewrite <- ?app_assoc; reflexivity.
  - reflexivity.
  - lazy -[app]; cbn [app]; rewrite <- ?app_assoc. reflexivity.
Qed.

Lemma contains_at (m b s a : str) : m = b ++ s ++ a -> contains m s.
Proof. intros ->. exists b, a. reflexivity. Qed.

Lemma contains_self s : contains s s.
Proof. apply (contains_at _ [] _ []). cbn. apply end_of. Qed.
Lemma contains_front s x : contains (s ++ x) s.
Proof. apply (contains_at _ [] _ x). reflexivity. Qed.
Lemma contains_right x m s : contains m s -> contains (x ++ m) s.
Proof. intros (b & a & ->). exists (x ++ b), a. rewrite <- app_assoc. reflexivity. Qed.
Ltac find_text := first [apply contains_self | apply contains_front | apply contains_right; find_text].

Lemma text_shows p s : In s (shown p) -> contains (text p) s.
Proof.
  destruct p as [d x| | | | | | | | | ]; cbn [shown].
  - destruct x; cbn [shown text In]; unfold quoted_kind; intros H; repeat (destruct H as [<-|H]; [|]); try contradiction; try find_text.
    + destruct e as [[] t]; find_text.
    + apply (contains_at _ []) with (a := $" and 'expose_here' cannot be used at the same time"). reflexivity.
    + apply (contains_at _ $"'encourage' and ") with (a := $" cannot be used at the same time"). reflexivity.
  - intros [<-|[]]. cbn [text]. find_text.
  - intros [].
  - intros [].
  - intros [<-|[]]. apply (contains_at _ []) with (a := $" annotations form a cycle"). reflexivity.
  - intros [].
  - intros [<-|[]]. cbn [text]. find_text.
  - intros [<-|[<-|[]]]; cbn [text]; find_text.
  - intros [].
  - intros [<-|[]]. cbn [text]. find_text.
Qed.

(** * Telling messages apart *)

Lemma app_same_end {A} (a b x y : list A) : a ++ x = b ++ y -> length x = length y -> a = b /\ x = y.
Proof.
  revert b. induction a as [|c a IH]; intros [|c' b] H Hl; cbn in *; auto.
  - subst x. cbn in Hl. rewrite app_length in Hl. lia.
  - subst y. cbn in Hl. rewrite app_length in Hl. lia.
  - injection H as -> H. destruct (IH _ H Hl) as [-> ->]. auto.
Qed.

(** Last characters. *)
Definition ending (n : nat) (s : str) : str := firstn n (rev s).
Lemma ending_app n s t : n <= length t -> ending n (s ++ t) = ending n t.
Proof. intros H. unfold ending. rewrite rev_app_distr, firstn_app, rev_length. replace (n - length t) with 0 by lia. cbn. apply app_nil_r. Qed.

(** A part up to a character that does not occur in it. *)
Lemma cut_at {A} (c : A) (a b x y : list A) : ~ In c a -> ~ In c b -> a ++ c :: x = b ++ c :: y -> a = b /\ x = y.
Proof.
  revert b. induction a as [|e a IH]; intros [|e' b] Ha Hb H; cbn in *.
  - injection H as ->. auto.
  - injection H as -> _. exfalso. apply Hb. auto.
  - injection H as <- _. exfalso. apply Ha. auto.
  - injection H as -> H. destruct (IH b) as [-> ->]; auto.
Qed.

Lemma text_sort p p' : text p = text p' -> sort p = sort p'.
Proof.
  intros H. assert (Hq : forall k, quoted_kind k = $"'" ++ kind_spelling k ++ $"'") by reflexivity.
  assert (He : ending 2 (text p) = ending 2 (text p')) by (rewrite H; reflexivity).
  destruct p as [d [[[] t]|k v|k|w a|k t|k t|k|k| | |k| ]|n|n| | | |n|n []| |n];
  destruct p' as [d' [[[] t']|k' v'|k'|w' a'|k' t'|k' t'|k'|k'| | |k'| ]|n'|n'| | | |n'|n' []| |n'];
  try reflexivity; try (discriminate H).
  all: exfalso; cbn [text] in He; rewrite ?ending_app in He by (cbn; lia); discriminate He.
Qed.

Lemma kind_no_quote k : ~ In "'"%char (kind_spelling k).
Proof. destruct k; cbn; intuition discriminate. Qed.

Lemma same_kind k k' x y : quoted_kind k ++ x = quoted_kind k' ++ y -> kind_spelling k = kind_spelling k' /\ x = y.
Proof.
  unfold quoted_kind, in_quotes. rewrite <- !app_assoc. intros H. apply app_inv_head in H. cbn [app list_ascii_of_string] in H.
  apply cut_at in H; [exact H|apply kind_no_quote|apply kind_no_quote].
Qed.

Lemma same_quoted s t : in_quotes s = in_quotes t -> s = t.
Proof. unfold in_quotes. intros H. apply app_inv_head in H. apply app_inv_tail in H. exact H. Qed.

Lemma same_quoted_end s t x : in_quotes s ++ x = in_quotes t ++ x -> in_quotes s = in_quotes t.
Proof. apply app_inv_tail. Qed.

(** The names for kinds of declarations do not contain the words that follow. *)
Lemma friendly_cases d : In (friendly_name d) [$"namespace"; $"enum"; $"class"; $"type alias"; $"variable"; $"operator"; $"conversion function"; $"method"; $"constructor"; $"free function"; $"named declaration"].
Proof.
  unfold friendly_name. destruct (d_kind d); repeat match goal with |- context [if ?b then _ else _] => destruct b end; cbn [In]; auto 12.
Qed.

Lemma same_signature d d' x y : friendly_name d ++ $" is incompatible with " ++ x = friendly_name d' ++ $" is incompatible with " ++ y -> friendly_name d = friendly_name d' /\ x = y.
Proof.
  pose proof (friendly_cases d) as H. pose proof (friendly_cases d') as H'.
  remember (friendly_name d) as n eqn:En. remember (friendly_name d') as n' eqn:En'. clear En En' d d'. intros E.
  cbn [In] in H, H'.
  repeat (destruct H as [<-|H]; [|]); try contradiction; (repeat (destruct H' as [<-|H']; [|]); try contradiction);
    first [split; [reflexivity|]; apply app_inv_head, app_inv_head in E; exact E | discriminate E].
Qed.

Lemma text_shown p p' : wording p -> wording p' -> text p = text p' -> shown p = shown p'.
Proof.
  intros Hw Hw' H. pose proof (text_sort p p' H) as Hs.
  destruct p as [d [[[] t]|k v|k|w a|k t|k t|k|k| | |k| ]|n|n| | | |n|n b| |n];
  destruct p' as [d' [[[] t']|k' v'|k'|w' a'|k' t'|k' t'|k'|k'| | |k'| ]|n'|n'| | | |n'|n' b'| |n'];
  try discriminate Hs; try reflexivity; clear Hs; cbn [text shown] in *; fold (quoted_kind) in *; unfold shown; try fold (quoted_kind k); try fold (quoted_kind k').
  - apply app_inv_head in H. congruence.
  - apply app_inv_head in H. congruence.
  - apply app_inv_head in H. congruence.
  - apply app_inv_head, same_kind in H as [H1 H2]. apply app_inv_head in H2. unfold quoted_kind. congruence.
  - apply app_inv_head, same_kind in H as [H1 H2]. unfold quoted_kind. congruence.
  - apply app_inv_head in H. cbn [list_ascii_of_string app wording] in H, Hw, Hw'. apply cut_at in H as [H1 H2]; [|exact Hw|exact Hw']. congruence.
  - apply app_inv_head, same_kind in H as [H1 H2]. apply app_inv_head in H2. unfold quoted_kind. congruence.
  - apply app_inv_head, same_kind in H as [H1 H2]. apply app_inv_head in H2. unfold quoted_kind. congruence.
  - apply app_inv_head, same_signature in H as [H1 H2]. apply same_kind in H2 as [H2 _]. unfold quoted_kind. congruence.
  - apply same_kind in H as [H1 H2]. unfold quoted_kind. congruence.
  - apply app_inv_head, same_kind in H as [H1 H2]. unfold quoted_kind. congruence.
  - apply app_inv_tail in H. congruence.
  - apply app_inv_head, app_inv_tail in H. congruence.
  - destruct b, b'; try discriminate H; apply app_inv_head, app_inv_head in H; congruence.
  - apply app_inv_head, app_inv_tail in H. congruence.
Qed.

Lemma fault_wording d an x : fault d an x -> wording (PAnnotation d x).
Proof.
  assert (Hf : ~ In ":"%char (friendly_name d)).
  { pose proof (friendly_cases d) as H. cbn [In] in H. repeat (destruct H as [<-|H]; [cbn; intuition discriminate|]). destruct H. }
  destruct 1; cbn [wording]; auto. cbn. intuition discriminate.
Qed.

Lemma justified_wording d x : justified d x -> wording (PAnnotation d x).
Proof. destruct 1; cbn [wording]; auto. eapply fault_wording. eassumption. Qed.

Lemma show_the_names p : exists m, message p = Some m /\ forall s, In s (shown p) -> contains m s.
Proof. exists (text p). split; [apply message_text|]. intros s. apply text_shows. Qed.

Lemma name_the_fault d a ds x : compute_attrs d = Some (a, ds) -> In x ds ->
  justified d x /\ exists m, message (PAnnotation d x) = Some m /\ forall s, In s (shown (PAnnotation d x)) -> contains m s.
Proof.
  intros H Hin. pose proof (compute_justified d a ds H) as Hj. rewrite Forall_forall in Hj. split; [apply Hj, Hin|apply show_the_names].
Qed.

Lemma told_apart p p' m : wording p -> wording p' -> message p = Some m -> message p' = Some m -> sort p = sort p' /\ shown p = shown p'.
Proof.
  intros Hw Hw' H H'. rewrite message_text in H, H'. assert (E : text p = text p') by congruence. split; [apply text_sort, E|apply text_shown; assumption].
Qed.

Lemma annotations_told_apart d a ds x d' a' ds' x' m :
  compute_attrs d = Some (a, ds) -> In x ds -> compute_attrs d' = Some (a', ds') -> In x' ds' ->
  message (PAnnotation d x) = Some m -> message (PAnnotation d' x') = Some m ->
  sort (PAnnotation d x) = sort (PAnnotation d' x') /\ shown (PAnnotation d x) = shown (PAnnotation d' x').
Proof.
  intros H Hin H' Hin'. pose proof (compute_justified d a ds H) as Hj. pose proof (compute_justified d' a' ds' H') as Hj'. rewrite Forall_forall in Hj, Hj'.
  apply told_apart; apply justified_wording; auto.
Qed.
