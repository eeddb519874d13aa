From Verif Require Import Base ParserModel StringModel StringSpec StringProofs AnnotModel AnnotSpec.

Ltac inv H := inversion H; subst; clear H.

Lemma akind_eqb_eq a b : akind_eqb a b = true <-> a = b.
Proof. unfold akind_eqb. match goal with |- context [if ?x then _ else _] => destruct x end; split; congruence. Qed.
Lemma akind_eqb_refl a : akind_eqb a a = true.
Proof. apply akind_eqb_eq. reflexivity. Qed.

(** * Boolean version of acceptance *)

Definition nilb {A} (l : list A) : bool := match l with [] => true | _ => false end.
Definition flagb (args : list lit) : bool := match args with [] | [LBool _] => true | _ => false end.
Definition strings (args : list lit) : bool := forallb (isa VString) args.
Definition known (d : decl) (v : lit) : bool :=
  match index_of (get_string v) (d_params d) with Some _ => true | None => false end.
Definition known_slot (d : decl) (v : lit) : bool :=
  match index_of (get_string v) (parameter_names true (is_method_decl d) d) with Some _ => true | None => false end.

Definition wf_b (d : decl) (an : annotation) : bool :=
  let args := a_args an in
  match a_kind an with
  | Hidden => nilb args
  | Visible => match args with [] | [LBool _] | [LDefault] => true | _ => false end
  | ExposeAs => match args with [LString s] => is_valid_identifier s | [LDefault] => true | _ => false end
  | Module => is_namespace d && match args with [] => true | [LString s] => is_valid_identifier s | _ => false end
  | OnlyExposeIn => is_namespace d && strings args && negb (nilb args)
  | Arithmetic | ExportValues => supports_enum d && flagb args
  | DynamicAttr => supports_record d && flagb args
  | HideBase | InlineBase => supports_record d && strings args
  | HolderType => supports_record d && match args with [LString _] => true | _ => false end
  | ImplicitConversion => supports_constructor d && Nat.eqb (length (d_params d)) 1 && d_converting d && flagb args
  | GetterFor => supports_method d && Nat.eqb (d_min_required d) 0 && negb (d_returns_void d) && strings args && negb (nilb args) &&
      forallb (fun v => is_valid_identifier (get_string v)) args
  | SetterFor => supports_method d && negb (nilb (d_params d)) && Nat.leb (d_min_required d) 1 && strings args && negb (nilb args) &&
      forallb (fun v => is_valid_identifier (get_string v)) args
  | KeepAlive => supports_function d && match args with [LString s; LString t] => known_slot d (LString s) && known_slot d (LString t) | _ => false end
  | Noconvert | Required => supports_function d && strings args && negb (nilb args) && forallb (known d) args
  | ReturnValuePolicy => supports_function d && match args with [LString _] => true | _ => false end
  | Manual => match manual_bindings_expr d with Some _ => nilb args | None => false end
  | Postamble => match manual_bindings_expr d with Some _ => d_global d && nilb args | None => false end
  | Encourage | ExposeHere => is_typedef d && nilb args
  | Readonly => supports_field d && flagb args
  end.

(** Conflict in terms of the stored flags. *)
Definition conflict_b (an : annotation) (a : attrs) : bool :=
  match a_kind an with
  | Encourage => nilb (a_args an) && t_expose_here (at_typedef a)
  | ExposeHere => nilb (a_args an) && t_encourage (at_typedef a)
  | _ => false
  end.

(** Kinds that have a handler for the declaration. *)
Definition applicable (d : decl) (k : akind) : bool :=
  match k with
  | Hidden | Visible | ExposeAs => true
  | Module | OnlyExposeIn => is_namespace d
  | Arithmetic | ExportValues => supports_enum d
  | DynamicAttr | HideBase | InlineBase | HolderType => supports_record d
  | ImplicitConversion => supports_constructor d
  | GetterFor | SetterFor => supports_method d
  | KeepAlive | Noconvert | Required | ReturnValuePolicy => supports_function d
  | Manual | Postamble | Readonly => supports_field d
  | Encourage | ExposeHere => is_typedef d
  end.

Definition owner (k : akind) : decl -> handler :=
  match k with
  | Hidden | Visible | ExposeAs => process_named
  | Module | OnlyExposeIn => process_namespace
  | Arithmetic | ExportValues => process_enum
  | DynamicAttr | HideBase | InlineBase | HolderType => process_record
  | ImplicitConversion => process_constructor
  | GetterFor | SetterFor => process_method
  | KeepAlive | Noconvert | Required | ReturnValuePolicy => process_function
  | Manual | Postamble | Readonly => process_field
  | Encourage | ExposeHere => process_typedef
  end.

Lemma any_of_owner d an a : a_kind an <> Module ->
  any_of (handlers d) an a =
  if applicable d (a_kind an) then owner (a_kind an) d an a else (false, a, []).
Proof.
  intros Hm. destruct an as [k args]. unfold handlers. cbn [a_kind] in *.
  destruct k; try congruence; clear Hm;
    unfold applicable, owner, is_namespace, supports_enum, supports_record, is_typedef, supports_field, supports_operator,
      supports_conversion, supports_method, supports_constructor, supports_function, is_method_decl, supports_constructor, supports_operator, supports_conversion;
    destruct (d_kind d) as [ | | | | | |[]|[]| | | | | ];
    cbn -[check_match nullary unary binary variadic variadic_collect ensure flag dispatch];
    unfold process_named, process_namespace, process_enum, process_record, process_typedef, process_field, process_operator, process_conversion,
      process_method, process_constructor, process_function;
    cbn -[check_match nullary unary binary variadic variadic_collect ensure flag dispatch];
    try reflexivity;
    match goal with |- context [check_match ?k ?s] => destruct (check_match k s) as [[[] ?] ?] end; cbn; rewrite ?app_nil_r; reflexivity.
Qed.

Lemma any_of_module d args a :
  any_of (handlers d) (mkAnnotation Module args) a =
  let '(_, a1, ds1) := process_named d (mkAnnotation Module args) a in
  if is_namespace d then
    let '(ok, a2, ds2) := process_namespace d (mkAnnotation Module args) a1 in (ok, a2, ds1 ++ ds2)
  else (false, a1, ds1).
Proof.
  unfold handlers.
  unfold is_namespace, supports_enum, supports_record, is_typedef, supports_field, supports_operator,
      supports_conversion, supports_method, supports_constructor, supports_function, is_method_decl, supports_constructor, supports_operator, supports_conversion.
  cbn [app any_of]. assert (E : fst (fst (process_named d (mkAnnotation Module args) a)) = false) by reflexivity.
  destruct (process_named d (mkAnnotation Module args) a) as [[ok a1] ds1]. cbn in E. subst ok.
  destruct (d_kind d) as [ | | | | | |[]|[]| | | | | ]; cbn -[process_namespace]; rewrite ?app_nil_r; try reflexivity.
  destruct (process_namespace d (mkAnnotation Module args) a1) as [[[] a2] ds2]; cbn; rewrite ?app_nil_r; reflexivity.
Qed.

(** * Combinators *)

Lemma wrong_kind_none k args : wrong_kind k args = None <-> forallb (isa k) args = true.
Proof.
  unfold wrong_kind. induction args as [|v args IH]; cbn; [tauto|]. destruct (isa k v); cbn; [exact IH|]. split; discriminate.
Qed.

Lemma wrong_kind_strings args : wrong_kind VString args = None <-> strings args = true.
Proof. apply wrong_kind_none. Qed.

Lemma forallb_false_wrong k args : forallb (isa k) args = false -> exists w, wrong_kind k args = Some w.
Proof.
  intros H. destruct (wrong_kind k args) eqn:E; [eauto|]. apply wrong_kind_none in E. congruence.
Qed.

Lemma strings_map args : strings args = true <-> exists ss, args = map LString ss.
Proof.
  unfold strings. split.
  - induction args as [|v args IH]; [exists []; reflexivity|]. cbn. rewrite andb_true_iff. intros [Hv Hr].
    destruct (IH Hr) as [ss ->]. destruct v; try discriminate. exists (s :: ss). reflexivity.
  - intros [ss ->]. induction ss as [|s ss IH]; [reflexivity|exact IH].
Qed.

(** The successful result of [perform_all] for actions that always succeed or
    complain. *)
Lemma perform_all_run f args : forall s,
  perform_all f args s =
  mkDispatcher (ds_state s) (ds_mismatch s)
    (fold_left (fun a v => fst (f v a)) args (ds_attrs s))
    (ds_diags s ++ (fix go l a := match l with [] => [] | v :: l' => snd (f v a) ++ go l' (fst (f v a)) end) args (ds_attrs s)).
Proof.
  induction args as [|v args IH]; intros s; cbn [perform_all fold_left].
  - rewrite app_nil_r. destruct s; reflexivity.
  - rewrite IH. unfold perform. destruct (f v (ds_attrs s)) as [a ds] eqn:E. cbn [ds_state ds_mismatch ds_attrs ds_diags fst snd].
    rewrite <- app_assoc. reflexivity.
Qed.

(** Effect of an accepted annotation. *)
Definition apply_an (d : decl) (an : annotation) (a : attrs) : attrs :=
  let args := a_args an in
  let strs := map get_string args in
  let flagv := match args with [v] => get_boolean v | _ => true end in
  let one := match args with [v] => get_string v | _ => [] end in
  match a_kind an with
  | Hidden => set_visible (Some false) a
  | Visible => set_visible (match args with [LDefault] => None | [v] => Some (get_boolean v) | _ => Some true end) a
  | ExposeAs => set_spelling one a
  | Module => set_namespace (fun n => mkNamespace true (ns_only_expose_in n)) (match args with [v] => set_spelling (get_string v) a | _ => a end)
  | OnlyExposeIn => set_namespace (fun n => mkNamespace (ns_module n) (ns_only_expose_in n ++ strs)) a
  | Arithmetic => set_enum (fun e => mkEnum flagv (e_export_values e)) a
  | ExportValues => set_enum (fun e => mkEnum (e_arithmetic e) (Some flagv)) a
  | DynamicAttr => set_record (fun r => mkRecord flagv (r_hide_base r) (r_inline_base r) (r_holder_type r)) a
  | HideBase => set_record (fun r => mkRecord (r_dynamic_attr r)
      (fold_left (fun l b => add_nat (b_decl b) l) (filter (fun b => match strs with [] => true | _ => matches strs b end) (d_bases d)) (r_hide_base r))
      (r_inline_base r) (r_holder_type r)) a
  | InlineBase => set_record (fun r => mkRecord (r_dynamic_attr r) (r_hide_base r)
      (fold_left (fun l b => add_nat (b_decl b) l) (filter (fun b => match strs with [] => true | _ => matches strs b end) (d_all_bases d)) (r_inline_base r))
      (r_holder_type r)) a
  | HolderType => set_record (fun r => mkRecord (r_dynamic_attr r) (r_hide_base r) (r_inline_base r) one) a
  | ImplicitConversion => set_implicit_conversion flagv a
  | GetterFor => set_method (fun m => mkMethod (fold_left (fun l n => add_str n l) strs (m_getter_for m)) (m_setter_for m)) a
  | SetterFor => set_method (fun m => mkMethod (m_getter_for m) (fold_left (fun l n => add_str n l) strs (m_setter_for m))) a
  | KeepAlive =>
      match args with
      | [v; w] =>
          match index_of (get_string v) (parameter_names true (is_method_decl d) d), index_of (get_string w) (parameter_names true (is_method_decl d) d) with
          | Some i, Some j => set_function (fun f => mkFunction (fn_keep_alive f ++ [(i, j)]) (fn_noconvert f) (fn_required f) (fn_policy f)) a
          | _, _ => a
          end
      | _ => a
      end
  | Noconvert => set_function (fun f => mkFunction (fn_keep_alive f)
      (fold_left (fun l n => match index_of n (d_params d) with Some i => add_nat i l | None => l end) strs (fn_noconvert f)) (fn_required f) (fn_policy f)) a
  | Required => set_function (fun f => mkFunction (fn_keep_alive f) (fn_noconvert f)
      (fold_left (fun l n => match index_of n (d_params d) with Some i => add_nat i l | None => l end) strs (fn_required f)) (fn_policy f)) a
  | ReturnValuePolicy => set_function (fun f => mkFunction (fn_keep_alive f) (fn_noconvert f) (fn_required f) one) a
  | Manual => set_field (fun f => mkField (f_readonly f) (manual_bindings_expr d) (f_postamble f)) a
  | Postamble => set_field (fun f => mkField (f_readonly f) (f_manual f) true) a
  | Encourage => set_typedef (fun t => mkTypedef true (t_expose_here t)) a
  | ExposeHere => set_typedef (fun t => mkTypedef (t_encourage t) true) a
  | Readonly => set_field (fun f => mkField flagv (f_manual f) (f_postamble f)) a
  end.

Definition errs (ds : list diag) : bool := existsb is_error ds.

(** What the responsible handler returns: errors exactly if not acceptable (or,
    for manual bindings, not handled without error), and the effect. *)
Definition outcome_ok (good : bool) (r : bool * attrs * list diag) (a' : attrs) : Prop :=
  let '(ok, ra, ds) := r in
  if good then ok = true /\ errs ds = false /\ ra = a' else errs ds = true \/ (ok = false /\ ds = []).

Lemma outcome_eq good r x y : outcome_ok good r x -> x = y -> outcome_ok good r y.
Proof. intros H <-. exact H. Qed.

Lemma flag_outcome k args set a :
  outcome_ok (flagb args) (check_match k (flag args set (dispatch a))) (set (match args with [v] => get_boolean v | _ => true end) a).
Proof.
  destruct args as [|[] [|w r]]; cbn; auto.
Qed.

Lemma flag_errs k args set a : flagb args = false ->
  errs (snd (check_match k (flag args set (dispatch a)))) = true.
Proof. destruct args as [|[] [|w r]]; cbn; try discriminate; reflexivity. Qed.

Lemma index_known d v : known d v = true -> exists i, index_of (get_string v) (d_params d) = Some i.
Proof. unfold known. destruct (index_of _ _); [eauto|discriminate]. Qed.

(** Runs of the parameter annotations. *)
Lemma params_run (d : decl) k (upd : nat -> attrs -> attrs) args : forall s,
  let f := fun v : lit => match index_of (get_string v) (d_params d) with
                    | None => complain (DInvalidArgumentSpecifier k (get_string v))
                    | Some i => change (upd i) end in
  ds_state (perform_all f args s) = ds_state s /\
  (forallb (known d) args = true ->
     errs (ds_diags (perform_all f args s)) = errs (ds_diags s) /\
     ds_attrs (perform_all f args s) =
     fold_left (fun a n => match index_of n (d_params d) with Some i => upd i a | None => a end) (map get_string args) (ds_attrs s)) /\
  (errs (ds_diags s) = true \/ forallb (known d) args = false -> errs (ds_diags (perform_all f args s)) = true).
Proof.
  intros s f. revert s. induction args as [|v args IH]; intros s.
  - cbn. split; [reflexivity|]. split; [auto|]. intros [H|H]; [exact H|discriminate].
  - cbn [perform_all forallb map fold_left]. destruct (IH (perform (f v) s)) as (I1 & I2 & I3). rewrite I1.
    assert (Es : ds_state (perform (f v) s) = ds_state s) by (unfold perform; destruct (f v (ds_attrs s)); reflexivity).
    split; [exact Es|]. unfold known at 1 3. unfold perform, f in I2, I3 |- *. fold f in I2, I3 |- *.
    destruct (index_of (get_string v) (d_params d)) as [i|] eqn:Ei; cbn [change complain ds_state ds_mismatch ds_attrs ds_diags andb] in *.
    + rewrite app_nil_r in *. split; [intros H; apply I2 in H; exact H|exact I3].
    + split; [discriminate|]. intros _. apply I3. left. unfold errs. rewrite existsb_app. cbn. rewrite orb_true_r. reflexivity.
Qed.

Lemma set_function_fold (g : nat -> function_attrs -> function_attrs) (ix : str -> option nat) ns : forall a,
  fold_left (fun a n => match ix n with Some i => set_function (g i) a | None => a end) ns a =
  set_function (fun f => fold_left (fun f n => match ix n with Some i => g i f | None => f end) ns f) a.
Proof.
  induction ns as [|n ns IH]; intros a; cbn [fold_left]; [destruct a; reflexivity|].
  rewrite IH. destruct (ix n); destruct a; reflexivity.
Qed.

Lemma set_record_fold {B} (g : B -> record_attrs -> record_attrs) l : forall a,
  fold_left (fun a b => set_record (g b) a) l a = set_record (fun r => fold_left (fun r b => g b r) l r) a.
Proof. induction l as [|b l IH]; intros a; cbn [fold_left]; [destruct a; reflexivity|]. rewrite IH. destruct a; reflexivity. Qed.

Lemma set_method_fold {B} (g : B -> method_attrs -> method_attrs) l : forall a,
  fold_left (fun a b => set_method (g b) a) l a = set_method (fun r => fold_left (fun r b => g b r) l r) a.
Proof. induction l as [|b l IH]; intros a; cbn [fold_left]; [destruct a; reflexivity|]. rewrite IH. destruct a; reflexivity. Qed.

Lemma set_function_ext f g a : f (at_function a) = g (at_function a) -> set_function f a = set_function g a.
Proof. intros H. unfold set_function. rewrite H. reflexivity. Qed.
Lemma set_record_ext f g a : f (at_record a) = g (at_record a) -> set_record f a = set_record g a.
Proof. intros H. unfold set_record. rewrite H. reflexivity. Qed.
Lemma set_method_ext f g a : f (at_method a) = g (at_method a) -> set_method f a = set_method g a.
Proof. intros H. unfold set_method. rewrite H. reflexivity. Qed.

Lemma fold_noconvert d ns f :
  fold_left (fun f n => match index_of n (d_params d) with Some i => mkFunction (fn_keep_alive f) (add_nat i (fn_noconvert f)) (fn_required f) (fn_policy f) | None => f end) ns f =
  mkFunction (fn_keep_alive f) (fold_left (fun l n => match index_of n (d_params d) with Some i => add_nat i l | None => l end) ns (fn_noconvert f)) (fn_required f) (fn_policy f).
Proof.
  revert f. induction ns as [|n ns IH]; intros f; cbn [fold_left]; [destruct f; reflexivity|].
  rewrite IH. destruct (index_of n (d_params d)); reflexivity.
Qed.
Lemma fold_required d ns f :
  fold_left (fun f n => match index_of n (d_params d) with Some i => mkFunction (fn_keep_alive f) (fn_noconvert f) (add_nat i (fn_required f)) (fn_policy f) | None => f end) ns f =
  mkFunction (fn_keep_alive f) (fn_noconvert f) (fold_left (fun l n => match index_of n (d_params d) with Some i => add_nat i l | None => l end) ns (fn_required f)) (fn_policy f).
Proof.
  revert f. induction ns as [|n ns IH]; intros f; cbn [fold_left]; [destruct f; reflexivity|].
  rewrite IH. destruct (index_of n (d_params d)); reflexivity.
Qed.

Lemma fold_hide l r :
  fold_left (fun r (b : base) => mkRecord (r_dynamic_attr r) (add_nat (b_decl b) (r_hide_base r)) (r_inline_base r) (r_holder_type r)) l r =
  mkRecord (r_dynamic_attr r) (fold_left (fun l b => add_nat (b_decl b) l) l (r_hide_base r)) (r_inline_base r) (r_holder_type r).
Proof. revert r. induction l as [|b l IH]; intros r; cbn [fold_left]; [destruct r; reflexivity|]. rewrite IH. reflexivity. Qed.
Lemma fold_inline l r :
  fold_left (fun r (b : base) => mkRecord (r_dynamic_attr r) (r_hide_base r) (add_nat (b_decl b) (r_inline_base r)) (r_holder_type r)) l r =
  mkRecord (r_dynamic_attr r) (r_hide_base r) (fold_left (fun l b => add_nat (b_decl b) l) l (r_inline_base r)) (r_holder_type r).
Proof. revert r. induction l as [|b l IH]; intros r; cbn [fold_left]; [destruct r; reflexivity|]. rewrite IH. reflexivity. Qed.
Lemma fold_getter l m :
  fold_left (fun m n => mkMethod (add_str n (m_getter_for m)) (m_setter_for m)) l m =
  mkMethod (fold_left (fun l n => add_str n l) l (m_getter_for m)) (m_setter_for m).
Proof. revert m. induction l as [|b l IH]; intros m; cbn [fold_left]; [destruct m; reflexivity|]. rewrite IH. reflexivity. Qed.
Lemma fold_setter l m :
  fold_left (fun m n => mkMethod (m_getter_for m) (add_str n (m_setter_for m))) l m =
  mkMethod (m_getter_for m) (fold_left (fun l n => add_str n l) l (m_setter_for m)).
Proof. revert m. induction l as [|b l IH]; intros m; cbn [fold_left]; [destruct m; reflexivity|]. rewrite IH. reflexivity. Qed.

Lemma params_outcome d k upd args a (good := strings args && negb (nilb args) && forallb (known d) args) :
  outcome_ok good
    (check_match k (variadic args VString
       (fun v => match index_of (get_string v) (d_params d) with
                 | None => complain (DInvalidArgumentSpecifier k (get_string v))
                 | Some i => change (upd i) end) (dispatch a)))
    (fold_left (fun a n => match index_of n (d_params d) with Some i => upd i a | None => a end) (map get_string args) a).
Proof.
  unfold good. clear good. unfold variadic. cbn [unmatched dispatch ds_state].
  destruct args as [|v args]; [cbn; auto|]. set (all := v :: args). 
  destruct (wrong_kind VString all) as [w|] eqn:Ew.
  - assert (Hs : strings all = false).
    { destruct (strings all) eqn:Es; [|reflexivity]. apply wrong_kind_strings in Es. congruence. }
    rewrite Hs. cbn. auto.
  - apply wrong_kind_strings in Ew. rewrite Ew. cbn [nilb negb andb all].
    destruct (params_run d k upd all (dispatch a)) as (R1 & R2 & R3).
    unfold check_match, matched. cbn [ds_state ds_attrs ds_diags]. unfold outcome_ok.
    fold all. destruct (forallb (known d) all) eqn:Ek.
    + destruct (R2 eq_refl) as [E1 E2]. split; [reflexivity|]. split; [exact E1|exact E2].
    + left. apply R3. auto.
Qed.

Lemma bases_outcome k bases ins args a :
  outcome_ok (strings args)
    (check_match k (variadic_collect args VString plain_string (select_bases k bases ins) (dispatch a)))
    (fold_left (fun a b => ins (b_decl b) a)
       (filter (fun b => match map get_string args with [] => true | _ => matches (map get_string args) b end) bases) a).
Proof.
  unfold variadic_collect. cbn [unmatched dispatch ds_state].
  destruct (wrong_kind VString args) as [w|] eqn:Ew.
  - assert (Hs : strings args = false).
    { destruct (strings args) eqn:Es; [|reflexivity]. apply wrong_kind_strings in Es. congruence. }
    rewrite Hs. cbn. auto.
  - apply wrong_kind_strings in Ew. rewrite Ew. unfold perform, select_bases. cbn [dispatch ds_attrs ds_state ds_mismatch ds_diags app].
    assert (En : flat_map (fun v => snd (plain_string v)) args = []) by (clear; induction args as [|v args IH]; [reflexivity|exact IH]).
    rewrite En. cbn. split; [reflexivity|]. split; [|reflexivity].
    destruct (filter _ bases); reflexivity.
Qed.

Lemma collect_run k args :
  errs (flat_map (fun v => snd (collect_identifier k v)) args) = negb (forallb (fun v => is_valid_identifier (get_string v)) args) /\
  (forallb (fun v => is_valid_identifier (get_string v)) args = true ->
   map (fun v => fst (collect_identifier k v)) args = map get_string args).
Proof.
  induction args as [|v args [IH1 IH2]]; [split; reflexivity|]. cbn [flat_map forallb map]. unfold errs in *. rewrite existsb_app, IH1.
  assert (E : collect_identifier k v = if is_valid_identifier (get_string v) then (get_string v, []) else ([], [DInvalidSpelling k (get_string v)])) by reflexivity.
  rewrite E. destruct (is_valid_identifier (get_string v)); cbn [fst snd existsb is_error negb andb orb]; [|split; [reflexivity|discriminate]].
  split; [reflexivity|]. intros H. rewrite IH2 by exact H. reflexivity.
Qed.

Lemma properties_outcome k ok ins args a :
  outcome_ok (ok && strings args && negb (nilb args) && forallb (fun v => is_valid_identifier (get_string v)) args)
    (check_match k (variadic_collect args VString (collect_identifier k) (add_properties ins) (ensure (signature_ok k ok) (dispatch a))))
    (fold_left (fun a n => ins n a) (map get_string args) a).
Proof.
  unfold signature_ok. destruct ok; [|cbn; auto]. unfold ensure. cbn [dispatch ds_state perform fst snd ds_attrs ds_diags ds_mismatch app].
  unfold variadic_collect. cbn [unmatched ds_state].
  destruct (wrong_kind VString args) as [w|] eqn:Ew.
  - assert (Hs : strings args = false).
    { destruct (strings args) eqn:Es; [|reflexivity]. apply wrong_kind_strings in Es. congruence. }
    rewrite Hs. cbn. auto.
  - apply wrong_kind_strings in Ew. rewrite Ew. cbn [andb].
    destruct (collect_run k args) as [C1 C2]. cbn [perform ds_attrs ds_state ds_mismatch ds_diags app].
    destruct args as [|v args]; [cbn; auto|]. set (all := v :: args) in *.
    assert (Hne : exists x r, map (fun v => fst (collect_identifier k v)) all = x :: r) by (unfold all; cbn; eauto).
    destruct Hne as (x & r & Exr). unfold add_properties. rewrite Exr. cbn [nilb negb all andb]. rewrite app_nil_r.
    unfold check_match, matched. cbn [ds_state ds_attrs ds_diags]. unfold outcome_ok. fold all.
    destruct (forallb (fun v => is_valid_identifier (get_string v)) all) eqn:Ev.
    + split; [reflexivity|]. rewrite C1. split; [reflexivity|]. rewrite <- Exr, C2 by reflexivity. reflexivity.
    + left. rewrite C1. reflexivity.
Qed.

Lemma ensure_flag_outcome k args set cond a :
  (fst cond = true -> snd cond = []) -> (fst cond = false -> errs (snd cond) = true) ->
  outcome_ok (fst cond && flagb args) (check_match k (flag args set (ensure cond (dispatch a))))
    (set (match args with [v] => get_boolean v | _ => true end) a).
Proof.
  destruct cond as [[] ds]; cbn [fst snd]; intros H1 H2.
  - rewrite H1 by reflexivity. apply flag_outcome.
  - specialize (H2 eq_refl). unfold ensure. cbn. destruct args; cbn; auto.
Qed.

Lemma only_expose_run l : forall s,
  perform_all (fun v => change (set_namespace (fun n => mkNamespace (ns_module n) (ns_only_expose_in n ++ [get_string v])))) l s =
  mkDispatcher (ds_state s) (ds_mismatch s)
    (set_namespace (fun n => mkNamespace (ns_module n) (ns_only_expose_in n ++ map get_string l)) (ds_attrs s)) (ds_diags s).
Proof.
  induction l as [|v l IH]; intros s; cbn [perform_all].
  - destruct s as [st mm [x1 [x2 x3] x4 x5 x6 x7 x8 x9 x10] ds]. unfold set_namespace. cbn [map ns_module ns_only_expose_in ds_attrs ds_state ds_mismatch ds_diags at_namespace]. rewrite app_nil_r. reflexivity.
  - rewrite IH. destruct s as [st mm a ds]. unfold perform, change. cbn [ds_attrs ds_state ds_mismatch ds_diags]. rewrite app_nil_r.
    f_equal. unfold set_namespace. cbn. rewrite <- app_assoc. reflexivity.
Qed.

Lemma owner_outcome d an a : a_kind an <> Module -> applicable d (a_kind an) = true ->
  outcome_ok (wf_b d an && negb (conflict_b an a)) (owner (a_kind an) d an a) (apply_an d an a).
Proof.
  intros Hm Ha. destruct an as [k args]. cbn [a_kind] in *. unfold wf_b, conflict_b, apply_an, owner. cbn [a_kind a_args].
  destruct k; try congruence; clear Hm; cbn [applicable] in Ha;
    unfold process_named, process_namespace, process_enum, process_record, process_typedef, process_field, process_operator, process_conversion,
      process_method, process_constructor, process_function; cbn [a_kind a_args];
    rewrite ?Ha; cbn [andb negb]; rewrite ?andb_true_r;
    try apply flag_outcome; try apply bases_outcome.
  - (* ExposeAs *)
    destruct args as [|[] [|w r]]; cbn; auto. unfold store_spelling. cbn [get_string].
    destruct (is_valid_identifier s) eqn:Es; cbn; auto.
  - (* Hidden *) destruct args; cbn; auto.
  - (* Visible *) destruct args as [|[] [|w r]]; cbn; auto.
  - (* GetterFor *)
    pose proof (properties_outcome GetterFor (negb (negb (Nat.eqb (d_min_required d) 0) || d_returns_void d))
       (fun n => set_method (fun m => mkMethod (add_str n (m_getter_for m)) (m_setter_for m))) args a) as H.
    rewrite negb_orb, negb_involutive in H |- *. rewrite set_method_fold in H.
    refine (outcome_eq _ _ _ _ H _). apply set_method_ext. apply fold_getter.
  - (* SetterFor *)
    pose proof (properties_outcome SetterFor (negb (Nat.ltb (length (d_params d)) 1 || Nat.ltb 1 (d_min_required d)))
       (fun n => set_method (fun m => mkMethod (m_getter_for m) (add_str n (m_setter_for m)))) args a) as H.
    assert (E : negb (Nat.ltb (length (d_params d)) 1 || Nat.ltb 1 (d_min_required d)) = negb (nilb (d_params d)) && Nat.leb (d_min_required d) 1)
      by (rewrite negb_orb; f_equal; [destruct (d_params d); reflexivity|rewrite Nat.leb_antisym; reflexivity]).
    rewrite E in H |- *.
    rewrite set_method_fold in H. refine (outcome_eq _ _ _ _ H _). apply set_method_ext. apply fold_setter.
  - (* HideBase *)
    pose proof (bases_outcome HideBase (d_bases d) (fun x => set_record (fun r => mkRecord (r_dynamic_attr r) (add_nat x (r_hide_base r)) (r_inline_base r) (r_holder_type r))) args a) as H.
    cbv beta in H. rewrite (set_record_fold (B := base)) in H. refine (outcome_eq _ _ _ _ H _). apply set_record_ext. apply fold_hide.
  - (* HolderType *) destruct args as [|[] [|w r]]; cbn; auto.
  - (* InlineBase *)
    pose proof (bases_outcome InlineBase (d_all_bases d) (fun x => set_record (fun r => mkRecord (r_dynamic_attr r) (r_hide_base r) (add_nat x (r_inline_base r)) (r_holder_type r))) args a) as H.
    cbv beta in H. rewrite (set_record_fold (B := base)) in H. refine (outcome_eq _ _ _ _ H _). apply set_record_ext. apply fold_inline.
  - (* ImplicitConversion *)
    pose proof (ensure_flag_outcome ImplicitConversion args set_implicit_conversion
      (let ok := negb (negb (Nat.eqb (length (d_params d)) 1) || negb (d_converting d)) in
       (ok, if ok then [] else [DInvalidForDeclKind $"non-converting constructor" (mkAnnotation ImplicitConversion args)])) a) as H.
    cbv zeta in H. cbn [fst snd] in H. cbv zeta. rewrite negb_orb, !negb_involutive in H |- *. apply H; intros ->; reflexivity.
  - (* KeepAlive *)
    unfold known_slot. destruct args as [|v [|w [|x r]]]; cbn -[index_of parameter_names]; auto.
    + destruct v; cbn -[index_of parameter_names]; auto.
    + destruct v; cbn -[index_of parameter_names]; auto. destruct w; cbn -[index_of parameter_names]; auto.
      destruct (index_of s _) as [i|]; cbn -[index_of parameter_names]; auto.
      destruct (index_of s0 _) as [j|]; cbn -[index_of parameter_names]; auto.
    + destruct v; auto. destruct w; auto.
  - (* Noconvert *)
    pose proof (params_outcome d Noconvert (fun i => set_function (fun f => mkFunction (fn_keep_alive f) (add_nat i (fn_noconvert f)) (fn_required f) (fn_policy f))) args a) as H.
    cbv zeta in H. refine (outcome_eq _ _ _ _ H _).
    rewrite (set_function_fold (fun i f => mkFunction (fn_keep_alive f) (add_nat i (fn_noconvert f)) (fn_required f) (fn_policy f)) (fun n => index_of n (d_params d))).
    apply set_function_ext. apply fold_noconvert.
  - (* Required *)
    pose proof (params_outcome d Required (fun i => set_function (fun f => mkFunction (fn_keep_alive f) (fn_noconvert f) (add_nat i (fn_required f)) (fn_policy f))) args a) as H.
    cbv zeta in H. refine (outcome_eq _ _ _ _ H _).
    rewrite (set_function_fold (fun i f => mkFunction (fn_keep_alive f) (fn_noconvert f) (add_nat i (fn_required f)) (fn_policy f)) (fun n => index_of n (d_params d))).
    apply set_function_ext. apply fold_required.
  - (* ReturnValuePolicy *) destruct args as [|[] [|w r]]; cbn; auto.
  - (* Manual *) destruct (manual_bindings_expr d); cbn; auto. destruct args; cbn; auto.
  - (* Postamble *) destruct (manual_bindings_expr d); cbn; auto. destruct (d_global d); cbn; auto. destruct args; cbn; auto.
  - (* OnlyExposeIn *)
    unfold variadic. cbn [unmatched dispatch ds_state]. destruct args as [|v args]; [cbn; auto|]. set (all := v :: args).
    destruct (wrong_kind VString all) as [w|] eqn:Ew.
    + assert (Hs : strings all = false).
      { destruct (strings all) eqn:Es; [|reflexivity]. apply wrong_kind_strings in Es. congruence. }
      rewrite Hs. cbn. auto.
    + apply wrong_kind_strings in Ew. rewrite Ew. cbn [nilb negb andb all]. fold all. rewrite only_expose_run. cbn. auto.
  - (* ExposeHere *) destruct args; cbn; auto. rewrite andb_true_r. destruct (t_encourage (at_typedef a)); cbn; auto.
  - (* Encourage *) destruct args; cbn; auto. destruct (t_expose_here (at_typedef a)); cbn; auto.
Qed.

Lemma wf_b_applicable d an : wf_b d an = true -> applicable d (a_kind an) = true.
Proof.
  destruct an as [k args]. unfold wf_b. cbn [a_kind a_args]. destruct k; cbn [applicable]; intros H; try reflexivity;
    first [ destruct (manual_bindings_expr d) eqn:E; [|discriminate]; unfold manual_bindings_expr in E; unfold supports_field;
            destruct (d_kind d); try discriminate; reflexivity
          | repeat (first [assumption | apply andb_true_iff in H as [H ?]]) ].
Qed.

Lemma outcome_any_of d an a :
  let r := any_of (handlers d) an a in
  outcome_ok (wf_b d an && negb (conflict_b an a)) r (apply_an d an a) /\
  (applicable d (a_kind an) = false -> errs (snd r) = false /\ fst (fst r) = false).
Proof.
  cbv zeta. destruct (akind_eqb (a_kind an) Module) eqn:Em.
  - apply akind_eqb_eq in Em. destruct an as [k args]. cbn [a_kind] in Em. subst k. rewrite any_of_module.
    cbn [applicable a_kind]. unfold wf_b, conflict_b, apply_an, process_named, process_namespace. cbn [a_kind a_args].
    destruct (is_namespace d); [|split; [|intros _; split; reflexivity]].
    + destruct args as [|[] [|w r]]; cbn; (split; [|discriminate]); auto.
      unfold store_spelling. cbn [get_string]. destruct (is_valid_identifier s); cbn; auto.
    + cbn. auto.
  - assert (Hm : a_kind an <> Module) by (intros H; rewrite H in Em; discriminate).
    rewrite any_of_owner by exact Hm. destruct (applicable d (a_kind an)) eqn:Ea.
    + split; [apply owner_outcome; assumption|discriminate].
    + split; [|intros _; split; reflexivity].
      destruct (wf_b d an) eqn:Ew; [apply wf_b_applicable in Ew; congruence|]. cbn. auto.
Qed.

Definition unsupported_alias (d : decl) : bool := negb (nilb (supports_typedef_diags d)).

Lemma unsupported_typedef d : unsupported_alias d = true -> d_kind d = KTypedef.
Proof.
  unfold unsupported_alias, supports_typedef_diags, is_typedef. destruct (d_kind d); cbn; try discriminate; reflexivity.
Qed.

Lemma process_annotation_spec d an a :
  match process_annotation d an a with
  | Some (a', ds) =>
      errs ds = negb (wf_b d an && negb (conflict_b an a)) /\
      (wf_b d an && negb (conflict_b an a) = true -> a' = apply_an d an a) /\
      (unsupported_alias d = true -> applicable d (a_kind an) = true)
  | None => unsupported_alias d = true /\ applicable d (a_kind an) = false
  end.
Proof.
  pose proof (outcome_any_of d an a) as [Ho Hn]. unfold process_annotation.
  destruct (any_of (handlers d) an a) as [[ok a'] ds] eqn:Er. unfold outcome_ok in Ho. fold (errs ds). cbn [fst snd] in Hn.
  destruct (wf_b d an && negb (conflict_b an a)) eqn:Eg.
  - destruct Ho as (-> & E & ->). rewrite orb_true_r. cbn [negb]. split; [exact E|]. split; [reflexivity|]. intros _.
    apply andb_true_iff in Eg as [Eg _]. apply wf_b_applicable, Eg.
  - destruct (errs ds) eqn:Ee.
    + cbn [orb negb]. split; [exact Ee|]. split; [discriminate|]. intros _. destruct (applicable d (a_kind an)) eqn:Ea; [reflexivity|].
      destruct (Hn eq_refl). congruence.
    + destruct Ho as [Ho|[-> ->]]; [congruence|]. cbn [orb].
      assert (Hal : unsupported_alias d = true -> applicable d (a_kind an) = false).
      { intros Hu. destruct (applicable d (a_kind an)) eqn:Ea; [|reflexivity]. exfalso.
        apply unsupported_typedef in Hu. destruct an as [k args]. cbn [a_kind] in *.
        assert (Hmod : k <> Module).
        { intros ->. cbn in Ea. unfold is_namespace in Ea. rewrite Hu in Ea. discriminate. }
        rewrite any_of_owner in Er by exact Hmod. cbn [a_kind] in Er. rewrite Ea in Er.
        revert Er Ea. destruct k; cbn [applicable owner]; unfold is_namespace, supports_enum, supports_record, supports_constructor, supports_method, supports_function, is_method_decl, supports_field, is_typedef; rewrite ?Hu; cbn [andb]; try discriminate; intros Er _;
          cbv [process_named process_typedef a_kind a_args] in Er; revert Er; clear.
        - destruct args as [|[] [|w r]]; cbn; try discriminate; unfold store_spelling; destruct (is_valid_identifier _); cbn; discriminate.
        - destruct args as [|v r]; cbn; discriminate.
        - destruct args as [|[] [|w r]]; cbn; discriminate.
        - destruct args as [|v r]; cbn; discriminate.
        - destruct args as [|v r]; cbn; discriminate. }
      unfold unsupported_alias in Hal |- *. destruct (supports_typedef_diags d); cbn [nilb negb] in *.
      * split; [reflexivity|]. split; [discriminate|]. discriminate.
      * split; [reflexivity|apply Hal; reflexivity].
Qed.

(** ** Reflection of acceptance *)

Lemma flagb_iff args : flagb args = true <-> flag_args args.
Proof.
  unfold flag_args. split.
  - destruct args as [|[] [|]]; try discriminate; eauto.
  - intros [->|[b ->]]; reflexivity.
Qed.

Lemma nilb_iff {A} (l : list A) : nilb l = true <-> l = [].
Proof. destruct l; split; try discriminate; reflexivity. Qed.
Lemma nilb_false {A} (l : list A) : negb (nilb l) = true <-> l <> [].
Proof. destruct l; split; try discriminate; try reflexivity. intros H; congruence. Qed.

Lemma is_namespace_iff d : is_namespace d = true <-> d_kind d = KNamespace.
Proof. unfold is_namespace. destruct (d_kind d); split; try discriminate; reflexivity. Qed.
Lemma is_typedef_iff d : is_typedef d = true <-> d_kind d = KTypedef.
Proof. unfold is_typedef. destruct (d_kind d); split; try discriminate; reflexivity. Qed.
Lemma supports_enum_iff d : supports_enum d = true <-> d_kind d = KEnum.
Proof. unfold supports_enum. destruct (d_kind d); split; try discriminate; reflexivity. Qed.
Lemma supports_record_iff d : supports_record d = true <-> d_kind d = KRecord.
Proof. unfold supports_record. destruct (d_kind d); split; try discriminate; reflexivity. Qed.
Lemma supports_constructor_iff d : supports_constructor d = true <-> d_kind d = KConstructor.
Proof. unfold supports_constructor. destruct (d_kind d); split; try discriminate; reflexivity. Qed.
Lemma supports_field_iff d : supports_field d = true <-> d_kind d = KField \/ d_kind d = KVar.
Proof. unfold supports_field. destruct (d_kind d); split; try discriminate; try reflexivity; auto; intros [|]; discriminate. Qed.
Lemma supports_function_iff d : supports_function d = true <-> is_function d.
Proof. unfold supports_function, is_function. destruct (d_kind d); split; try discriminate; try reflexivity; auto; contradiction. Qed.
Lemma supports_method_iff d : supports_method d = true <-> is_ordinary_method d.
Proof.
  unfold supports_method, is_ordinary_method, is_method_decl, supports_function, supports_constructor, supports_operator, supports_conversion.
  destruct (d_kind d) as [ | | | | | |[]|[]| | | | | ]; cbn; split; try discriminate; try reflexivity; auto; intros [|]; discriminate.
Qed.
Lemma is_method_decl_iff d : is_method_decl d = true <-> is_member_function d.
Proof. unfold is_method_decl, is_member_function. destruct (d_kind d); split; try discriminate; try reflexivity; auto; contradiction. Qed.

Lemma index_of_some s l i : index_of s l = Some i <-> first_index l s i.
Proof.
  unfold first_index. revert i. induction l as [|x l IH]; intros i; cbn.
  - split; [discriminate|]. intros [H _]. destruct i; discriminate.
  - destruct (str_eqb x s) eqn:E.
    + apply str_eqb_eq in E. subst x. split.
      * intros [= <-]. split; [reflexivity|]. intros j Hj. lia.
      * intros [H1 H2]. destruct i as [|i]; [reflexivity|]. exfalso. apply (H2 0); [lia|reflexivity].
    + apply str_eqb_neq in E. destruct (index_of s l) as [k|] eqn:Ek; cbn.
      * split.
        -- intros [= <-]. destruct (proj1 (IH k) eq_refl) as [H1 H2]. split; [exact H1|]. intros [|j] Hj; cbn; [congruence|]. apply H2. lia.
        -- intros [H1 H2]. destruct i as [|i]; [cbn in H1; congruence|]. cbn in H1. f_equal.
           assert (Some k = Some i) as [= ->]; [|reflexivity]. apply IH. split; [exact H1|]. intros j Hj. apply (H2 (S j)). lia.
      * split; [discriminate|]. intros [H1 H2]. destruct i as [|i]; [cbn in H1; congruence|]. cbn in H1.
        assert (None = Some i); [|discriminate]. apply IH. split; [exact H1|]. intros j Hj. apply (H2 (S j)). lia.
Qed.

Lemma index_of_in s l : (exists i, index_of s l = Some i) <-> In s l.
Proof.
  induction l as [|x l IH]; cbn; [split; [intros [? [=]]|contradiction]|].
  destruct (str_eqb x s) eqn:E.
  - apply str_eqb_eq in E. split; [auto|eauto].
  - apply str_eqb_neq in E. rewrite <- IH. split.
    + intros [i H]. destruct (index_of s l); [eauto|discriminate].
    + intros [H|[i H]]; [contradiction|]. rewrite H. cbn. eauto.
Qed.

Lemma known_iff d s : known d (LString s) = true <-> In s (d_params d).
Proof.
  rewrite <- index_of_in. unfold known. cbn [get_string]. destruct (index_of s (d_params d)); split; eauto; try discriminate.
  intros [? [=]].
Qed.

Lemma known_slot_iff d s : known_slot d (LString s) = true <-> call_slot d s.
Proof.
  unfold known_slot, call_slot. cbn [get_string].
  assert (H : (exists i, index_of s (parameter_names true (is_method_decl d) d) = Some i) <-> In s (parameter_names true (is_method_decl d) d)) by apply index_of_in.
  transitivity (exists i, index_of s (parameter_names true (is_method_decl d) d) = Some i).
  { destruct (index_of _ _); split; eauto; try discriminate. intros [? [=]]. }
  rewrite H. unfold parameter_names. cbn [app]. rewrite <- is_method_decl_iff. destruct (is_method_decl d); cbn [app In].
  - split; intros Hx; [destruct Hx as [Hx|[Hx|Hx]]|destruct Hx as [Hx|[[_ Hx]|Hx]]]; auto.
  - split; intros Hx; [destruct Hx as [Hx|Hx]|destruct Hx as [Hx|[[Hf _]|Hx]]]; auto; discriminate.
Qed.

Lemma manual_iff d : (exists e, manual_bindings_expr d = Some e) <-> d_kind d = KVar /\ exists e, d_lambda d = Some e.
Proof.
  unfold manual_bindings_expr. destruct (d_kind d); split; try (intros [? [=]]; fail); try (intros [[=] _]; fail); auto. intros [_ H]; exact H.
Qed.

Lemma forallb_strings {P : str -> Prop} (p : lit -> bool) ss : (forall s, p (LString s) = true <-> P s) ->
  forallb p (map LString ss) = true <-> Forall P ss.
Proof.
  intros H. induction ss as [|s ss IH]; cbn; [split; constructor|]. rewrite andb_true_iff, H, IH. split; [intros []; constructor; auto|].
  intros HF; inv HF; auto.
Qed.

Lemma map_nil_iff ss : map LString ss <> [] <-> ss <> [].
Proof. destruct ss; cbn; split; congruence. Qed.

Lemma wf_iff d an : wf_b d an = true <-> well_formed d an.
Proof.
  split.
  - destruct an as [k args]. unfold wf_b. cbn [a_kind a_args]. destruct k; intros H;
      rewrite ?andb_true_iff, ?strings_map, ?flagb_iff, ?nilb_iff, ?nilb_false, ?is_namespace_iff, ?is_typedef_iff, ?supports_enum_iff, ?supports_record_iff,
        ?supports_constructor_iff, ?supports_field_iff, ?supports_function_iff, ?supports_method_iff, ?Nat.eqb_eq, ?Nat.leb_le, ?negb_true_iff in H.
    + destruct args as [|[] [|]]; try discriminate; [apply wf_expose_as, is_valid_identifier_iff, H|apply wf_expose_as_default].
    + subst. constructor.
    + destruct args as [|[] [|]]; try discriminate; [apply wf_visible; left; reflexivity|apply wf_visible; right; eauto|apply wf_visible_default].
    + destruct H. constructor; assumption.
    + destruct H. constructor; assumption.
    + destruct H as (((((H1 & H2) & H3) & [ss ->]) & H5) & H6). rewrite map_nil_iff in H5.
      apply (forallb_strings (P := identifier)) in H6; [|intros s; apply is_valid_identifier_iff]. constructor; assumption.
    + destruct H as (((((H1 & H2) & H3) & [ss ->]) & H5) & H6). rewrite map_nil_iff in H5.
      apply (forallb_strings (P := identifier)) in H6; [|intros s; apply is_valid_identifier_iff]. constructor; assumption.
    + destruct H. constructor; assumption.
    + destruct H as [H [ss ->]]. constructor; assumption.
    + destruct H as [H1 H2]. destruct args as [|[] [|]]; try discriminate. constructor; assumption.
    + destruct H as [H [ss ->]]. constructor; assumption.
    + destruct H as (((H1 & H2) & H3) & H4). constructor; assumption.
    + destruct H as [H1 H2]. destruct args as [|[] [|[] [|]]]; try discriminate. apply andb_true_iff in H2 as [H2 H3].
      apply known_slot_iff in H2. apply known_slot_iff in H3. constructor; assumption.
    + destruct H as (((H1 & [ss ->]) & H3) & H4). rewrite map_nil_iff in H3.
      apply (forallb_strings (P := fun s => In s (d_params d))) in H4; [|intros s; apply known_iff]. constructor; assumption.
    + destruct H as (((H1 & [ss ->]) & H3) & H4). rewrite map_nil_iff in H3.
      apply (forallb_strings (P := fun s => In s (d_params d))) in H4; [|intros s; apply known_iff]. constructor; assumption.
    + destruct H as [H1 H2]. destruct args as [|[] [|]]; try discriminate. constructor; assumption.
    + destruct (manual_bindings_expr d) as [e|] eqn:E; [|discriminate]. apply nilb_iff in H. subst.
      destruct (proj1 (manual_iff d) (ex_intro _ e E)) as [H1 [e' H2]]. apply wf_manual with (e := e'); assumption.
    + destruct (manual_bindings_expr d) as [e|] eqn:E; [|discriminate]. apply andb_true_iff in H as [H3 H]. apply nilb_iff in H. subst.
      destruct (proj1 (manual_iff d) (ex_intro _ e E)) as [H1 [e' H2]]. apply wf_postamble with (e := e'); assumption.
    + destruct H as [H1 H2]. destruct args as [|[] [|]]; try discriminate; constructor; try assumption. apply is_valid_identifier_iff, H2.
    + destruct H as ((H1 & [ss ->]) & H3). rewrite map_nil_iff in H3. constructor; assumption.
    + destruct H as [H ->]. constructor; assumption.
    + destruct H as [H ->]. constructor; assumption.
    + destruct H. constructor; assumption.
  - intros H. destruct H; unfold wf_b; cbn [a_kind a_args];
      rewrite ?andb_true_iff, ?strings_map, ?flagb_iff, ?nilb_iff, ?nilb_false, ?map_nil_iff, ?is_namespace_iff, ?is_typedef_iff, ?supports_enum_iff, ?supports_record_iff,
        ?supports_constructor_iff, ?supports_field_iff, ?supports_function_iff, ?supports_method_iff, ?Nat.eqb_eq, ?Nat.leb_le, ?negb_true_iff; auto.
    + destruct H as [->|[b ->]]; reflexivity.
    + apply is_valid_identifier_iff, H.
    + split; [assumption|]. apply is_valid_identifier_iff. assumption.
    + repeat split; eauto.
    + eauto.
    + eauto.
    + repeat split; eauto. apply (forallb_strings (P := identifier)); [intros s; apply is_valid_identifier_iff|assumption].
    + repeat split; eauto. apply (forallb_strings (P := identifier)); [intros s; apply is_valid_identifier_iff|assumption].
    + split; [assumption|]. split; apply known_slot_iff; assumption.
    + repeat split; eauto. apply (forallb_strings (P := fun s => In s (d_params d))); [intros s; apply known_iff|assumption].
    + repeat split; eauto. apply (forallb_strings (P := fun s => In s (d_params d))); [intros s; apply known_iff|assumption].
    + unfold manual_bindings_expr. rewrite H, H0. reflexivity.
    + unfold manual_bindings_expr. rewrite H, H0, H1. reflexivity.
Qed.

(** ** Parts of the attributes not touched by a handler, errors or not *)

Section Keep.
  Context {T : Type} (g : attrs -> T).
  Definition quiet (f : action) : Prop := forall a, g (fst (f a)) = g a.

  Lemma quiet_change h : (forall a, g (h a) = g a) -> quiet (change h).
  Proof. intros H a. apply H. Qed.
  Lemma quiet_complain e : quiet (complain e).
  Proof. intros a. reflexivity. Qed.
  Lemma keep_perform f s : quiet f -> g (ds_attrs (perform f s)) = g (ds_attrs s).
  Proof. intros H. unfold perform. specialize (H (ds_attrs s)). destruct (f (ds_attrs s)). exact H. Qed.
  Lemma keep_nullary args f s : quiet f -> g (ds_attrs (nullary args f s)) = g (ds_attrs s).
  Proof. intros H. unfold nullary. destruct (unmatched s), args; try reflexivity. apply keep_perform, H. Qed.
  Lemma keep_unary args k f s : (forall v, quiet (f v)) -> g (ds_attrs (unary args k f s)) = g (ds_attrs s).
  Proof.
    intros H. unfold unary. destruct (unmatched s); [|reflexivity]. destruct args as [|v [|]]; try reflexivity.
    destruct (wrong_kind k [v]); [reflexivity|apply keep_perform, H].
  Qed.
  Lemma keep_binary args k f s : (forall v w, quiet (f v w)) -> g (ds_attrs (binary args k f s)) = g (ds_attrs s).
  Proof.
    intros H. unfold binary. destruct (unmatched s); [|reflexivity]. destruct args as [|v [|w [|]]]; try reflexivity.
    destruct (wrong_kind k [v; w]); [reflexivity|apply keep_perform, H].
  Qed.
  Lemma keep_perform_all f args : (forall v, quiet (f v)) -> forall s, g (ds_attrs (perform_all f args s)) = g (ds_attrs s).
  Proof. intros H. induction args as [|v args IH]; intros s; cbn [perform_all]; [reflexivity|]. rewrite IH. apply keep_perform, H. Qed.
  Lemma keep_variadic args k f s : (forall v, quiet (f v)) -> g (ds_attrs (variadic args k f s)) = g (ds_attrs s).
  Proof.
    intros H. unfold variadic. destruct (unmatched s); [|reflexivity]. destruct args as [|v r]; [reflexivity|].
    destruct (wrong_kind k (v :: r)); [reflexivity|apply keep_perform_all, H].
  Qed.
  Lemma keep_collect args k t p s : (forall l a, g (snd (fst (p l a))) = g a) ->
    g (ds_attrs (variadic_collect args k t p s)) = g (ds_attrs s).
  Proof.
    intros H. unfold variadic_collect. destruct (unmatched s); [|reflexivity]. destruct (wrong_kind k args); [reflexivity|].
    unfold perform. cbn [ds_attrs]. pose proof (H (map (fun v => fst (t v)) args) (ds_attrs s)) as H'.
    destruct (p (map (fun v => fst (t v)) args) (ds_attrs s)) as [[[] a] ds]; exact H'.
  Qed.
  Lemma keep_ensure c s : g (ds_attrs (ensure c s)) = g (ds_attrs s).
  Proof. unfold ensure, perform. destruct (ds_state s), (fst c); reflexivity. Qed.
  Lemma keep_on_match f s : quiet f -> g (ds_attrs (on_match f s)) = g (ds_attrs s).
  Proof. intros H. unfold on_match. destruct (ds_state s); try reflexivity. apply keep_perform, H. Qed.
  Lemma keep_flag args set s : (forall b a, g (set b a) = g a) -> g (ds_attrs (flag args set s)) = g (ds_attrs s).
  Proof.
    intros H. unfold flag. rewrite keep_unary by (intros v; apply quiet_change, H). apply keep_nullary, quiet_change, H.
  Qed.
  Lemma keep_check k s : g (snd (fst (check_match k s))) = g (ds_attrs s).
  Proof. unfold check_match. destruct (ds_state s); reflexivity. Qed.
  Lemma keep_fold {B} (ins : B -> attrs -> attrs) l : (forall b a, g (ins b a) = g a) -> forall a,
    g (fold_left (fun a b => ins b a) l a) = g a.
  Proof. intros H. induction l as [|b l IH]; intros a; cbn [fold_left]; [reflexivity|]. rewrite IH. apply H. Qed.
  Lemma keep_select k bases ins l a : (forall x a, g (ins x a) = g a) -> g (snd (fst (select_bases k bases ins l a))) = g a.
  Proof. intros H. unfold select_bases. cbn [fst snd]. apply (keep_fold (fun b => ins (b_decl b))). intros b. apply H. Qed.
  Lemma keep_properties ins l a : (forall x a, g (ins x a) = g a) -> g (snd (fst (add_properties ins l a))) = g a.
  Proof. intros H. unfold add_properties. destruct l; [reflexivity|]. cbn [fst snd]. apply keep_fold, H. Qed.

  Ltac keep_tac := repeat first
    [ rewrite keep_check | rewrite keep_flag by (intros; auto) | rewrite keep_ensure
    | rewrite keep_nullary by (apply quiet_change; intros; auto)
    | rewrite keep_unary by (intros; apply quiet_change; intros; auto)
    | rewrite keep_collect by (intros; first [apply keep_select | apply keep_properties]; intros; auto) ].

  Lemma keep_owner d k an a :
    match k with
    | Hidden | Visible | ExposeAs => False
    | Module | OnlyExposeIn => forall f a, g (set_namespace f a) = g a
    | Arithmetic | ExportValues => forall f a, g (set_enum f a) = g a
    | DynamicAttr | HideBase | InlineBase | HolderType => forall f a, g (set_record f a) = g a
    | ImplicitConversion => forall b a, g (set_implicit_conversion b a) = g a
    | GetterFor | SetterFor => forall f a, g (set_method f a) = g a
    | KeepAlive | Noconvert | Required | ReturnValuePolicy => forall f a, g (set_function f a) = g a
    | Manual | Postamble | Readonly => forall f a, g (set_field f a) = g a
    | Encourage | ExposeHere => forall f a, g (set_typedef f a) = g a
    end -> a_kind an = k -> g (snd (fst (owner k d an a))) = g a.
  Proof.
    intros H Ek. destruct k; try contradiction; cbn [owner];
      unfold process_namespace, process_enum, process_record, process_typedef, process_field,
        process_method, process_constructor, process_function; rewrite Ek; keep_tac; try reflexivity.
    - rewrite keep_binary; [reflexivity|]. intros v w. destruct (index_of (get_string v) _); [|apply quiet_complain].
      destruct (index_of (get_string w) _); [|apply quiet_complain]. apply quiet_change. auto.
    - rewrite keep_variadic; [reflexivity|]. intros v. destruct (index_of (get_string v) _); [|apply quiet_complain]. apply quiet_change. auto.
    - rewrite keep_variadic; [reflexivity|]. intros v. destruct (index_of (get_string v) _); [|apply quiet_complain]. apply quiet_change. auto.
    - rewrite keep_variadic; [reflexivity|]. intros v. apply quiet_change. auto.
    - rewrite keep_on_match by (intros x; reflexivity). keep_tac. reflexivity.
    - rewrite keep_on_match by (intros x; reflexivity). keep_tac. reflexivity.
  Qed.
End Keep.

Lemma process_annotation_attrs d an a a' ds :
  process_annotation d an a = Some (a', ds) -> a' = snd (fst (any_of (handlers d) an a)).
Proof.
  unfold process_annotation. destruct (any_of (handlers d) an a) as [[ok x] ds0]. destruct (existsb is_error ds0 || ok).
  - intros [= <- <-]. reflexivity.
  - destruct (supports_typedef_diags d); [|discriminate]. intros [= <- <-]. reflexivity.
Qed.

Definition update {A} (o : option A) (v : A) : A := match o with Some w => w | None => v end.

Lemma step_named d an a a' ds : process_annotation d an a = Some (a', ds) ->
  at_named a' = mkNamed (update (spelling_of d an) (n_spelling (at_named a))) (update (visibility_of an) (n_visible (at_named a))).
Proof.
  intros H. apply process_annotation_attrs in H. subst a'. destruct an as [k args].
  assert (E : mkNamed (n_spelling (at_named a)) (n_visible (at_named a)) = at_named a) by (destruct (at_named a); reflexivity).
  destruct (akind_eqb k Module) eqn:Em.
  - apply akind_eqb_eq in Em. subst k. rewrite any_of_module. unfold spelling_of, visibility_of. cbn [a_kind a_args update].
    assert (E1 : at_named (snd (fst (process_named d (mkAnnotation Module args) a))) =
      mkNamed (update (match args with [LString s] => match d_kind d with KNamespace => if is_valid_identifier s then Some s else None | _ => None end | _ => None end)
        (n_spelling (at_named a))) (n_visible (at_named a))).
    { unfold process_named, no_check. cbn [a_kind a_args]. unfold is_namespace.
      destruct (d_kind d); destruct args as [|[] [|w r]]; cbn -[is_valid_identifier]; try (symmetry; exact E); try (rewrite E; reflexivity);
        unfold store_spelling; cbn [get_string]; destruct (is_valid_identifier _); cbn; try reflexivity; symmetry; exact E. }
    destruct (process_named d (mkAnnotation Module args) a) as [[x a1] ds1]. cbn [fst snd] in E1.
    assert (E2 : at_named (snd (fst (process_namespace d (mkAnnotation Module args) a1))) = at_named a1).
    { apply (keep_owner at_named d Module); reflexivity. }
    destruct (is_namespace d); [|exact E1].
    destruct (process_namespace d (mkAnnotation Module args) a1) as [[ok a2] ds2]. cbn [fst snd] in E2 |- *. rewrite E2. exact E1.
  - assert (Hm : k <> Module) by (intros ->; discriminate).
    rewrite any_of_owner by exact Hm. cbn [a_kind]. unfold spelling_of, visibility_of. cbn [a_kind a_args].
    destruct (applicable d k) eqn:Ea.
    + assert (Hother : (k <> Hidden /\ k <> Visible /\ k <> ExposeAs) \/ (k = Hidden \/ k = Visible \/ k = ExposeAs))
        by (destruct k; auto; left; repeat split; discriminate).
      destruct Hother as [(H1 & H2 & H3)|Hk].
      * rewrite (keep_owner at_named d k); [destruct k; try congruence; symmetry; exact E| |reflexivity].
        destruct k; try congruence; reflexivity.
      * destruct Hk as [->|[->| ->]]; cbn [owner update]; unfold process_named; cbn [a_kind a_args].
        -- destruct args; cbn; [reflexivity|symmetry; exact E].
        -- destruct args as [|[] [|w r]]; cbn; try reflexivity; symmetry; exact E.
        -- destruct args as [|[] [|w r]]; cbn -[is_valid_identifier]; try reflexivity; try (symmetry; exact E).
           unfold store_spelling. cbn [get_string]. destruct (is_valid_identifier _); cbn; try reflexivity; symmetry; exact E.
    + destruct k; try congruence; cbn in Ea; try discriminate; symmetry; exact E.
Qed.

Lemma step_typedef d an a a' ds : process_annotation d an a = Some (a', ds) ->
  at_typedef a' =
  mkTypedef (t_encourage (at_typedef a) || (is_typedef d && akind_eqb (a_kind an) Encourage && nilb (a_args an)))
            (t_expose_here (at_typedef a) || (is_typedef d && akind_eqb (a_kind an) ExposeHere && nilb (a_args an))).
Proof.
  intros H. apply process_annotation_attrs in H. subst a'. destruct an as [k args]. cbn [a_kind a_args].
  assert (E : mkTypedef (t_encourage (at_typedef a) || false) (t_expose_here (at_typedef a) || false) = at_typedef a)
    by (rewrite !orb_false_r; destruct (at_typedef a); reflexivity).
  destruct (akind_eqb k Module) eqn:Em.
  - apply akind_eqb_eq in Em. subst k. rewrite any_of_module. replace (akind_eqb Module Encourage) with false by reflexivity.
    replace (akind_eqb Module ExposeHere) with false by reflexivity. rewrite !andb_false_r. cbn [andb]. rewrite E.
    assert (E1 : at_typedef (snd (fst (process_named d (mkAnnotation Module args) a))) = at_typedef a).
    { unfold process_named, no_check. cbn [a_kind a_args fst snd]. rewrite (keep_unary at_typedef).
      - rewrite (keep_ensure at_typedef). reflexivity.
      - intros v. unfold store_spelling. destruct (is_valid_identifier _); [apply quiet_change|apply quiet_complain]. reflexivity. }
    destruct (process_named d (mkAnnotation Module args) a) as [[x a1] ds1]. cbn [fst snd] in E1.
    assert (E2 : at_typedef (snd (fst (process_namespace d (mkAnnotation Module args) a1))) = at_typedef a1).
    { apply (keep_owner at_typedef d Module); reflexivity. }
    destruct (is_namespace d); [|exact E1].
    destruct (process_namespace d (mkAnnotation Module args) a1) as [[ok a2] ds2]. cbn [fst snd] in E2 |- *. rewrite E2. exact E1.
  - assert (Hm : k <> Module) by (intros ->; discriminate).
    rewrite any_of_owner by exact Hm. cbn [a_kind].
    destruct (akind_eqb k Encourage) eqn:E1; [apply akind_eqb_eq in E1; subst k|destruct (akind_eqb k ExposeHere) eqn:E2; [apply akind_eqb_eq in E2; subst k|]].
    + replace (akind_eqb Encourage ExposeHere) with false by reflexivity. rewrite !andb_false_r, andb_true_r. cbn [applicable owner andb].
      destruct (is_typedef d); [|symmetry; exact E]. destruct args; cbn [nilb andb].
      * unfold process_typedef. cbn. rewrite orb_true_r, orb_false_r. reflexivity.
      * symmetry; exact E.
    + rewrite !andb_false_r, andb_true_r. cbn [applicable owner andb].
      destruct (is_typedef d); [|symmetry; exact E]. destruct args; cbn [nilb andb].
      * unfold process_typedef. cbn. rewrite orb_true_r, orb_false_r. reflexivity.
      * symmetry; exact E.
    + rewrite !andb_false_r. cbn [andb]. rewrite E. destruct (applicable d k) eqn:Ea; [|reflexivity].
      assert (Hn : (k = Hidden \/ k = Visible \/ k = ExposeAs) \/ ~ (k = Hidden \/ k = Visible \/ k = ExposeAs))
        by (destruct k; auto; right; intros [|[|]]; discriminate).
      destruct Hn as [Hk|Hk].
      * destruct Hk as [->|[->| ->]]; cbn [owner]; unfold process_named; cbn [a_kind a_args]; rewrite keep_check.
        -- rewrite (keep_nullary at_typedef); [reflexivity|]. apply quiet_change. reflexivity.
        -- rewrite !(keep_unary at_typedef), (keep_nullary at_typedef); [reflexivity| | | ]; intros; apply quiet_change; reflexivity.
        -- rewrite !(keep_unary at_typedef); [reflexivity| | ]; intros.
           ++ apply quiet_change; reflexivity.
           ++ unfold store_spelling. destruct (is_valid_identifier _); [apply quiet_change|apply quiet_complain]. reflexivity.
      * rewrite (keep_owner at_typedef d k); [reflexivity| |reflexivity].
        destruct k; try (exfalso; apply Hk; auto; fail); try reflexivity; discriminate.
Qed.
