From Verif Require Import Base ParserModel ParserSpec ParserProofs StringModel StringSpec StringProofs AnnotModel AnnotSpec AnnotProofs.

(** ** Sequences of annotations *)

Lemma process_annotations_snoc d l an : forall a,
  process_annotations d (l ++ [an]) a =
  match process_annotations d l a with
  | None => None
  | Some (a1, dss) => match process_annotation d an a1 with None => None | Some (a2, ds) => Some (a2, dss ++ [ds]) end
  end.
Proof.
  induction l as [|x l IH]; intros a; cbn [app process_annotations].
  - destruct (process_annotation d an a) as [[a2 ds]|]; reflexivity.
  - destruct (process_annotation d x a) as [[a1 ds]|]; [|reflexivity]. rewrite IH.
    destruct (process_annotations d l a1) as [[a2 dss]|]; [|reflexivity].
    destruct (process_annotation d an a2) as [[a3 ds']|]; reflexivity.
Qed.

Lemma latest_snoc {A} (f : annotation -> option A) ans an default v :
  latest f ans default v -> latest f (ans ++ [an]) default (update (f an) v).
Proof.
  intros H. destruct (f an) as [w|] eqn:E; cbn [update].
  - right. exists ans, an, []. split; [reflexivity|]. split; [exact E|]. intros ? [].
  - destruct H as [[-> H]|(l1 & x & l2 & -> & Hx & H)].
    + left. split; [reflexivity|]. intros an' Hin. apply in_app_or in Hin as [Hin|[<-|[]]]; auto.
    + right. exists l1, x, (l2 ++ [an]). split; [rewrite <- app_assoc; reflexivity|]. split; [exact Hx|].
      intros an' Hin. apply in_app_or in Hin as [Hin|[<-|[]]]; auto.
Qed.

Lemma given_snoc k ans an : given k (ans ++ [an]) <-> given k ans \/ a_kind an = k.
Proof.
  unfold given. split.
  - intros (x & Hin & Hk). apply in_app_or in Hin as [Hin|[<-|[]]]; eauto.
  - intros [(x & Hin & Hk)|Hk]; [exists x|exists an]; split; auto; apply in_or_app; auto. right; left; reflexivity.
Qed.

Lemma named_by_snoc k ans an s : named_by k (ans ++ [an]) s <-> named_by k ans s \/ (a_kind an = k /\ In (LString s) (a_args an)).
Proof.
  unfold named_by. split.
  - intros (x & Hin & Hk). apply in_app_or in Hin as [Hin|[<-|[]]]; eauto.
  - intros [(x & Hin & Hk)|Hk]; [exists x|exists an]; split; auto; apply in_or_app; auto. right; left; reflexivity.
Qed.

(** *** Single fields of the effect *)

Lemma eff_keep_alive d args a : wf_b d (mkAnnotation KeepAlive args) = true ->
  exists s t i j, args = [LString s; LString t] /\ first_index (slots d) s i /\ first_index (slots d) t j /\
  apply_an d (mkAnnotation KeepAlive args) a =
  set_function (fun f => mkFunction (fn_keep_alive f ++ [(i, j)]) (fn_noconvert f) (fn_required f) (fn_policy f)) a.
Proof.
  unfold wf_b. cbn [a_kind a_args]. rewrite andb_true_iff. intros [_ H].
  destruct args as [|[] [|[] [|]]]; try discriminate. apply andb_true_iff in H as [H1 H2]. unfold known_slot in H1, H2.
  unfold apply_an. cbn [a_kind a_args].
  assert (Es : parameter_names true (is_method_decl d) d = slots d).
  { unfold parameter_names, slots, is_method_decl. destruct (d_kind d); reflexivity. }
  destruct (index_of (get_string (LString s)) _) as [i|] eqn:E1; [|discriminate].
  destruct (index_of (get_string (LString s0)) _) as [j|] eqn:E2; [|discriminate].
  exists s, s0, i, j. split; [reflexivity|]. rewrite Es in E1, E2. split; [apply index_of_some, E1|]. split; [apply index_of_some, E2|]. reflexivity.
Qed.

Ltac eff H := let k := fresh "k" in let args := fresh "args" in
  match goal with |- context [apply_an ?d ?an ?a] =>
  destruct an as [k args]; destruct k; try reflexivity;
  try (let s := fresh in let t := fresh in let i := fresh in let j := fresh in let E := fresh "E" in
       destruct (eff_keep_alive d args a H) as (s & t & i & j & ? & ? & ? & E); rewrite E; reflexivity);
  unfold wf_b in H; cbn [a_kind a_args] in H;
  destruct args as [|[] [|? ?]]; try reflexivity; try discriminate; rewrite ?andb_false_r in H; try discriminate end.

Lemma eff_visible d an a : wf_b d an = true -> n_visible (at_named (apply_an d an a)) = update (visibility_of an) (n_visible (at_named a)).
Proof. intros H. eff H. Qed.
Lemma eff_spelling d an a : wf_b d an = true -> n_spelling (at_named (apply_an d an a)) = update (spelling_of d an) (n_spelling (at_named a)).
Proof.
  intros H. eff H; unfold apply_an, spelling_of; cbn [a_kind a_args].
  - rewrite H. reflexivity.
  - apply andb_true_iff in H as [Hn H]. apply is_namespace_iff in Hn. rewrite Hn, H. reflexivity.
Qed.
Lemma eff_module d an a : wf_b d an = true ->
  ns_module (at_namespace (apply_an d an a)) = ns_module (at_namespace a) || akind_eqb (a_kind an) Module.
Proof. intros H. symmetry. cbn. destruct (akind_eqb (a_kind an) Module) eqn:E; [apply akind_eqb_eq in E|].
  - rewrite orb_true_r. eff H; discriminate.
  - rewrite orb_false_r. eff H; discriminate.
Qed.
Lemma eff_only_expose_in d an a : wf_b d an = true ->
  map LString (ns_only_expose_in (at_namespace (apply_an d an a))) =
  map LString (ns_only_expose_in (at_namespace a)) ++ (if akind_eqb (a_kind an) OnlyExposeIn then a_args an else []).
Proof.
  intros H. destruct (akind_eqb (a_kind an) OnlyExposeIn) eqn:E; [apply akind_eqb_eq in E|].
  - destruct an as [k args]. cbn [a_kind a_args] in *. subst k. unfold wf_b in H. cbn [a_kind a_args] in H.
    apply andb_true_iff in H as [H _]. apply andb_true_iff in H as [_ H]. apply strings_map in H as [ss ->].
    unfold apply_an. cbn [a_kind a_args set_namespace at_namespace ns_only_expose_in]. rewrite map_app, !map_map. cbn. reflexivity.
  - rewrite app_nil_r. eff H; discriminate.
Qed.
Lemma eff_arithmetic d an a : wf_b d an = true -> e_arithmetic (at_enum (apply_an d an a)) = update (flag_of Arithmetic an) (e_arithmetic (at_enum a)).
Proof. intros H. eff H. Qed.
Lemma eff_export_values d an a : wf_b d an = true ->
  e_export_values (at_enum (apply_an d an a)) = update (option_map Some (flag_of ExportValues an)) (e_export_values (at_enum a)).
Proof. intros H. eff H. Qed.
Lemma eff_dynamic_attr d an a : wf_b d an = true -> r_dynamic_attr (at_record (apply_an d an a)) = update (flag_of DynamicAttr an) (r_dynamic_attr (at_record a)).
Proof. intros H. eff H. Qed.
Lemma eff_holder_type d an a : wf_b d an = true -> r_holder_type (at_record (apply_an d an a)) = update (string_of HolderType an) (r_holder_type (at_record a)).
Proof. intros H. eff H. Qed.
Lemma eff_readonly d an a : wf_b d an = true -> f_readonly (at_field (apply_an d an a)) = update (flag_of Readonly an) (f_readonly (at_field a)).
Proof. intros H. eff H. Qed.
Lemma eff_implicit d an a : wf_b d an = true -> at_implicit_conversion (apply_an d an a) = update (flag_of ImplicitConversion an) (at_implicit_conversion a).
Proof. intros H. eff H. Qed.
Lemma eff_policy d an a : wf_b d an = true -> fn_policy (at_function (apply_an d an a)) = update (string_of ReturnValuePolicy an) (fn_policy (at_function a)).
Proof. intros H. eff H. Qed.
Lemma eff_encourage d an a : wf_b d an = true -> t_encourage (at_typedef (apply_an d an a)) = t_encourage (at_typedef a) || akind_eqb (a_kind an) Encourage.
Proof. intros H. destruct (akind_eqb (a_kind an) Encourage) eqn:E; [apply akind_eqb_eq in E|]; rewrite ?orb_true_r, ?orb_false_r; eff H; discriminate. Qed.
Lemma eff_expose_here d an a : wf_b d an = true -> t_expose_here (at_typedef (apply_an d an a)) = t_expose_here (at_typedef a) || akind_eqb (a_kind an) ExposeHere.
Proof. intros H. destruct (akind_eqb (a_kind an) ExposeHere) eqn:E; [apply akind_eqb_eq in E|]; rewrite ?orb_true_r, ?orb_false_r; eff H; discriminate. Qed.
Lemma eff_postamble d an a : wf_b d an = true -> f_postamble (at_field (apply_an d an a)) = f_postamble (at_field a) || akind_eqb (a_kind an) Postamble.
Proof. intros H. destruct (akind_eqb (a_kind an) Postamble) eqn:E; [apply akind_eqb_eq in E|]; rewrite ?orb_true_r, ?orb_false_r; eff H; discriminate. Qed.
Lemma eff_manual d an a : wf_b d an = true -> f_manual (at_field (apply_an d an a)) = if akind_eqb (a_kind an) Manual then d_lambda d else f_manual (at_field a).
Proof.
  intros H. destruct (akind_eqb (a_kind an) Manual) eqn:E; [apply akind_eqb_eq in E|].
  - destruct an as [k args]. cbn [a_kind] in E. subst k. unfold wf_b in H. cbn [a_kind a_args] in H.
    unfold apply_an. cbn. unfold manual_bindings_expr in *. destruct (d_kind d); try discriminate. reflexivity.
  - eff H; discriminate.
Qed.

Lemma in_add_nat x y l : In x (add_nat y l) <-> x = y \/ In x l.
Proof.
  unfold add_nat. destruct (existsb (Nat.eqb y) l) eqn:E.
  - apply existsb_exists in E as (z & Hz & Ez). apply Nat.eqb_eq in Ez. subst z. split; [auto|]. intros [->|]; assumption.
  - rewrite in_app_iff. cbn. intuition.
Qed.
Lemma in_add_str x y l : In x (add_str y l) <-> x = y \/ In x l.
Proof.
  unfold add_str. destruct (existsb (str_eqb y) l) eqn:E.
  - apply existsb_exists in E as (z & Hz & Ez). apply str_eqb_eq in Ez. subst z. split; [auto|]. intros [->|]; assumption.
  - rewrite in_app_iff. cbn. intuition.
Qed.
Lemma in_fold_bases (bs : list base) x : forall l, In x (fold_left (fun l b => add_nat (b_decl b) l) bs l) <-> In x l \/ exists b, In b bs /\ b_decl b = x.
Proof.
  induction bs as [|b bs IH]; intros l; cbn [fold_left In].
  - split; [auto|]. intros [H|(b & [] & _)]; exact H.
  - rewrite IH, in_add_nat. split.
    + intros [[->|H]|(b' & H & <-)]; eauto 6.
    + intros [H|(b' & [<-|H] & <-)]; eauto.
Qed.
Lemma in_fold_strs ss x : forall l, In x (fold_left (fun l n => add_str n l) ss l) <-> In x l \/ In x ss.
Proof.
  induction ss as [|s ss IH]; intros l; cbn [fold_left In]; [tauto|]. rewrite IH, in_add_str. intuition.
Qed.
Lemma in_fold_index ix ss x : forall l,
  In x (fold_left (fun l n => match ix n with Some i => add_nat i l | None => l end) ss l) <-> In x l \/ exists s : str, In s ss /\ ix s = Some x.
Proof.
  induction ss as [|s ss IH]; intros l; cbn [fold_left In].
  - split; [auto|]. intros [H|(b & [] & _)]; exact H.
  - rewrite IH. destruct (ix s) as [i|] eqn:E.
    + rewrite in_add_nat. split.
      * intros [[->|H]|(b & H & Hb)]; eauto 6.
      * intros [H|(b & [<-|H] & Hb)]; eauto. left. left. congruence.
    + split.
      * intros [H|(b & H & Hb)]; eauto 6.
      * intros [H|(b & [<-|H] & Hb)]; eauto. congruence.
Qed.

Lemma matches_iff ss b : matches ss b = true <-> exists s, In s ss /\ In s (b_names b).
Proof.
  unfold matches. rewrite existsb_exists. split.
  - intros (s & H & Hs). apply existsb_exists in Hs as (t & Ht & E). apply str_eqb_eq in E. subst t. eauto.
  - intros (s & H & Hs). exists s. split; [exact H|]. apply existsb_exists. exists s. split; [exact Hs|apply str_eqb_refl].
Qed.

Lemma selected args b bs : strings args = true ->
  In b (filter (fun b => match map get_string args with [] => true | _ => matches (map get_string args) b end) bs) <-> In b bs /\ selects args b.
Proof.
  intros Hs. apply strings_map in Hs as [ss ->]. rewrite filter_In, map_map. cbn. rewrite map_id.
  unfold selects. destruct ss as [|s ss].
  - cbn. split; [intros [H _]; auto|intros [H _]; auto].
  - rewrite matches_iff. split; intros [H1 H2]; (split; [exact H1|]).
    + right. destruct H2 as (x & Hx & Hb). exists x. split; [apply in_map; exact Hx|exact Hb].
    + destruct H2 as [H2|(x & Hx & Hb)]; [discriminate|]. apply in_map_iff in Hx as (y & [= ->] & Hy). eauto.
Qed.

Lemma eff_hide_base d an a x : wf_b d an = true ->
  In x (r_hide_base (at_record (apply_an d an a))) <->
  In x (r_hide_base (at_record a)) \/ (a_kind an = HideBase /\ exists b, In b (d_bases d) /\ selects (a_args an) b /\ b_decl b = x).
Proof.
  intros H. destruct (akind_eqb (a_kind an) HideBase) eqn:E; [apply akind_eqb_eq in E|].
  - destruct an as [k args]. cbn [a_kind a_args] in *. subst k. unfold wf_b in H. cbn [a_kind a_args] in H. apply andb_true_iff in H as [_ H].
    unfold apply_an. cbn [a_kind a_args set_record at_record r_hide_base]. rewrite in_fold_bases.
    split; (intros [H1|H1]; [auto|right]).
    + split; [reflexivity|]. destruct H1 as (b & H1 & <-). apply selected in H1 as [H1 H2]; [|exact H]. eauto.
    + destruct H1 as [_ (b & H1 & H2 & <-)]. exists b. split; [apply selected; auto|reflexivity].
  - assert (E' : r_hide_base (at_record (apply_an d an a)) = r_hide_base (at_record a)) by (eff H; discriminate).
    rewrite E'. split; [auto|]. intros [H1|[H1 _]]; [exact H1|]. rewrite H1 in E. discriminate.
Qed.
Lemma eff_inline_base d an a x : wf_b d an = true ->
  In x (r_inline_base (at_record (apply_an d an a))) <->
  In x (r_inline_base (at_record a)) \/ (a_kind an = InlineBase /\ exists b, In b (d_all_bases d) /\ selects (a_args an) b /\ b_decl b = x).
Proof.
  intros H. destruct (akind_eqb (a_kind an) InlineBase) eqn:E; [apply akind_eqb_eq in E|].
  - destruct an as [k args]. cbn [a_kind a_args] in *. subst k. unfold wf_b in H. cbn [a_kind a_args] in H. apply andb_true_iff in H as [_ H].
    unfold apply_an. cbn [a_kind a_args set_record at_record r_inline_base]. rewrite in_fold_bases.
    split; (intros [H1|H1]; [auto|right]).
    + split; [reflexivity|]. destruct H1 as (b & H1 & <-). apply selected in H1 as [H1 H2]; [|exact H]. eauto.
    + destruct H1 as [_ (b & H1 & H2 & <-)]. exists b. split; [apply selected; auto|reflexivity].
  - assert (E' : r_inline_base (at_record (apply_an d an a)) = r_inline_base (at_record a)) by (eff H; discriminate).
    rewrite E'. split; [auto|]. intros [H1|[H1 _]]; [exact H1|]. rewrite H1 in E. discriminate.
Qed.

Lemma in_strings args s : strings args = true -> In s (map get_string args) <-> In (LString s) args.
Proof.
  intros Hs. apply strings_map in Hs as [ss ->]. rewrite map_map. cbn. rewrite map_id. split; [apply in_map|].
  intros H. apply in_map_iff in H as (y & [= ->] & Hy). exact Hy.
Qed.

Lemma eff_getter_for d an a s : wf_b d an = true ->
  In s (m_getter_for (at_method (apply_an d an a))) <-> In s (m_getter_for (at_method a)) \/ (a_kind an = GetterFor /\ In (LString s) (a_args an)).
Proof.
  intros H. destruct (akind_eqb (a_kind an) GetterFor) eqn:E; [apply akind_eqb_eq in E|].
  - destruct an as [k args]. cbn [a_kind a_args] in *. subst k. unfold wf_b in H. cbn [a_kind a_args] in H.
    rewrite !andb_true_iff in H. destruct H as [[[_ H] _] _].
    unfold apply_an. cbn [a_kind a_args set_method at_method m_getter_for]. rewrite in_fold_strs, in_strings by exact H. intuition.
  - assert (E' : m_getter_for (at_method (apply_an d an a)) = m_getter_for (at_method a)) by (eff H; discriminate).
    rewrite E'. split; [auto|]. intros [H1|[H1 _]]; [exact H1|]. rewrite H1 in E. discriminate.
Qed.
Lemma eff_setter_for d an a s : wf_b d an = true ->
  In s (m_setter_for (at_method (apply_an d an a))) <-> In s (m_setter_for (at_method a)) \/ (a_kind an = SetterFor /\ In (LString s) (a_args an)).
Proof.
  intros H. destruct (akind_eqb (a_kind an) SetterFor) eqn:E; [apply akind_eqb_eq in E|].
  - destruct an as [k args]. cbn [a_kind a_args] in *. subst k. unfold wf_b in H. cbn [a_kind a_args] in H.
    rewrite !andb_true_iff in H. destruct H as [[[_ H] _] _].
    unfold apply_an. cbn [a_kind a_args set_method at_method m_setter_for]. rewrite in_fold_strs, in_strings by exact H. intuition.
  - assert (E' : m_setter_for (at_method (apply_an d an a)) = m_setter_for (at_method a)) by (eff H; discriminate).
    rewrite E'. split; [auto|]. intros [H1|[H1 _]]; [exact H1|]. rewrite H1 in E. discriminate.
Qed.
Lemma eff_noconvert d an a i : wf_b d an = true ->
  In i (fn_noconvert (at_function (apply_an d an a))) <->
  In i (fn_noconvert (at_function a)) \/ (a_kind an = Noconvert /\ exists s, In (LString s) (a_args an) /\ first_index (d_params d) s i).
Proof.
  intros H. destruct (akind_eqb (a_kind an) Noconvert) eqn:E; [apply akind_eqb_eq in E|].
  - destruct an as [k args]. cbn [a_kind a_args] in *. subst k. unfold wf_b in H. cbn [a_kind a_args] in H.
    rewrite !andb_true_iff in H. destruct H as [[[_ H] _] _].
    unfold apply_an. cbn [a_kind a_args set_function at_function fn_noconvert]. rewrite in_fold_index.
    split; (intros [H1|H1]; [auto|right]).
    + split; [reflexivity|]. destruct H1 as (s & H1 & H2). exists s. split; [apply in_strings; assumption|apply index_of_some, H2].
    + destruct H1 as (_ & s & H1 & H2). exists s. split; [apply in_strings; assumption|apply index_of_some, H2].
  - assert (E' : fn_noconvert (at_function (apply_an d an a)) = fn_noconvert (at_function a)) by (eff H; discriminate).
    rewrite E'. split; [auto|]. intros [H1|[H1 _]]; [exact H1|]. rewrite H1 in E. discriminate.
Qed.
Lemma eff_required d an a i : wf_b d an = true ->
  In i (fn_required (at_function (apply_an d an a))) <->
  In i (fn_required (at_function a)) \/ (a_kind an = Required /\ exists s, In (LString s) (a_args an) /\ first_index (d_params d) s i).
Proof.
  intros H. destruct (akind_eqb (a_kind an) Required) eqn:E; [apply akind_eqb_eq in E|].
  - destruct an as [k args]. cbn [a_kind a_args] in *. subst k. unfold wf_b in H. cbn [a_kind a_args] in H.
    rewrite !andb_true_iff in H. destruct H as [[[_ H] _] _].
    unfold apply_an. cbn [a_kind a_args set_function at_function fn_required]. rewrite in_fold_index.
    split; (intros [H1|H1]; [auto|right]).
    + split; [reflexivity|]. destruct H1 as (s & H1 & H2). exists s. split; [apply in_strings; assumption|apply index_of_some, H2].
    + destruct H1 as (_ & s & H1 & H2). exists s. split; [apply in_strings; assumption|apply index_of_some, H2].
  - assert (E' : fn_required (at_function (apply_an d an a)) = fn_required (at_function a)) by (eff H; discriminate).
    rewrite E'. split; [auto|]. intros [H1|[H1 _]]; [exact H1|]. rewrite H1 in E. discriminate.
Qed.

Lemma orb_flag_given (b : bool) k ans an : (b = true <-> given k ans) ->
  (b || akind_eqb (a_kind an) k = true <-> given k (ans ++ [an])).
Proof. intros H. rewrite orb_true_iff, given_snoc, akind_eqb_eq, H. reflexivity. Qed.

Lemma in_snoc_ex {P : annotation -> Prop} ans an : (exists x, In x (ans ++ [an]) /\ P x) <-> (exists x, In x ans /\ P x) \/ P an.
Proof.
  split.
  - intros (x & Hin & Hk). apply in_app_or in Hin as [Hin|[<-|[]]]; eauto.
  - intros [(x & Hin & Hk)|Hk]; [exists x|exists an]; split; auto; apply in_or_app; auto. right; left; reflexivity.
Qed.

Lemma described_snoc d init ans a an :
  described d init ans a -> wf_b d an = true -> described d init (ans ++ [an]) (apply_an d an a).
Proof.
  intros D H. constructor.
  - rewrite eff_visible by exact H. apply latest_snoc, D.
  - rewrite eff_spelling by exact H. apply latest_snoc, D.
  - rewrite eff_module by exact H. apply orb_flag_given, D.
  - rewrite eff_only_expose_in by exact H. rewrite (de_only_expose_in _ _ _ _ D), filter_app, flat_map_app. f_equal. cbn [filter].
    destruct (akind_eqb (a_kind an) OnlyExposeIn); cbn; rewrite ?app_nil_r; reflexivity.
  - rewrite eff_arithmetic by exact H. apply latest_snoc, D.
  - rewrite eff_export_values by exact H. apply (latest_snoc (fun an => option_map Some (flag_of ExportValues an))), D.
  - rewrite eff_dynamic_attr by exact H. apply latest_snoc, D.
  - rewrite eff_holder_type by exact H. apply latest_snoc, D.
  - intros x. rewrite eff_hide_base by exact H. rewrite (de_hide_base _ _ _ _ D). split.
    + intros [(y & b & H1 & H2)|(H1 & b & H2)]; [exists y, b|exists an, b]; rewrite in_app_iff; cbn; intuition.
    + intros (y & b & H1 & H2 & H3). apply in_app_or in H1 as [H1|[<-|[]]]; [left; exists y, b|right]; intuition eauto.
  - intros x. rewrite eff_inline_base by exact H. rewrite (de_inline_base _ _ _ _ D). split.
    + intros [(y & b & H1 & H2)|(H1 & b & H2)]; [exists y, b|exists an, b]; rewrite in_app_iff; cbn; intuition.
    + intros (y & b & H1 & H2 & H3). apply in_app_or in H1 as [H1|[<-|[]]]; [left; exists y, b|right]; intuition eauto.
  - rewrite eff_encourage by exact H. apply orb_flag_given, D.
  - rewrite eff_expose_here by exact H. apply orb_flag_given, D.
  - rewrite eff_readonly by exact H. apply latest_snoc, D.
  - rewrite eff_manual by exact H. rewrite !given_snoc, <- akind_eqb_eq. destruct (de_manual _ _ _ _ D) as [D1 D2].
    destruct (akind_eqb (a_kind an) Manual); split; intros Hg; auto.
    + exfalso. apply Hg. auto.
    + apply D1. destruct Hg; [assumption|discriminate].
  - rewrite eff_postamble by exact H. apply orb_flag_given, D.
  - intros s. rewrite eff_getter_for, named_by_snoc, (de_getter_for _ _ _ _ D) by exact H. reflexivity.
  - intros s. rewrite eff_setter_for, named_by_snoc, (de_setter_for _ _ _ _ D) by exact H. reflexivity.
  - rewrite eff_implicit by exact H. apply latest_snoc, D.
  - rewrite filter_app. cbn [filter]. destruct (akind_eqb (a_kind an) KeepAlive) eqn:E; [apply akind_eqb_eq in E|].
    + destruct an as [k args]. cbn [a_kind] in E. subst k. destruct (eff_keep_alive d args a H) as (s & t & i & j & -> & H1 & H2 & ->).
      cbn [set_function at_function fn_keep_alive]. apply Forall2_app; [apply D|]. constructor; [|constructor]. exists s, t. auto.
    + rewrite app_nil_r. assert (E' : fn_keep_alive (at_function (apply_an d an a)) = fn_keep_alive (at_function a)) by (eff H; discriminate).
      rewrite E'. apply D.
  - intros i. rewrite eff_noconvert, (de_noconvert _ _ _ _ D) by exact H. split.
    + intros [(s & H1 & H2)|(H1 & s & H2 & H3)]; exists s; rewrite named_by_snoc; auto.
    + intros (s & H1 & H2). apply named_by_snoc in H1 as [H1|[H1 H3]]; eauto 6.
  - intros i. rewrite eff_required, (de_required _ _ _ _ D) by exact H. split.
    + intros [(s & H1 & H2)|(H1 & s & H2 & H3)]; exists s; rewrite named_by_snoc; auto.
    + intros (s & H1 & H2). apply named_by_snoc in H1 as [H1|[H1 H3]]; eauto 6.
  - rewrite eff_policy by exact H. apply latest_snoc, D.
Qed.

Lemma described_nil d v : described d v [] (set_visible v default_attrs).
Proof.
  assert (Hg : forall k, ~ given k []) by (intros k (? & [] & _)).
  assert (Hn : forall k s, ~ named_by k [] s) by (intros k s (? & [] & _)).
  constructor; cbn; try (left; split; [reflexivity|intros ? []]; fail); try reflexivity;
    try (split; [discriminate|intros Hx; destruct (Hg _ Hx)]; fail).
  - intros x. split; [intros []|intros (? & ? & [] & _)].
  - intros x. split; [intros []|intros (? & ? & [] & _)].
  - split; [intros Hx; destruct (Hg _ Hx)|reflexivity].
  - intros s. split; [intros []|intros Hx; destruct (Hn _ _ Hx)].
  - intros s. split; [intros []|intros Hx; destruct (Hn _ _ Hx)].
  - constructor.
  - intros i. split; [intros []|intros (s & Hx & _); destruct (Hn _ _ Hx)].
  - intros i. split; [intros []|intros (s & Hx & _); destruct (Hn _ _ Hx)].
Qed.

(** *** The whole loop *)

Lemma errs_iff ds : errs ds = true <-> has_error ds.
Proof. unfold errs, has_error. apply existsb_exists. Qed.

Lemma mk_eq k args an : a_kind an = k -> a_args an = args -> an = mkAnnotation k args.
Proof. destruct an. cbn. congruence. Qed.

(** What is known after processing [ans]. *)
Record processed (d : decl) (init : option bool) (ans : list annotation) (a : attrs) (dss : list (list diag)) : Prop := {
  pr_length : length dss = length ans;
  pr_errors : forall i an ds, nth_error ans i = Some an -> nth_error dss i = Some ds ->
    (has_error ds <-> ~ accepted d (firstn i ans) an);
  pr_visible : latest visibility_of ans init (n_visible (at_named a));
  pr_spelling : latest (spelling_of d) ans [] (n_spelling (at_named a));
  pr_encourage : t_encourage (at_typedef a) = true <-> d_kind d = KTypedef /\ In (mkAnnotation Encourage []) ans;
  pr_expose_here : t_expose_here (at_typedef a) = true <-> d_kind d = KTypedef /\ In (mkAnnotation ExposeHere []) ans;
  pr_described : Forall (fun ds => ~ has_error ds) dss -> described d init ans a
}.

Lemma conflict_b_iff d init ans a dss an : processed d init ans a dss -> wf_b d an = true ->
  (conflict_b an a = true <-> conflict ans an).
Proof.
  intros P Hw. unfold conflict. split.
  - unfold conflict_b. destruct an as [k args]. cbn [a_kind a_args] in *. destruct k; try discriminate; rewrite andb_true_iff, nilb_iff; intros [-> H].
    + apply (pr_encourage _ _ _ _ _ P) in H as [_ H]. split; [auto|]. rewrite !in_app_iff. cbn. auto.
    + apply (pr_expose_here _ _ _ _ _ P) in H as [_ H]. split; [auto|]. rewrite !in_app_iff. cbn. auto.
  - intros [[->| ->] [H1 H2]]; unfold conflict_b; cbn [a_kind a_args nilb andb];
      apply in_app_or in H1, H2; cbn in H1, H2; unfold wf_b in Hw; cbn [a_kind a_args] in Hw;
      apply andb_true_iff in Hw as [Hw _]; apply is_typedef_iff in Hw.
    + apply (pr_encourage _ _ _ _ _ P). split; [exact Hw|]. destruct H2 as [H2|[H2|[]]]; [exact H2|discriminate].
    + apply (pr_expose_here _ _ _ _ _ P). split; [exact Hw|]. destruct H1 as [H1|[H1|[]]]; [exact H1|discriminate].
Qed.

Lemma nth_error_snoc {A} (l : list A) x i y : nth_error (l ++ [x]) i = Some y ->
  (i < length l /\ nth_error l i = Some y) \/ (i = length l /\ x = y).
Proof.
  intros H. destruct (Nat.lt_ge_cases i (length l)) as [Hi|Hi].
  - rewrite nth_error_app1 in H by exact Hi. auto.
  - rewrite nth_error_app2 in H by exact Hi. destruct (i - length l) as [|n] eqn:E; cbn in H.
    + right. split; [lia|congruence].
    + destruct n; discriminate.
Qed.

Lemma processed_all d init : forall ans a dss, process_annotations d ans (set_visible init default_attrs) = Some (a, dss) ->
  processed d init ans a dss.
Proof.
  induction ans as [|an ans IH] using rev_ind; intros a dss H.
  - injection H as <- <-. pose proof (described_nil d init) as D. constructor.
    + reflexivity.
    + intros [|i] an ds Hn; discriminate.
    + apply D.
    + apply D.
    + cbn. split; [discriminate|intros [_ []]].
    + cbn. split; [discriminate|intros [_ []]].
    + intros _. exact D.
  - rewrite process_annotations_snoc in H.
    destruct (process_annotations d ans (set_visible init default_attrs)) as [[a1 dss1]|]; [|discriminate].
    destruct (process_annotation d an a1) as [[a2 ds]|] eqn:Ep; [|discriminate]. injection H as <- <-.
    specialize (IH _ _ eq_refl). pose proof (process_annotation_spec d an a1) as Hs. rewrite Ep in Hs. destruct Hs as (He & Ha & _).
    pose proof (step_named _ _ _ _ _ Ep) as En. pose proof (step_typedef _ _ _ _ _ Ep) as Et.
    assert (Hlast : has_error ds <-> ~ accepted d ans an).
    { rewrite <- errs_iff, He, negb_true_iff. unfold accepted. rewrite <- wf_iff. split.
      - intros Hf [Hw Hc]. rewrite Hw in Hf. cbn in Hf. apply negb_false_iff in Hf. apply (conflict_b_iff _ _ _ _ _ _ IH Hw) in Hf. contradiction.
      - intros Hn. destruct (wf_b d an) eqn:Ew; [|reflexivity]. cbn. apply negb_false_iff.
        destruct (conflict_b an a1) eqn:Ec; [reflexivity|]. exfalso. apply Hn. split; [reflexivity|].
        intros Hc. apply (conflict_b_iff _ _ _ _ _ _ IH Ew) in Hc. congruence. }
    constructor.
    + rewrite !app_length, (pr_length _ _ _ _ _ IH). reflexivity.
    + intros i x ds' Hx Hd. apply nth_error_snoc in Hx as [[Hi Hx]|[-> <-]]; apply nth_error_snoc in Hd as [[Hi' Hd]|[Hi' Hd]].
      * rewrite firstn_app. replace (i - length ans) with 0 by lia. cbn [firstn]. rewrite app_nil_r. eapply pr_errors; eassumption.
      * rewrite (pr_length _ _ _ _ _ IH) in Hi'. lia.
      * rewrite (pr_length _ _ _ _ _ IH) in Hi'. lia.
      * subst ds'. rewrite firstn_app, firstn_all, Nat.sub_diag. cbn [firstn]. rewrite app_nil_r. exact Hlast.
    + rewrite En. cbn [n_visible]. apply latest_snoc, IH.
    + rewrite En. cbn [n_spelling]. apply latest_snoc, IH.
    + rewrite Et. cbn [t_encourage]. rewrite orb_true_iff, !andb_true_iff, is_typedef_iff, akind_eqb_eq, nilb_iff, (pr_encourage _ _ _ _ _ IH), in_app_iff.
      cbn [In]. split.
      * intros [[? ?]|[[? ?] ?]]; [auto|]. split; [assumption|]. right. left. apply mk_eq; assumption.
      * intros [? [?|[->|[]]]]; cbn; auto.
    + rewrite Et. cbn [t_expose_here]. rewrite orb_true_iff, !andb_true_iff, is_typedef_iff, akind_eqb_eq, nilb_iff, (pr_expose_here _ _ _ _ _ IH), in_app_iff.
      cbn [In]. split.
      * intros [[? ?]|[[? ?] ?]]; [auto|]. split; [assumption|]. right. left. apply mk_eq; assumption.
      * intros [? [?|[->|[]]]]; cbn; auto.
    + intros HF. apply Forall_app in HF as [HF1 HF2]. inv HF2. rewrite <- errs_iff, He, negb_true_iff in H1.
      apply not_false_iff_true in H1. rewrite (Ha H1). apply andb_true_iff in H1 as [Hw _]. apply described_snoc; [|exact Hw]. apply IH, HF1.
Qed.

(** *** Texts *)

Lemma consume_front_spec p text rest : consume_front p text = Some rest <-> text = p ++ rest.
Proof.
  revert text. induction p as [|c p IH]; intros text; cbn; [split; congruence|].
  destruct text as [|c' text]; [split; discriminate|]. destruct (ascii_dec c c') as [->|Hc].
  - rewrite IH. split; [intros ->; reflexivity|intros [= ->]; reflexivity].
  - split; [discriminate|]. intros [= <- _]. contradiction.
Qed.

Definition badb (ds : list diag) : bool := match ds with [] => false | _ => true end.

Lemma parse_attrs_carried texts : forall acc ans ds, parse_attrs texts acc = (ans, ds) ->
  exists l, ans = acc ++ l /\ carried texts l (badb ds) /\ Forall (fun e => is_error e = true) ds.
Proof.
  induction texts as [|text texts IH]; intros acc ans ds; cbn [parse_attrs].
  - intros [= <- <-]. exists []. rewrite app_nil_r. split; [reflexivity|]. split; constructor.
  - destruct (consume_front lozenge text) as [rest|] eqn:Ec.
    + apply consume_front_spec in Ec. subst text. destruct (parse_annotations_into rest acc) as [r acc1] eqn:E1.
      destruct (parse_attrs texts acc1) as [acc2 ds2] eqn:E2. intros [= <- <-].
      destruct (IH _ _ _ E2) as (l2 & -> & H2 & F2). destruct r as [[]|e|].
      * apply parse_into_ok in E1 as (l & Hl & ->). exists (l ++ l2). rewrite <- app_assoc. split; [reflexivity|]. split; [|exact F2].
        apply ca_good; assumption.
      * apply parse_error_dead_end in E1 as (pre & post & anns & p & Hl & Hp & Hv & Hd & -> & ->).
        exists (anns ++ l2). rewrite <- app_assoc. split; [reflexivity|]. cbn [app badb]. split; [|constructor; [reflexivity|exact F2]].
        eapply ca_bad; eassumption.
      * exfalso. destruct (parse_into_total rest acc) as (ts & Hts & [(l' & Hg & E)|(pre & post & anns & p & _ & _ & _ & E)]); congruence.
    + intros E. destruct (IH _ _ _ E) as (l2 & -> & H2 & F2). exists l2. split; [reflexivity|]. split; [|exact F2].
      apply ca_other; [|exact H2]. intros rest ->. rewrite (proj2 (consume_front_spec lozenge _ rest) eq_refl) in Ec. discriminate.
Qed.

Lemma carried_unique texts l1 b1 : carried texts l1 b1 -> forall l2 b2, carried texts l2 b2 -> l1 = l2 /\ b1 = b2.
Proof.
  assert (Hclash : forall rest l pre post, denotes rest l -> lexes rest (pre ++ post) -> dead_end pre post -> False).
  { intros rest l pre post (ts & Hts & Hg) Hl Hd. destruct (lexes_total_unique rest) as (ts0 & _ & Hu).
    rewrite (Hu _ Hts), <- (Hu _ Hl) in Hg. exact (g_annotations_no_dead _ _ _ Hg Hd). }
  induction 1 as [|text texts ans bad Hn H IH|rest l texts ans bad Hd H IH|rest pre post l p texts ans bad Hl Hp Hv Hd H IH]; intros l2 b2 H2; inversion H2; subst.
  - auto.
  - auto.
  - exfalso. eapply Hn. reflexivity.
  - exfalso. eapply Hn. reflexivity.
  - exfalso. match goal with Hx : forall rest, _ <> _ |- _ => eapply Hx; reflexivity end.
  - try match goal with Hx : _ = _ |- _ => apply app_inv_head in Hx; subst end.
    match goal with Hx : carried texts _ _ |- _ => destruct (IH _ _ Hx) as [-> ->] end.
    match goal with Hx : denotes rest ?x |- _ => tryif constr_eq x l then fail else rewrite (denotes_unique _ _ _ Hd Hx) end. auto.
  - exfalso. try match goal with Hx : _ = _ |- _ => apply app_inv_head in Hx; subst end. eauto.
  - exfalso. match goal with Hx : forall rest, _ <> _ |- _ => eapply Hx; reflexivity end.
  - exfalso. try match goal with Hx : _ = _ |- _ => apply app_inv_head in Hx; subst end. eauto.
  - try match goal with Hx : _ = _ |- _ => apply app_inv_head in Hx; subst end.
    match goal with Hx : carried texts ?x _, Hc : carried texts ans _ |- _ => tryif constr_eq x ans then fail else destruct (IH _ _ Hx) as [-> ->] end.
    destruct (lexes_total_unique rest) as (ts & _ & Hu).
    match goal with Hx : lexes rest (?q ++ ?r), Hvq : viable ?q, Hdq : dead_end ?q ?r, Hpq : at_position ?q _ _ |- _ =>
      tryif constr_eq q pre then fail else
      (assert (E : pre ++ post = q ++ r) by (rewrite (Hu _ Hl), (Hu _ Hx); reflexivity);
       destruct (dead_end_unique _ _ _ _ E Hv Hd Hvq Hdq) as [<- <-];
       rewrite (at_position_unique _ _ _ _ _ Hp Hpq)) end. auto.
Qed.

Lemma trim_space_iff c : is_trim_space c = true <-> In (code c) [32; 9; 10; 11; 12; 13]%N.
Proof.
  unfold is_trim_space, is_hspace. rewrite !orb_true_iff, !N.eqb_eq. cbn [In]. intuition.
Qed.

Lemma drop_while_nil_iff p (s : str) : drop_while p s = [] <-> forall c, In c s -> p c = true.
Proof.
  induction s as [|x s IH]; cbn [drop_while].
  - split; [intros _ c []|reflexivity].
  - destruct (p x) eqn:E.
    + rewrite IH. split; [intros H c [<-|Hc]; auto|intros H c Hc; apply H; right; exact Hc].
    + split; [discriminate|]. intros H. rewrite H in E by (left; reflexivity). discriminate.
Qed.

Lemma drop_while_cons p (s : str) : drop_while p s <> [] -> exists c, In c s /\ p c = false.
Proof.
  induction s as [|x s IH]; cbn [drop_while]; [congruence|]. destruct (p x) eqn:E.
  - intros H. destruct (IH H) as (c & Hc & Hp). exists c. split; [right; exact Hc|exact Hp].
  - intros _. exists x. split; [left; reflexivity|exact E].
Qed.

Lemma has_annotations_true d : has_annotations d true = true <-> marked d.
Proof.
  unfold has_annotations, marked. rewrite existsb_exists. split.
  - intros (text & Hin & H). destruct (consume_front lozenge text) as [rest|] eqn:E; [|discriminate].
    apply consume_front_spec in E. subst. eauto.
  - intros (rest & Hin). exists (lozenge ++ rest). split; [exact Hin|]. rewrite (proj2 (consume_front_spec lozenge _ rest) eq_refl). reflexivity.
Qed.

Lemma has_annotations_false d : has_annotations d false = true <-> annotated d.
Proof.
  unfold has_annotations, annotated. rewrite existsb_exists. split.
  - intros (text & Hin & H). destruct (consume_front lozenge text) as [rest|] eqn:E; [|discriminate].
    apply consume_front_spec in E. subst.
    destruct (drop_while_cons is_trim_space rest) as (c & Hc & Hp).
    { intros E. rewrite E in H. discriminate. }
    exists rest, c. split; [exact Hin|]. split; [exact Hc|]. rewrite <- trim_space_iff. congruence.
  - intros (rest & c & Hin & Hc & Hp). exists (lozenge ++ rest). split; [exact Hin|].
    rewrite (proj2 (consume_front_spec lozenge _ rest) eq_refl). destruct (drop_while is_trim_space rest) eqn:E; [|reflexivity].
    exfalso. apply Hp, trim_space_iff. apply (proj1 (drop_while_nil_iff _ _) E). exact Hc.
Qed.

Lemma initial_attrs_eq d : initial_attrs d = set_visible (n_visible (at_named (initial_attrs d))) default_attrs.
Proof. unfold initial_attrs. destruct (_ && _); reflexivity. Qed.

(** Visibility before the annotations are looked at. *)
Lemma initial_visible d :
  (n_visible (at_named (initial_attrs d)) = Some true <-> d_kind d <> KNamespace /\ annotated d) /\
  (n_visible (at_named (initial_attrs d)) = None <-> ~ (d_kind d <> KNamespace /\ annotated d)).
Proof.
  assert (Hn : negb (is_namespace d) = true <-> d_kind d <> KNamespace).
  { rewrite <- is_namespace_iff. destruct (is_namespace d); cbn; split; congruence. }
  unfold initial_attrs. destruct (negb (is_namespace d) && has_annotations d false) eqn:E; cbn.
  - apply andb_true_iff in E as [E1 E2]. apply Hn in E1. apply has_annotations_false in E2. split; split; auto; try discriminate. intros H. exfalso. auto.
  - apply andb_false_iff in E. split; split; try discriminate; try reflexivity.
    + intros [H1 H2]. apply Hn in H1. apply has_annotations_false in H2. destruct E; congruence.
    + intros _ [H1 H2]. apply Hn in H1. apply has_annotations_false in H2. destruct E; congruence.
Qed.

Lemma compute_attrs_processed d a ds : compute_attrs d = Some (a, ds) ->
  exists ans bad dss, carried (d_attrs d) ans bad /\
    processed d (n_visible (at_named (initial_attrs d))) ans a dss /\
    exists pds, ds = supports_typedef_diags d ++ pds ++ concat dss /\ badb pds = bad /\ Forall (fun e => is_error e = true) pds.
Proof.
  unfold compute_attrs. destruct (parse_attrs (d_attrs d) []) as [ans pds] eqn:Ep.
  destruct (process_annotations d ans (initial_attrs d)) as [[a1 dss]|] eqn:Es; [|discriminate]. intros [= <- <-].
  destruct (parse_attrs_carried _ _ _ _ Ep) as (l & -> & Hc & HF). cbn [app] in *.
  exists l, (badb pds), dss. split; [exact Hc|]. split.
  - apply processed_all. rewrite <- initial_attrs_eq. exact Es.
  - exists pds. auto.
Qed.

(** The run goes wrong exactly for an annotation that has no meaning on an
    alias without supported target. *)
Lemma process_annotations_none d ans : forall a, process_annotations d ans a = None <->
  unsupported_alias d = true /\ exists an, In an ans /\ applicable d (a_kind an) = false.
Proof.
  induction ans as [|an ans IH]; intros a; cbn [process_annotations].
  - split; [discriminate|intros (_ & x & [] & _)].
  - pose proof (process_annotation_spec d an a) as Hs. destruct (process_annotation d an a) as [[a1 ds]|].
    + destruct Hs as (_ & _ & Hs). transitivity (process_annotations d ans a1 = None).
      { destruct (process_annotations d ans a1) as [[? ?]|]; split; congruence. }
      rewrite IH. split.
      * intros (Hu & x & Hx & Hk). split; [exact Hu|]. exists x. split; [right; exact Hx|exact Hk].
      * intros (Hu & x & [<-|Hx] & Hk); [rewrite (Hs Hu) in Hk; discriminate|]. eauto.
    + split; [|reflexivity]. intros _. destruct Hs as [Hu Hk]. split; [exact Hu|]. exists an. split; [left; reflexivity|exact Hk].
Qed.

Lemma unsupported_alias_iff d : unsupported_alias d = true <-> targetless_alias d.
Proof.
  unfold unsupported_alias, supports_typedef_diags, targetless_alias. rewrite <- is_typedef_iff. fold (marked d). rewrite <- has_annotations_true.
  destruct (is_typedef d), (d_target d), (has_annotations d true); cbn; split; intros; try discriminate; auto;
    repeat match goal with H : _ /\ _ |- _ => destruct H end; discriminate.
Qed.

Lemma alias_applicable d k : d_kind d = KTypedef -> (applicable d k = true <-> alias_kind k).
Proof.
  intros H. unfold alias_kind. destruct k; cbn [applicable]; unfold is_namespace, supports_enum, supports_record, supports_constructor, supports_method,
    is_method_decl, supports_function, supports_field, is_typedef; rewrite ?H; cbn; split; try discriminate; auto 8;
    intros Hx; repeat (destruct Hx as [Hx|Hx]; try discriminate); contradiction.
Qed.

Lemma compute_attrs_none d : compute_attrs d = None <->
  targetless_alias d /\ exists ans bad an, carried (d_attrs d) ans bad /\ In an ans /\ ~ alias_kind (a_kind an).
Proof.
  unfold compute_attrs. destruct (parse_attrs (d_attrs d) []) as [ans pds] eqn:Ep.
  destruct (parse_attrs_carried _ _ _ _ Ep) as (l & E & Hc & HF). cbn [app] in E. subst l.
  transitivity (process_annotations d ans (initial_attrs d) = None).
  { destruct (process_annotations d ans (initial_attrs d)) as [[? ?]|]; split; congruence. }
  rewrite process_annotations_none, unsupported_alias_iff. split.
  - intros (Hu & an & Hin & Hk). split; [exact Hu|]. exists ans, (badb pds), an. split; [exact Hc|]. split; [exact Hin|].
    destruct Hu as [Ht _]. rewrite <- (alias_applicable d) by exact Ht. congruence.
  - intros (Hu & ans' & bad & an & Hc' & Hin & Hk). destruct (carried_unique _ _ _ Hc _ _ Hc') as [<- _]. split; [exact Hu|].
    exists an. split; [exact Hin|]. destruct Hu as [Ht _]. rewrite <- (alias_applicable d) in Hk by exact Ht.
    destruct (applicable d (a_kind an)); congruence.
Qed.

Lemma no_error_concat dss : ~ has_error (concat dss) -> Forall (fun ds => ~ has_error ds) dss.
Proof.
  intros H. apply Forall_forall. intros ds Hin (e & He & Hx). apply H. exists e. split; [|exact Hx]. apply in_concat. eauto.
Qed.

(** ** Storage *)

Lemma lookup_app st i a j : lookup_attrs (st ++ [(i, a)]) j =
  match lookup_attrs st j with Some x => Some x | None => if Nat.eqb j i then Some a else None end.
Proof.
  induction st as [|[k b] st IH]; cbn [app lookup_attrs]; [reflexivity|]. destruct (Nat.eqb j k); [reflexivity|exact IH].
Qed.

Lemma insert_spec decls i st st' ds : insert decls i st = Some (st', ds) ->
  (forall j, j <> i -> lookup_attrs st' j = lookup_attrs st j) /\
  (forall a, lookup_attrs st i = Some a -> lookup_attrs st' i = Some a) /\
  (lookup_attrs st i = None -> d_skip (decls i) = false -> exists a, compute_attrs (decls i) = Some (a, ds) /\ lookup_attrs st' i = Some a) /\
  (lookup_attrs st i <> None -> d_skip (decls i) = false -> st' = st /\ ds = []) /\
  (d_skip (decls i) = true -> st' = st /\ ds = [DInvalidAssumption]).
Proof.
  unfold insert, has. destruct (d_skip (decls i)).
  - intros [= <- <-]. split; [auto|]. split; [auto|]. split; [intros _ E; discriminate E|]. split; [intros _ E; discriminate E|auto].
  - destruct (lookup_attrs st i) as [x|] eqn:El.
    + intros [= <- <-]. split; [auto|]. split; [intros a [= <-]; exact El|]. split; [discriminate|]. split; [auto|discriminate].
    + destruct (compute_attrs (decls i)) as [[a cds]|]; [|discriminate]. intros [= <- <-]. split; [|split; [|split; [|split]]].
      * intros j Hj. rewrite lookup_app. apply Nat.eqb_neq in Hj. rewrite Hj. destruct (lookup_attrs st j); reflexivity.
      * discriminate.
      * intros _ _. exists a. split; [reflexivity|]. rewrite lookup_app, El, Nat.eqb_refl. reflexivity.
      * congruence.
      * discriminate.
Qed.

Lemma insert_idem decls i st st' ds : insert decls i st = Some (st', ds) ->
  insert decls i st' = Some (st', if d_skip (decls i) then [DInvalidAssumption] else []).
Proof.
  intros H. destruct (insert_spec _ _ _ _ _ H) as (_ & H2 & H3 & _ & _). unfold insert. destruct (d_skip (decls i)) eqn:Es; [reflexivity|].
  unfold has. destruct (lookup_attrs st i) as [x|] eqn:El.
  - rewrite (H2 _ eq_refl). reflexivity.
  - destruct (H3 eq_refl eq_refl) as (a & _ & ->). reflexivity.
Qed.

(** The stored attributes after a sequence of insertions. *)
Lemma insert_all_lookup decls is : forall st st' ds, insert_all decls is st = Some (st', ds) -> forall j,
  lookup_attrs st' j =
  match lookup_attrs st j with
  | Some a => Some a
  | None => if existsb (Nat.eqb j) is && negb (d_skip (decls j)) then option_map fst (compute_attrs (decls j)) else None
  end.
Proof.
  induction is as [|i is IH]; intros st st' ds; cbn [insert_all existsb].
  - intros [= <- <-] j. destruct (lookup_attrs st j); reflexivity.
  - destruct (insert decls i st) as [[st1 ds1]|] eqn:Ei; [|discriminate].
    destruct (insert_all decls is st1) as [[st2 ds2]|] eqn:Ea; [|discriminate]. intros [= <- <-] j.
    rewrite (IH _ _ _ Ea j). destruct (insert_spec _ _ _ _ _ Ei) as (H1 & H2 & H3 & H4 & H5).
    destruct (Nat.eqb j i) eqn:Eji.
    + apply Nat.eqb_eq in Eji. subst j. cbn [orb andb]. destruct (lookup_attrs st i) as [x|] eqn:El.
      * rewrite (H2 _ eq_refl). reflexivity.
      * destruct (d_skip (decls i)) eqn:Es.
        -- destruct (H5 eq_refl) as [-> _]. rewrite El, andb_false_r. reflexivity.
        -- destruct (H3 eq_refl eq_refl) as (a & Hc & ->). rewrite Hc. reflexivity.
    + apply Nat.eqb_neq in Eji. rewrite (H1 _ Eji). reflexivity.
Qed.

Lemma insert_all_some decls is : forall st,
  insert_all decls is st = None <-> exists i, In i is /\ lookup_attrs st i = None /\ d_skip (decls i) = false /\ compute_attrs (decls i) = None.
Proof.
  induction is as [|i is IH]; intros st; cbn [insert_all].
  - split; [discriminate|intros (i & [] & _)].
  - destruct (insert decls i st) as [[st1 ds1]|] eqn:Ei.
    + transitivity (insert_all decls is st1 = None).
      { destruct (insert_all decls is st1) as [[? ?]|]; split; congruence. }
      rewrite IH. destruct (insert_spec _ _ _ _ _ Ei) as (H1 & H2 & H3 & H4 & H5). split.
      * intros (j & Hj & El & Es & Ec). exists j. split; [right; exact Hj|]. split; [|auto].
        destruct (Nat.eq_dec j i) as [->|Hji]; [|rewrite <- H1; assumption].
        destruct (lookup_attrs st i) as [x|] eqn:E0; [|reflexivity]. rewrite (H2 _ eq_refl) in El. discriminate.
      * intros (j & [->|Hj] & El & Es & Ec).
        -- destruct (H3 El Es) as (a & Hc & _). congruence.
        -- destruct (Nat.eq_dec j i) as [->|Hji].
           ++ destruct (H3 El Es) as (a & Hc & _). congruence.
           ++ exists j. rewrite H1 by exact Hji. auto.
    + split; [|reflexivity]. intros _. exists i. split; [left; reflexivity|]. unfold insert, has in Ei.
      destruct (d_skip (decls i)); [discriminate|]. destruct (lookup_attrs st i); [discriminate|].
      destruct (compute_attrs (decls i)) as [[? ?]|]; [discriminate|]. auto.
Qed.

Lemma insert_all_order decls is1 is2 st st1 ds1 : (forall i, In i is1 <-> In i is2) ->
  insert_all decls is1 st = Some (st1, ds1) ->
  exists st2 ds2, insert_all decls is2 st = Some (st2, ds2) /\ forall j, lookup_attrs st2 j = lookup_attrs st1 j.
Proof.
  intros Hp H1. destruct (insert_all decls is2 st) as [[st2 ds2]|] eqn:E2.
  - exists st2, ds2. split; [reflexivity|]. intros j. rewrite (insert_all_lookup _ _ _ _ _ E2), (insert_all_lookup _ _ _ _ _ H1).
    assert (E : existsb (Nat.eqb j) is2 = existsb (Nat.eqb j) is1).
    { apply eq_true_iff_eq. rewrite !existsb_exists. split; intros (x & Hx & Ex); exists x; (split; [apply Hp; exact Hx|exact Ex]). }
    rewrite E. reflexivity.
  - exfalso. apply insert_all_some in E2 as (i & Hi & Hrest). assert (insert_all decls is1 st = None); [|congruence].
    apply insert_all_some. exists i. split; [apply Hp, Hi|exact Hrest].
Qed.

(** ** Spellings *)

Lemma latest_valid d ans v : latest (spelling_of d) ans [] v -> v = [] \/ identifier v.
Proof.
  intros [[-> _]|(l1 & an & l2 & _ & H & _)]; [auto|]. unfold spelling_of in H.
  destruct (a_kind an); try discriminate; destruct (a_args an) as [|[] [|]]; try discriminate.
  - destruct (is_valid_identifier s) eqn:E; [|discriminate]. injection H as <-. right. apply is_valid_identifier_iff, E.
  - injection H as <-. auto.
  - destruct (d_kind d); try discriminate. destruct (is_valid_identifier s) eqn:E; [|discriminate]. injection H as <-. right. apply is_valid_identifier_iff, E.
Qed.

(** ** keep_alive *)

Lemma first_index_unique l s i j : first_index l s i -> first_index l s j -> i = j.
Proof. rewrite <- !index_of_some. congruence. Qed.

Lemma slot_index d n i : ~ In $"return" (d_params d) -> ~ In $"this" (d_params d) -> is_function d ->
  first_index (slots d) n i -> exists s, refers_to d n s /\
    binding_index d s = (if d_static d then match d_kind d with KMethod _ => match i with 0 => Some 0 | 1 => None | S i => Some i end | _ => Some i end else Some i).
Proof.
  intros Hr Ht Hf H. apply index_of_some in H. unfold slots in H. unfold binding_index, has_object.
  assert (Hpar : forall k, index_of n (d_params d) = Some k -> refers_to d n (Param k) /\ Nat.ltb k (length (d_params d)) = true).
  { intros k Hk. apply index_of_some in Hk. split; [exact Hk|]. destruct Hk as [Hk _]. apply Nat.ltb_lt. apply nth_error_Some. congruence. }
  unfold is_function in Hf. cbn [index_of app] in H. destruct (str_eqb $"return" n) eqn:E.
  - apply str_eqb_eq in E. injection H as <-. exists Return. split; [symmetry; exact E|].
    destruct (d_kind d); try contradiction; destruct (d_static d); reflexivity.
  - destruct (d_kind d) eqn:Ek; try contradiction; cbn [index_of app] in H.
    + destruct (index_of n (d_params d)) as [k|] eqn:Ei; [|discriminate]. injection H as <-.
      destruct (Hpar k eq_refl) as [H1 H2]. exists (Param k). split; [exact H1|]. rewrite H2. destruct (d_static d); reflexivity.
    + destruct (str_eqb $"this" n) eqn:E2.
      * apply str_eqb_eq in E2. injection H as <-. exists This. split; [symmetry; exact E2|]. destruct (d_static d); reflexivity.
      * destruct (index_of n (d_params d)) as [k|] eqn:Ei; [|discriminate]. injection H as <-.
        destruct (Hpar k eq_refl) as [H1 H2]. exists (Param k). split; [exact H1|]. rewrite H2. destruct (d_static d); reflexivity.
    + destruct (str_eqb $"this" n) eqn:E2.
      * apply str_eqb_eq in E2. injection H as <-. exists This. split; [symmetry; exact E2|]. destruct (d_static d); reflexivity.
      * destruct (index_of n (d_params d)) as [k|] eqn:Ei; [|discriminate]. injection H as <-.
        destruct (Hpar k eq_refl) as [H1 H2]. exists (Param k). split; [exact H1|]. rewrite H2. destruct (d_static d); reflexivity.
    + destruct (str_eqb $"this" n) eqn:E2.
      * apply str_eqb_eq in E2. injection H as <-. exists This. split; [symmetry; exact E2|]. destruct (d_static d); reflexivity.
      * destruct (index_of n (d_params d)) as [k|] eqn:Ei; [|discriminate]. injection H as <-.
        destruct (Hpar k eq_refl) as [H1 H2]. exists (Param k). split; [exact H1|]. rewrite H2. destruct (d_static d); reflexivity.
Qed.
