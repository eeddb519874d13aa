(** * Properties of the bindings emitted for one context *)
From Coq Require Import Sorting.Sorted.
From Verif Require Import Base ParserModel ParserSpec AnnotModel AnnotSpec AnnotProps CollectModel GraphModel GraphSpec GraphProps InlineModel EmitModel EmitSpec EmitProofs EmitMap EmitFold EmitFinal.

(** ** Examples *)

Definition plain_type (n : nat) : type := mkType (COther n) false false.
Definition class_type (r : nat) : type := mkType (CRecord r) true true.
Definition a_param (n : string) (t : type) : param := mkParam ($n) t None None.
Definition a_fn (ps : list param) (op : option opkind) : fn := mkFn ps op false false false NoClass (plain_type 0).

(** A translation unit with the given declarations; [1] is the class or other
    context that is exposed. *)
Definition unit_of (decls : nat -> decl) (names : nat -> string) : unit :=
  mkUnit decls [] 0 (fun _ => []) (fun _ => true) (fun _ => false) (fun i => i) (fun _ => false) (fun i => $(names i)) (fun _ => false) N.of_nat.
Definition extra_of (fns : nat -> fn) : extra :=
  mkExtra fns (fun _ => false) (fun _ => None) (fun _ => false) (fun _ => false) (fun _ => false) (fun _ => None) (fun _ _ => []).

(** class 1 {
      int 2;
      void GENPYBIND(noconvert(b), required(a)) 3(a, b);
      int GENPYBIND(getter_for(p)) 4();  void GENPYBIND(setter_for(p)) 5(v);
      T GENPYBIND() 6 operator+(int);
      void GENPYBIND(hidden) 7();
      1(a) 9;
    };
    T 8 operator-(int, T); *)
Definition zoo_fn (i : nat) : fn :=
  match i with
  | 3 => a_fn [a_param "a" (plain_type 1); a_param "b" (plain_type 2)] None
  | 5 => a_fn [a_param "v" (plain_type 1)] None
  | 6 => a_fn [a_param "o" (plain_type 1)] (Some OPlus)
  | 8 => a_fn [a_param "l" (plain_type 1); a_param "r" (class_type 1)] (Some OMinus)
  | 9 => a_fn [a_param "a" (plain_type 1)] None
  | _ => a_fn [] None
  end.
Definition zoo_decl (i : nat) : decl :=
  let params := map (fun p => string_of_list_ascii (pm_name p)) (fi_params (zoo_fn i)) in
  match i with
  | 2 => plain KField []
  | 3 => callable (KMethod NoOperator) false params ["noconvert(b), required(a)"]%string
  | 4 => callable (KMethod NoOperator) false params ["getter_for(p)"]%string
  | 5 => callable (KMethod NoOperator) false params ["setter_for(p)"]%string
  | 6 => callable (KMethod OtherOperator) false params []
  | 7 => callable (KMethod NoOperator) false params ["hidden"]%string
  | 8 => callable (KFunction OtherOperator) false params []
  | 9 => callable KConstructor false params []
  | _ => plain KRecord []
  end.
Definition zoo : unit := unit_of zoo_decl (fun i => match i with 2 => "x" | 3 => "f" | _ => "other" end)%string.
Definition zoo_run := define zoo (extra_of zoo_fn) (XRecord 1 (mkPolicy [] [])) true [2; 3; 4; 5; 6; 7; 9; 8] [].

Definition no_function_attrs : function_attrs := mkFunction [] [] [] [].

Example zoo_example : match zoo_run with Some (_, ss, rs) => Some (ss, rs) | None => None end =
  Some ([SMember false false ($"x") 2;
         SFunction false ($"f") 3 [mkArg ($"a") false true None; mkArg ($"b") true false None] (mkFunction [] [1] [0] []);
         SOperator ($"__add__") 6 (mkLambda [mkType (CRecord 1) false true; plain_type 1] (plain_type 0) OPlus [Lhs; Rhs]);
         SInit 9 [plain_type 1] [mkArg ($"a") false false None] no_function_attrs;
         SOperator ($"__rsub__") 8 (mkLambda [class_type 1; plain_type 1] (plain_type 0) OMinus [Rhs; Lhs]);
         SProperty ($"p") 4 (Some 5)], []).
Proof. vm_compute. reflexivity. Qed.

Lemma zoo_faithful : faithful zoo [].
Proof. intros i a _ H. discriminate H. Qed.
Lemma zoo_consistent i : In i [2; 3; 4; 5; 6; 7; 9; 8] -> consistent zoo (extra_of zoo_fn) i.
Proof.
  intros H. assert (Hp : d_params (u_decls zoo i) = map pm_name (fi_params (x_fn (extra_of zoo_fn) i))) by (repeat (destruct H as [<-|H]; [reflexivity|]); destruct H).
  constructor; [exact Hp|]. repeat (destruct H as [<-|H]; [try (intros E; vm_compute in E; discriminate E)|]); [..|destruct H]; intros _.
  - exists OPlus. split; [reflexivity|]. split; [discriminate|]. intros _ types r (ps & -> & [[K _]|[_ ->]]); [discriminate|]. cbn. auto.
  - exists OMinus. split; [reflexivity|]. split; [discriminate|]. intros _ types r (ps & -> & [[_ ->]|[K _]]); [|discriminate]. cbn. auto.
Qed.

(** ** C35 *)

(** The statements for a declaration are exactly the ones due to its attributes,
    and there are some only if it is visible: by itself or, if unspecified, by
    the default.  The attributes are those stored before or, if there were none,
    those of its annotations.  The remaining statements are at the end. *)
Theorem visible_declarations_are_emitted :
  forall u x e dv decls st st' ss rs, define u x e dv decls st = Some (st', ss, rs) ->
    let l := flat_map (expand x) decls in
    (exists parts final, ss = concat parts ++ final /\
      Forall2 (fun i part => NoDup part /\ forall t, In t part <-> emitted_for u x e dv st' i t) l parts /\
      Forall (fun s => closing s = true) final) /\
    (forall j a, lookup_attrs st j = Some a -> lookup_attrs st' j = Some a) /\
    (forall j, In j l -> d_skip (u_decls u j) = false -> lookup_attrs st j = None -> exists a, own_attributes u j a /\ lookup_attrs st' j = Some a) /\
    (forall j, ~ In j l \/ d_skip (u_decls u j) = true -> lookup_attrs st' j = lookup_attrs st j).
Proof.
  intros u x e dv decls st st' ss rs D l. destruct (define_spec _ _ _ _ _ _ _ _ _ D) as [(parts & final & H1 & H2 & H3 & _) Hs Ho Hw Hk _ _ _ _].
  split; [exists parts, final; auto|]. split; [exact Hs|]. split; [exact Hw|]. intros j [H|H]; auto.
Qed.
Print Assumptions visible_declarations_are_emitted.

(** Nothing is said about declarations that are hidden, or unspecified where the
    default is hidden. *)
Theorem hidden_declarations_are_not_mentioned :
  forall u x e dv decls st st' ss rs, define u x e dv decls st = Some (st', ss, rs) ->
    forall s i, In s ss -> mentions s i -> In i (flat_map (expand x) decls) /\ exists a, lookup_attrs st' i = Some a /\ shown dv a.
Proof. exact mentioned_is_shown. Qed.
Print Assumptions hidden_declarations_are_not_mentioned.

(** Visible ones that can be bound are. *)
Theorem visible_declarations_are_bound :
  forall u x e dv decls st st' ss rs, define u x e dv decls st = Some (st', ss, rs) ->
    forall i a, In i (flat_map (expand x) decls) -> lookup_attrs st' i = Some a -> shown dv a ->
    (forall k, e = XEnum k -> x_enumerator x i = true -> exists n, In (SValue n i) ss) /\
    ((forall k, e <> XEnum k) -> supports_function (u_decls u i) = true -> kind u i <> KConstructor -> fi_deleted (x_fn x i) = false ->
       (supports_method (u_decls u i) = true -> ~ is_property a) -> (forall r p, e = XRecord r p -> supports_operator (u_decls u i) = false) ->
       exists static n args, In (SFunction static n i args (at_function a)) ss) /\
    ((forall k, e <> XEnum k) -> (forall r p, e <> XRecord r p) -> kind u i = KVar -> f_manual (at_field a) = None -> exists n, In (SVariable n i) ss) /\
    (forall r p, e = XRecord r p -> kind u i = KField \/ kind u i = KVar -> f_manual (at_field a) = None -> exists static readonly n, In (SMember static readonly n i) ss) /\
    (forall r p, e = XRecord r p -> kind u i = KConstructor -> fi_move (x_fn x i) = false -> fi_deleted (x_fn x i) = false -> x_abstract x r = false ->
       exists args, In (SInit i (map pm_type (fi_params (x_fn x i))) args (at_function a)) ss).
Proof. exact visible_bound. Qed.
Print Assumptions visible_declarations_are_bound.

(** The hidden method 7 of the example. *)
Example C35_example : exists st ss rs, zoo_run = Some (st, ss, rs) /\ option_map (fun a => n_visible (at_named a)) (lookup_attrs st 7) = Some (Some false) /\
  forall s, In s ss -> ~ mentions s 7.
Proof.
  destruct zoo_run as [[[st ss] rs]|] eqn:E; [|vm_compute in E; discriminate]. exists st, ss, rs. split; [reflexivity|].
  assert (H : option_map (fun a => n_visible (at_named a)) (lookup_attrs st 7) = Some (Some false)).
  { assert (E' : Some (st, ss, rs) = zoo_run) by (symmetry; exact E). vm_compute in E'. injection E' as -> _ _. vm_compute. reflexivity. }
  split; [exact H|]. intros s Hs Hm. destruct (mentioned_is_shown _ _ _ _ _ _ _ _ _ E s 7 Hs Hm) as (_ & a & Ha & Hsh).
  rewrite Ha in H. cbn in H. injection H as H. destruct Hsh as [Hsh|[Hsh _]]; congruence.
Qed.

(** ** C20 *)

(** Faithful storage is what results from building the graph. *)
Theorem stored_attributes_are_faithful :
  (forall u b, placed u -> build_graph u = Done (true, b) -> faithful u (bs_annotations b)) /\
  (forall u x e dv decls st st' ss rs, define u x e dv decls st = Some (st', ss, rs) -> faithful u st -> faithful u st').
Proof. split; [exact graph_faithful|exact define_faithful]. Qed.
Print Assumptions stored_attributes_are_faithful.

(** Partial: for parameters that are not preceded by variadic ones. *)
Theorem flags_reach_the_named_parameters_partial :
  forall u x e dv decls st st' ss rs, define u x e dv decls st = Some (st', ss, rs) -> faithful u st ->
    forall s f args, In s ss -> has_arguments s f args -> consistent u x f ->
    forall st0 ds, insert (u_decls u) f [] = Some (st0, ds) -> ~ has_error ds ->
    exists ans, carried (d_attrs (u_decls u f)) ans false /\
    forall k p, nth_error (fi_params (x_fn x f)) k = Some p -> (forall q, In q (firstn (S k) (fi_params (x_fn x f))) -> is_ordinary q = true) ->
      exists g, nth_error args k = Some g /\ ar_name g = pm_name p /\ ar_default g = pm_default p /\
      ((forall j q, nth_error (fi_params (x_fn x f)) j = Some q -> pm_name q = pm_name p -> j = k) ->
        (ar_noconvert g = true <-> named_by Noconvert ans (pm_name p)) /\ (ar_required g = true <-> named_by Required ans (pm_name p))).
Proof. exact flags_reach. Qed.
Print Assumptions flags_reach_the_named_parameters_partial.

(** void GENPYBIND(noconvert(x)) 2(pybind11::args a, int x), in a namespace *)
Definition variadic_fn (i : nat) : fn := a_fn [mkParam ($"a") (plain_type 7) (Some Args) None; a_param "x" (plain_type 1)] None.
Definition variadic_unit : unit := unit_of (fun _ => callable (KFunction NoOperator) false ["a"; "x"]%string ["noconvert(x)"]%string) (fun _ => "f"%string).

Theorem flags_reach_the_named_parameters_refuted :
  exists u x e decls st' s f args k p g st0 ans, define u x e true decls [] = Some (st', [s; SUnused], []) /\
    insert (u_decls u) f [] = Some (st0, []) /\ carried (d_attrs (u_decls u f)) ans false /\
    has_arguments s f args /\ consistent u x f /\ nth_error (fi_params (x_fn x f)) k = Some p /\ is_ordinary p = true /\
    args = [g] /\ ar_name g = pm_name p /\ named_by Noconvert ans (pm_name p) /\ ar_noconvert g = false.
Proof.
  destruct (insert (u_decls variadic_unit) 2 []) as [[st0 ds]|] eqn:Ei; [|vm_compute in Ei; discriminate].
  assert (Ed : ds = []) by (assert (E' : Some (st0, ds) = insert (u_decls variadic_unit) 2 []) by (symmetry; exact Ei); vm_compute in E'; injection E' as _ ->; reflexivity).
  subst ds. destruct (no_annotation_is_ignored _ _ _ _ _ Ei eq_refl eq_refl) as (a & ans & bad & Ha & Hc & _ & Hok).
  destruct Hok as (-> & v & _ & De); [intros (d & [] & _)|].
  assert (Hn : In 1 (fn_noconvert (at_function a))).
  { assert (E' : Some (st0, []) = insert (u_decls variadic_unit) 2 []) by (symmetry; exact Ei). vm_compute in E'. injection E' as ->.
    vm_compute in Ha. injection Ha as <-. vm_compute. auto. }
  apply (de_noconvert _ _ _ _ De) in Hn as (s & Hs & Hf & _). cbn in Hf. injection Hf as <-.
  eexists variadic_unit, (extra_of variadic_fn), XContext, [2], _, _, 2, _, 1, _, _, st0, ans.
  split; [vm_compute; reflexivity|]. split; [exact Ei|]. split; [exact Hc|]. split; [left; eexists _, _, _; reflexivity|].
  split; [constructor; [reflexivity|discriminate]|]. split; [vm_compute; reflexivity|]. split; [reflexivity|]. split; [reflexivity|].
  split; [reflexivity|]. split; [exact Hs|reflexivity].
Qed.
Print Assumptions flags_reach_the_named_parameters_refuted.

(** In the example noconvert and required reach [b] and [a]. *)
Example C20_example : exists st ss rs s, zoo_run = Some (st, ss, rs) /\ In s ss /\
  has_arguments s 3 [mkArg ($"a") false true None; mkArg ($"b") true false None] /\ consistent zoo (extra_of zoo_fn) 3 /\ faithful zoo [].
Proof.
  destruct zoo_run as [[[st ss] rs]|] eqn:E; [|vm_compute in E; discriminate]. eexists st, ss, rs, _. split; [reflexivity|].
  assert (E' : Some (st, ss, rs) = zoo_run) by (symmetry; exact E). vm_compute in E'. injection E' as _ -> _.
  split; [right; left; reflexivity|]. split; [left; eexists _, _, _; vm_compute; reflexivity|]. split; [apply zoo_consistent; cbn; auto|exact zoo_faithful].
Qed.

(** ** C46 *)

(** Partial: reported is an ordinary parameter after a keyword-variadic one. *)
Theorem parameters_after_kwargs_are_reported_partial :
  forall u x e dv decls st st' ss rs, define u x e dv decls st = Some (st', ss, rs) ->
    (forall s f args, In s ss -> has_arguments s f args ->
      ((exists k, In (ETrailingParameters f k) rs) <->
       exists i j p q, i < j /\ nth_error (fi_params (x_fn x f)) i = Some p /\ is_kwargs p = true /\ nth_error (fi_params (x_fn x f)) j = Some q /\ is_ordinary q = true)) /\
    (forall f k, In (ETrailingParameters f k) rs -> (exists s args, In s ss /\ has_arguments s f args) /\
      exists p, nth_error (fi_params (x_fn x f)) k = Some p /\ is_kwargs p = true).
Proof. exact variadic_reports. Qed.
Print Assumptions parameters_after_kwargs_are_reported_partial.

Definition kwargs_param : param := mkParam ($"k") (plain_type 8) (Some Kwargs) None.
Definition args_param : param := mkParam ($"a") (plain_type 7) (Some Args) None.
Definition kwargs_unit : unit := unit_of (fun _ => callable (KFunction NoOperator) false ["k"; "a"]%string []) (fun _ => "f"%string).

Example C46_example :
  match define kwargs_unit (extra_of (fun _ => a_fn [kwargs_param; args_param; a_param "a" (plain_type 0)] None)) XContext true [2] [] with
  | Some (_, _, rs) => rs | None => [] end = [ETrailingParameters 2 0].
Proof. vm_compute. reflexivity. Qed.

(** void 2(pybind11::kwargs k, pybind11::args a): no report. *)
Theorem parameters_after_kwargs_are_reported_refuted :
  exists u x e decls st' s f args i j p q, define u x e true decls [] = Some (st', [s; SUnused], []) /\ has_arguments s f args /\ consistent u x f /\
    i < j /\ nth_error (fi_params (x_fn x f)) i = Some p /\ is_kwargs p = true /\ nth_error (fi_params (x_fn x f)) j = Some q.
Proof.
  eexists kwargs_unit, (extra_of (fun _ => a_fn [kwargs_param; args_param] None)), XContext, [2], _, _, 2, _, 0, 1, _, _.
  split; [vm_compute; reflexivity|]. split; [left; eexists _, _, _; reflexivity|]. split; [constructor; [reflexivity|discriminate]|].
  split; [lia|]. repeat split.
Qed.
Print Assumptions parameters_after_kwargs_are_reported_refuted.

(** ** C45 *)

(** Partial: for enumerations for which attributes are stored. *)
Theorem values_are_exported_partial :
  forall u x i dv decls st st' ss rs a, define u x (XEnum i) dv decls st = Some (st', ss, rs) ->
    kind u i = KEnum -> lookup_attrs st i = Some a ->
    (In SExportValues ss <-> e_export_values (at_enum a) = Some true \/ (e_export_values (at_enum a) = None /\ x_scoped x i = false)).
Proof.
  intros u x i dv decls st st' ss rs a D Hk Ha. destruct (define_spec _ _ _ _ _ _ _ _ _ D) as [_ Hs _ _ _ _ _ _ He]. rewrite He. split.
  - intros (j & b & [= <-] & _ & Hl & H). rewrite (Hs _ _ Ha) in Hl. injection Hl as <-. exact H.
  - intros H. exists i, a. split; [reflexivity|]. split; [unfold supports_enum; unfold kind in Hk; rewrite Hk; reflexivity|]. split; [apply Hs, Ha|exact H].
Qed.
Print Assumptions values_are_exported_partial.

(** namespace GENPYBIND(visible) 1 { enum 2 { 3 }; } *)
Definition quiet_enum : unit :=
  mkUnit (fun i => match i with 0 => a_decl KOther false None [] | 1 => a_decl KNamespace false None ["visible"]%string | 2 => a_decl KEnum false None [] | _ => a_decl KOther false None [] end)
    [Node 1 [Node 2 []]] 0 (fun i => match i with 0 => [] | 2 => [1; 0] | 3 => [2; 1; 0] | _ => [0] end)
    (fun _ => true) (fun _ => false) (fun i => i) (fun _ => false) (fun i => match i with 3 => $"value" | _ => $"E" end) (fun _ => false) N.of_nat.
Definition quiet_extra : extra :=
  mkExtra (fun _ => a_fn [] None) (fun _ => false) (fun _ => None) (fun i => Nat.eqb i 3) (fun _ => false) (fun _ => false) (fun _ => None) (fun _ _ => []).

Lemma quiet_placed : placed quiet_enum.
Proof.
  constructor.
  - constructor.
    + change (NoDup [1; 2]). repeat constructor; cbn; intuition congruence.
    + intros n ts m (t & Ht & Hi) Hm Hn Hk. unfold quiet_enum in *. cbn in Ht. destruct Ht as [<-|[]].
      repeat match goal with
        | H : CollectSpec.inside _ (Node _ _) _ |- _ => inversion H; subst; clear H
        | H : In _ (_ :: _) |- _ => destruct H as [<-|H]
        | H : In _ [] |- _ => destruct H
        end; cbn in *; repeat match goal with H : _ \/ _ |- _ => destruct H | H : False |- _ => destruct H end; subst; cbn in *; discriminate.
    + intros i. do 4 (destruct i as [|i]; [cbn; auto; discriminate|]). cbn. discriminate.
  - reflexivity.
  - reflexivity.
  - intros i Hi. change (In i [1; 2]) in Hi. unit_facts.
  - intros a t Ha Hk _ Ht. change (In a [1; 2]) in Ha. repeat (destruct Ha as [<-|Ha]; [discriminate|]). destruct Ha.
Qed.

(** The unscoped enumeration is exposed, its values are not exported. *)
Theorem values_are_exported_refuted :
  exists u x i g' contexts vis warned b decls st' ss, placed u /\
    process u (fun _ => []) (fun _ => false) ($"m") = Done (Pruned g' contexts vis warned b) /\ In i (g_nodes g') /\ lookup_vis vis i = true /\
    kind u i = KEnum /\ x_scoped x i = false /\ u_decls u i = a_decl KEnum false None [] /\
    define u x (XEnum i) (lookup_vis vis i) decls (bs_annotations b) = Some (st', ss, []) /\
    (exists n v, ss = [SValue n v]) /\ ~ In SExportValues ss.
Proof.
  destruct (process quiet_enum (fun _ => []) (fun _ => false) ($"m")) as [[rs|l|g' contexts vis w b]| |] eqn:E; try (vm_compute in E; discriminate).
  assert (Eb : Done (Pruned g' contexts vis w b) = process quiet_enum (fun _ => []) (fun _ => false) ($"m")) by (symmetry; exact E).
  vm_compute in Eb. injection Eb as -> -> -> -> ->.
  eexists quiet_enum, quiet_extra, 2, _, _, _, _, _, [3], _, _. split; [exact quiet_placed|]. split; [exact E|]. split; [cbn; auto|]. split; [reflexivity|].
  split; [reflexivity|]. split; [reflexivity|]. split; [reflexivity|]. split; [vm_compute; reflexivity|]. split; [eexists _, _; reflexivity|].
  intros [H|[]]. discriminate.
Qed.
Print Assumptions values_are_exported_refuted.

Example C45_example :
  match define (unit_of (fun i => match i with 1 => a_decl KEnum false None ["export_values"]%string | _ => a_decl KOther false None [] end) (fun _ => "v"%string)) quiet_extra (XEnum 1) true [3]
    [(1, set_enum (fun _ => mkEnum false (Some true)) default_attrs)] with
  | Some (_, ss, _) => ss | None => [] end = [SValue ($"v") 3; SExportValues].
Proof. vm_compute. reflexivity. Qed.

(** ** C36 *)

(** Operator [f] is bound for a class under the name [n] by lambda [l].  The
    operands of the C++ expression have the types of the operands of [f].  Each
    Python expression that invokes [n] is evaluated as the C++ expression with
    the same operator and the operands in the same positions, or as the mirrored
    comparison.  There is a Python expression with the operator of [f], for which
    the object is on the side where the class is in C++.  The first parameter of
    the lambda is the object. *)
Theorem python_operators_compute_cpp_operators :
  forall u x e dv decls st st' ss rs, define u x e dv decls st = Some (st', ss, rs) ->
    forall n f l, In (SOperator n f l) ss -> consistent u x f ->
    exists r p k types, e = XRecord r p /\ fi_operator (x_fn x f) = Some k /\ operands u x r f types /\
      la_operator l = k /\ la_result l = fi_result (x_fn x f) /\
      map (operand_type l) (la_operands l) = map Some types /\ length (la_types l) = length types /\
      (forall V (meaning : opkind -> list V -> V) form, invoked_by n form -> arity form = length types /\ computes meaning l form) /\
      (n <> [] -> exists form, invoked_by n form /\ symbol form = k /\
         match form, types with Binary _ self_left, t :: _ => self_left = core_eqb (ty_core t) (CRecord r) | _, _ => True end) /\
      ((exists t, In t types /\ ty_core t = CRecord r) -> exists t ts, la_types l = t :: ts /\ ty_core t = CRecord r).
Proof. exact operators_compute. Qed.
Print Assumptions python_operators_compute_cpp_operators.

(** [zoo_example]: [x + 1] and [1 - x]. *)
Example C36_example : exists st ss rs l, zoo_run = Some (st, ss, rs) /\ In (SOperator ($"__rsub__") 8 l) ss /\ consistent zoo (extra_of zoo_fn) 8 /\
  forall V (meaning : opkind -> list V -> V) a b, run_lambda meaning l b a = meaning OMinus [a; b].
Proof.
  destruct zoo_run as [[[st ss] rs]|] eqn:E; [|vm_compute in E; discriminate]. eexists st, ss, rs, _. split; [reflexivity|].
  assert (E' : Some (st, ss, rs) = zoo_run) by (symmetry; exact E). vm_compute in E'. injection E' as _ -> _.
  split; [do 4 right; left; vm_compute; reflexivity|]. split; [apply zoo_consistent; cbn; auto 10|]. reflexivity.
Qed.

(** ** C37 *)

(** Partial: names are missing for [!], [co_await] and compound assignments to
    something else, and only for those. *)
Theorem operators_have_names_partial :
  forall u x e dv decls st st' ss rs, define u x e dv decls st = Some (st', ss, rs) ->
    (forall n f l, In (SOperator n f l) ss -> consistent u x f -> overloadable u x f ->
      (n = [] <-> (la_operands l = [Lhs] /\ (la_operator l = OExclaim \/ la_operator l = OCoawait)) \/
                  (la_operands l = [Rhs; Lhs] /\ compound_assignment (la_operator l) = true))) /\
    (forall n f l f' l', In (SOperator n f l) ss -> In (SOperator n f' l') ss -> consistent u x f -> consistent u x f' ->
      n <> [] -> la_operands l = la_operands l' -> la_operator l = la_operator l').
Proof. exact operator_names. Qed.
Print Assumptions operators_have_names_partial.

(** class 1 { bool 2 operator!(); };  int& 3 operator+=(int&, 1); *)
Definition nameless_fn (i : nat) : fn :=
  match i with 2 => a_fn [] (Some OExclaim) | _ => a_fn [a_param "l" (plain_type 1); a_param "r" (class_type 1)] (Some OPlusEqual) end.
Definition nameless : unit :=
  unit_of (fun i => match i with 2 => callable (KMethod OtherOperator) false [] [] | _ => callable (KFunction OtherOperator) false ["l"; "r"]%string [] end) (fun _ => "op"%string).

Theorem operators_have_names_refuted :
  exists u x r p st' f g l m, define u x (XRecord r p) true (declarations u x r [f]) [] = Some (st', [SOperator [] f l; SOperator [] g m], []) /\
    consistent u x f /\ overloadable u x f /\ consistent u x g /\ overloadable u x g /\ la_operator l = OExclaim /\ la_operator m = OPlusEqual.
Proof.
  eexists (mkUnit (fun i => match i with 1 => a_decl KRecord false None [] | _ => u_decls nameless i end) [] 0 (fun _ => []) (fun _ => true) (fun _ => false) (fun i => i) (fun _ => false) (fun _ => $"op") (fun _ => false) N.of_nat),
    (mkExtra nameless_fn (fun _ => false) (fun _ => None) (fun _ => false) (fun _ => false) (fun _ => false) (fun _ => None) (fun _ k => match k with OPlusEqual => [3] | _ => [] end)),
    1, (mkPolicy [] []), _, 2, 3, _, _.
  split; [vm_compute; reflexivity|]. split; [|split; [|split; [|split; [|split; reflexivity]]]].
  - constructor; [reflexivity|]. intros _. exists OExclaim. split; [reflexivity|]. split; [discriminate|]. intros _ types r (ps & -> & [[K _]|[_ ->]]); [discriminate|]. cbn. auto.
  - intros k r types [= <-] (ps & -> & [[K _]|[_ ->]]); [discriminate|]. reflexivity.
  - constructor; [reflexivity|]. intros _. exists OPlusEqual. split; [reflexivity|]. split; [discriminate|]. intros _ types r (ps & -> & [[_ ->]|[K _]]); [|discriminate]. cbn. auto.
  - intros k r types [= <-] (ps & -> & [[_ ->]|[K _]]); [|discriminate]. reflexivity.
Qed.
Print Assumptions operators_have_names_refuted.

(** ** C38 *)

(** The uses [uss] of methods as getters and setters are those of the
    annotations of visible methods, in order.  For each name with a getter there
    is one property, with the last getter and the last setter; names are in
    lexicographic order.  Reported are the names without getter and, for each
    redefinition, the previous and the new method. *)
Theorem properties_have_one_getter :
  forall u x e dv decls st st' ss rs, define u x e dv decls st = Some (st', ss, rs) ->
    exists uss, Forall2 (method_uses u e dv st') (flat_map (expand x) decls) uss /\
      (forall n g s, In (SProperty n g s) ss <-> last_of (users (concat uss) n false) = Some g /\ s = last_of (users (concat uss) n true)) /\
      StronglySorted str_lt (flat_map (fun s => match s with SProperty n _ _ => [n] | _ => [] end) ss) /\
      (forall m n, In (ENoGetter m n) rs <-> users (concat uss) n false = [] /\ last_of (users (concat uss) n true) = Some m) /\
      (forall m n b q, In (EAlreadyDefined m n b q) rs <-> exists l1 l2, users (concat uss) n b = l1 ++ q :: m :: l2).
Proof. intros u x e dv decls st st' ss rs D. exact (df_properties _ _ _ _ _ _ _ _ _ (define_spec _ _ _ _ _ _ _ _ _ D)). Qed.
Print Assumptions properties_have_one_getter.

(** Getters 2 and 3 for [a], setter 4 for [a] and [b]. *)
Example C38_example :
  match define (unit_of (fun i => match i with
      | 2 => callable (KMethod NoOperator) false [] ["getter_for(a)"]%string
      | 3 => callable (KMethod NoOperator) false [] ["getter_for(a)"]%string
      | _ => callable (KMethod NoOperator) false ["v"]%string ["setter_for(b, a)"]%string end) (fun _ => "m"%string))
    (extra_of (fun _ => a_fn [] None)) (XRecord 1 (mkPolicy [] [])) true [2; 3; 4] [] with
  | Some (_, ss, rs) => Some (ss, rs) | None => None end = Some ([SProperty ($"a") 3 (Some 4)], [EAlreadyDefined 3 ($"a") false 2; ENoGetter 4 ($"b")]).
Proof. vm_compute. reflexivity. Qed.

(** ** C54 *)

(** Partial: excluded are free shift operators with an unnamed class. *)
Theorem emission_never_goes_wrong_partial :
  forall u x e dv decls st, faithful u st ->
    (forall i, In i (flat_map (expand x) decls) -> consistent u x i /\ in_place u e i /\ first_class_named u x i /\ insert (u_decls u) i [] <> None) ->
    define u x e dv decls st <> None.
Proof. exact define_total. Qed.
Print Assumptions emission_never_goes_wrong_partial.

Example C54_example : faithful zoo [] /\ forall i, In i [2; 3; 4; 5; 6; 7; 9; 8] ->
  consistent zoo (extra_of zoo_fn) i /\ in_place zoo (XRecord 1 (mkPolicy [] [])) i /\ first_class_named zoo (extra_of zoo_fn) i /\ insert (u_decls zoo) i [] <> None.
Proof.
  split; [exact zoo_faithful|]. intros i Hi. split; [apply zoo_consistent, Hi|].
  repeat (destruct Hi as [<-|Hi]; [split; [intros E; discriminate E|split; [intros E1 E2; discriminate|destruct (insert _ _ _) eqn:E; [discriminate|vm_compute in E; discriminate E]]]|]). destruct Hi.
Qed.

(** typedef struct {} S;  S& 2 operator<<(S&, 1); *)
Theorem emission_never_goes_wrong_refuted :
  exists u x e decls, define u x e true decls [] = None /\
    forall i, In i (flat_map (expand x) decls) -> consistent u x i /\ in_place u e i /\ insert (u_decls u) i [] <> None.
Proof.
  exists (unit_of (fun _ => callable (KFunction OtherOperator) false ["l"; "r"]%string []) (fun _ => "op"%string)),
    (extra_of (fun _ => mkFn [a_param "l" (plain_type 1); a_param "r" (class_type 1)] (Some OLessLess) false false false Unnamed (plain_type 1))),
    (XRecord 1 (mkPolicy [] [])), [2].
  split; [vm_compute; reflexivity|]. intros i [<-|[]]. split; [|split; [discriminate|]].
  - constructor; [reflexivity|]. intros _. exists OLessLess. split; [reflexivity|]. split; [discriminate|]. intros _ types r (ps & -> & [[_ ->]|[K _]]); [|discriminate]. cbn. auto.
  - destruct (insert _ _ _) eqn:E; [discriminate|vm_compute in E; discriminate].
Qed.
Print Assumptions emission_never_goes_wrong_refuted.

(** ** C55 *)

(** For a class, in addition to its visible members, exactly the free operators
    with a counterpart in Python (and three-way comparisons) are considered that
    are found by argument dependent lookup and have an operand of the class. *)
Theorem free_operators_are_looked_up :
  forall u x r visible i, templates_once x ->
    (In i (flat_map (expand x) (declarations u x r visible)) <-> In i (flat_map (expand x) visible) \/ (kind u r = KRecord /\ associated x r i)).
Proof. exact declarations_iff. Qed.
Print Assumptions free_operators_are_looked_up.

(** If visible and not for output to a stream, they are bound for the Python
    expression with the same operator and operands, if there is one. *)
Theorem free_operators_are_bound :
  forall u x r p dv visible st st' ss rs,
    define u x (XRecord r p) dv (declarations u x r visible) st = Some (st', ss, rs) -> templates_once x -> kind u r = KRecord ->
    forall i, associated x r i \/ In i (flat_map (expand x) visible) -> forall a k types n0 form, lookup_attrs st' i = Some a -> shown dv a ->
    supports_operator (u_decls u i) = true -> fi_operator (x_fn x i) = Some k -> fi_deleted (x_fn x i) = false ->
    ~ (k = OLessLess /\ kind u i = KFunction OtherOperator /\ fi_pointee (x_fn x i) = Named true) ->
    operands u x r i types -> invoked_by n0 form -> corresponds r k types form ->
    exists n l, In (SOperator n i l) ss /\ invoked_by n form.
Proof. exact free_operators_bound. Qed.
Print Assumptions free_operators_are_bound.

(** class 1; 4 operator-(int, 1); template <class T> 5 operator+(T, T), specialisations 6 (int) and 7 (class 1). *)
Definition free_fn (i : nat) : fn :=
  match i with
  | 4 => a_fn [a_param "l" (plain_type 1); a_param "r" (class_type 1)] (Some OMinus)
  | 7 => a_fn [a_param "l" (class_type 1); a_param "r" (class_type 1)] (Some OPlus)
  | _ => a_fn [a_param "l" (plain_type 1); a_param "r" (plain_type 1)] (Some OPlus)
  end.
Definition free : unit :=
  unit_of (fun i => match i with 1 => a_decl KRecord false None [] | _ => callable (KFunction OtherOperator) false ["l"; "r"]%string [] end) (fun _ => "op"%string).
Definition free_extra : extra :=
  mkExtra free_fn (fun _ => false) (fun _ => None) (fun _ => false) (fun _ => false) (fun _ => false)
    (fun i => match i with 5 => Some [6; 7] | _ => None end) (fun _ k => match k with OMinus => [4] | OPlus => [5] | _ => [] end).

Example C55_example :
  templates_once free_extra /\ kind free 1 = KRecord /\ associated free_extra 1 4 /\ associated free_extra 1 7 /\ ~ associated free_extra 1 6 /\
  corresponds 1 OMinus [plain_type 1; class_type 1] (Binary OMinus false) /\
  option_map (fun r => map (fun s => match s with SOperator n i _ => (n, i) | _ => ([], 0) end) (snd (fst r)))
    (define free free_extra (XRecord 1 (mkPolicy [] [])) true (declarations free free_extra 1 []) []) = Some [($"__add__", 7); ($"__rsub__", 4)].
Proof.
  split; [intros i l j H Hj; destruct i as [|[|[|[|[|[|i]]]]]]; try discriminate; injection H as <-; destruct Hj as [<-|[<-|[]]]; reflexivity|].
  split; [reflexivity|]. split; [|split; [|split; [|split; [|vm_compute; reflexivity]]]].
  - split; [|eexists; split; [right; left; reflexivity|reflexivity]]. exists OMinus, 4. split; [left; reflexivity|]. split; [left; reflexivity|]. right.
    exists ($"__sub__"), (Binary OMinus true). split; [|reflexivity]. exists "__sub__"%string, [Binary OMinus true]. cbn. auto 20.
  - split; [|eexists; split; [left; reflexivity|reflexivity]]. exists OPlus, 5. split; [left; reflexivity|]. split; [right; left; reflexivity|]. right.
    exists ($"__add__"), (Binary OPlus true). split; [|reflexivity]. exists "__add__"%string, [Binary OPlus true]. cbn. auto 20.
  - intros (_ & p & Hp & E). cbn in Hp. destruct Hp as [<-|[<-|[]]]; discriminate.
  - repeat split; try discriminate. 
Qed.
