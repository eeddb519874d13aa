(** * Calls from Python *)
From Coq Require Import Sorting.Permutation.
From Verif Require Import Base ParserModel StringModel AnnotModel AnnotSpec AnnotStore AnnotFinal CollectModel CollectSpec GraphModel GraphSpec GraphWalk GraphPlace GraphProps
  OrderModel OrderSpec OrderProofs OrderProps InlineModel InlineSpec EmitModel EmitSpec EmitProps ModuleModel ModuleSpec ModuleProofs ModuleFinal ModuleProps ImportSpec ImportProofs ImportProps
  ExecSpec ExecProps AccessSpec AccessProps InvalidSpec InvalidProofs DispatchSpec DispatchProofs.

(** ** C82 *)

(** Functions found in the module after import have the parameters they are declared
    with: names, default arguments, which of them must not be converted or None. *)
Theorem parameters_in_python_are_as_declared : forall V (default : nat -> nat -> V) default_holder mro manual fails u w found implicit iteration n name b files rs st' m s p,
  setting u w iteration -> 0 < n -> generate u w found implicit iteration n name = Some (RGraph b (EWritten files rs st')) -> adds_nothing manual ->
  run_module mro manual fails default_holder files m = Some (s, p) ->
  forall o k static l t f ans, own p o k = Some (MFunction static l) -> In t l -> function_of t = Some f ->
  consistent u (w_extra w) f -> valid_annotations (u_decls u f) -> carried (d_attrs (u_decls u f)) ans false -> variadic_last (fi_params (x_fn (w_extra w) f)) ->
  (is_method_of o t = true <-> takes_self u o f) /\ as_declared (default f) (fi_params (x_fn (w_extra w) f)) ans (is_method_of o t) (formals default o t).
Proof. intros V default. exact (overloads_declared (fun _ => true) default (fun _ _ _ _ => true)). Qed.
Print Assumptions parameters_in_python_are_as_declared.

(** A call reaches the first function for which there are suitable arguments, without
    conversions if possible; if there is none it is rejected. *)
Theorem calls_reach_the_first_suitable_function : forall V (is_none : V -> bool) default accepts x o l pos kw, proper_keywords kw ->
  (forall t, In t l -> distinct_formals (formals default o t)) -> sensible accepts o l ->
  (forall t bi, dispatch is_none default accepts x o l pos kw = Some (t, bi) <-> chosen is_none default accepts x o l pos kw t bi) /\
  (dispatch is_none default accepts x o l pos kw = None <-> forall t bi, In t l -> ~ suits is_none default accepts x o true pos kw t bi).
Proof. intros V is_none default accepts x o l pos kw Pk Di Se. split; [intros t bi; apply dispatch_chosen; assumption|apply dispatch_none; assumption]. Qed.
Print Assumptions calls_reach_the_first_suitable_function.

(** In all calls accepted the values for the parameters as declared are those given by
    position or name, or else the default arguments.  They are never None if
    required and not converted if not wanted. *)
Theorem calls_respect_declarations : forall V (is_none : V -> bool) default accepts default_holder mro manual fails u w found implicit iteration n name b files rs st' m s p,
  setting u w iteration -> 0 < n -> generate u w found implicit iteration n name = Some (RGraph b (EWritten files rs st')) -> adds_nothing manual ->
  run_module mro manual fails default_holder files m = Some (s, p) ->
  forall o k static l t f ans pos kw bi convert, own p o k = Some (MFunction static l) -> In t l -> function_of t = Some f ->
  consistent u (w_extra w) f -> valid_annotations (u_decls u f) -> carried (d_attrs (u_decls u f)) ans false -> variadic_last (fi_params (x_fn (w_extra w) f)) ->
  suits is_none default accepts (w_extra w) o convert pos kw t bi ->
  exists self, (takes_self u o f <-> self = 1) /\ (~ takes_self u o f <-> self = 0) /\
    forall j q, nth_error (filter is_ordinary (fi_params (x_fn (w_extra w) f))) j = Some q ->
      exists v, nth_error (bi_values bi) (self + j) = Some v /\ source pos kw (self + j) q (default f j) v /\
        (own_name (fi_params (x_fn (w_extra w) f)) j q ->
          (named_by Required ans (pm_name q) -> is_none v = false) /\ (named_by Noconvert ans (pm_name q) -> accepts t (self + j) false v = true)).
Proof. exact @calls_honoured. Qed.
Print Assumptions calls_respect_declarations.

(** ** Example *)

(** struct GENPYBIND(visible) S(1) {
      void f(2)(int a, S *b = &origin) GENPYBIND(noconvert(a), required(b));
      void f(3)(double x, pybind11::kwargs k);
    }; *)
Definition desk : unit :=
  mkUnit
    (fun i => match i with
              | 0 => a_decl KOther false None []
              | 1 => a_decl KRecord false None ["visible"]%string
              | 2 => mkDecl (KMethod NoOperator) [lozenge ++ $"noconvert(a), required(b)"] false [$"a"; $"b"] 0 true false false [] [] None false None
              | _ => mkDecl (KMethod NoOperator) [] false [$"x"; $"k"] 0 true false false [] [] None false None
              end)
    [Node 1 [Node 2 []; Node 3 []]] 0
    (fun i => match i with 0 => [] | 1 => [0] | _ => [1; 0] end)
    (fun _ => true) (fun _ => false) (fun i => i) (fun _ => false)
    (fun i => match i with 1 => $"S" | _ => $"f" end) (fun _ => false) N.of_nat.

Definition desk_fn (i : nat) : fn :=
  match i with
  | 2 => a_fn [a_param "a" (plain_type 1); mkParam ($"b") (plain_type 2) None (Some ($"&origin"))] None
  | 3 => a_fn [a_param "x" (plain_type 3); mkParam ($"k") (plain_type 4) (Some Kwargs) None] None
  | _ => a_fn [] None
  end.
Definition desk_facts : facts :=
  mkFacts (mkExtra desk_fn (fun _ => false) (fun _ => None) (fun _ => false) (fun _ => false) (fun _ => false) (fun _ => None) (fun _ _ => []))
    no_bases (fun i => a_member (is_tag_kind (kind desk i))) (fun c => map (fun i => mkFound i None false) (match c with 1 => [2; 3] | _ => [1] end)) (fun i => $"::S") [] (pop_first desk).

Lemma desk_setting : setting desk desk_facts (@rev nat).
Proof.
  constructor; [placed_unit [1; 2; 3]|language_facts|exists N.of_nat; exact (pop_first_good desk)|intros l; apply Permutation_rev].
Qed.

Definition desk_files : list (list item) := Eval vm_compute in files_of desk desk_facts (fun _ => []).
Definition desk_overloads : list stmt := Eval vm_compute in
  match outcome (fun _ => []) desk_files [(Class 1, $"f")] with Some [Some (MFunction _ l)] => l | _ => [] end.

(** Objects in Python. *)
Inductive thing := None_ | Int | Float | Index | AnS | Origin.
Definition is_none (v : thing) : bool := match v with None_ => true | _ => false end.
Definition takes (t : stmt) (k : nat) (convert : bool) (v : thing) : bool :=
  match k, function_of t, v with
  | 0, _, (AnS | Origin) => true
  | 1, Some 2, Int => true
  | 1, Some 2, Index => convert
  | 2, Some 2, (AnS | Origin | None_) => true
  | 1, Some 3, Float => true
  | 1, Some 3, (Int | Index) => convert
  | _, _, _ => false
  end.
Definition calling (pos : list thing) (kw : keywords thing) : option (option nat * list thing * keywords thing) :=
  option_map (fun r => (function_of (fst r), bi_values (snd r), bi_kwargs (snd r)))
    (dispatch is_none (fun _ _ => Origin) takes (w_extra desk_facts) (Class 1) desk_overloads pos kw).

Example calls_respect_declarations_example :
  setting desk desk_facts (@rev nat) /\
  (exists b st', generate desk desk_facts (fun _ => []) (fun _ => false) (@rev nat) 1 ($"m") = Some (RGraph b (EWritten desk_files [] st')) /\ bs_reports b = []) /\
  adds_nothing (fun _ _ p => Some p) /\
  (exists s p, run_module (fun _ => []) (fun _ _ p => Some p) (fun _ => false) held_by_default desk_files (module_of desk_files) = Some (s, p) /\ own p (Class 1) ($"f") = Some (MFunction false desk_overloads)) /\
  map function_of desk_overloads = [Some 2; Some 3] /\
  consistent desk (w_extra desk_facts) 2 /\ valid_annotations (u_decls desk 2) /\ variadic_last (fi_params (desk_fn 2)) /\ variadic_last (fi_params (desk_fn 3)) /\
  sensible takes (Class 1) desk_overloads /\ (forall t, In t desk_overloads -> distinct_formals (formals (fun _ _ => Origin) (Class 1) t)) /\
  calling [AnS; Int; AnS] [] = Some (Some 2, [AnS; Int; AnS], []) /\
  calling [AnS; Int] [] = Some (Some 2, [AnS; Int; Origin], []) /\
  calling [AnS] [($"b", AnS); ($"a", Int)] = Some (Some 2, [AnS; Int; AnS], []) /\
  (* required *) calling [AnS; Int; None_] [] = None /\
  (* noconvert *) calling [AnS; Index] [] = Some (Some 3, [AnS; Index], []) /\
  calling [AnS; Float] [($"y", None_)] = Some (Some 3, [AnS; Float], [($"y", None_)]) /\
  calling [AnS; Int; AnS] [($"b", AnS)] = None.
Proof.
  split; [exact desk_setting|]. split; [apply written_inv; vm_compute; reflexivity|]. split; [intros l o p p' E t Ht; injection E as <-; exact Ht|].
  split.
  { destruct (run_module (fun _ => []) (fun _ _ p => Some p) (fun _ => false) held_by_default desk_files (module_of desk_files)) as [[s p]|] eqn:E; [|vm_compute in E; discriminate E].
    exists s, p. split; [reflexivity|]. assert (Ho : outcome (fun _ => []) desk_files [(Class 1, $"f")] = Some [Some (MFunction false desk_overloads)]) by (vm_compute; reflexivity).
    unfold outcome in Ho. rewrite E in Ho. injection Ho as Ho. exact Ho. }
  split; [reflexivity|]. split; [constructor; [reflexivity|discriminate]|].
  split.
  { destruct (insert (u_decls desk) 2 []) as [[st ds]|] eqn:E; [|vm_compute in E; discriminate E]. destruct (valid_dec desk 2 st ds E eq_refl) as [H|(d & Hd & _)]; [exact H|].
    assert (ds = []) by (assert (E' : Some (st, ds) = insert (u_decls desk) 2 []) by (symmetry; exact E); vm_compute in E'; injection E' as _ ->; reflexivity). subst ds. destruct Hd. }
  split; [exists (fi_params (desk_fn 2)), []; split; [reflexivity|]; split; [intros q [<-|[<-|[]]]; reflexivity|]; split; [intros q []|auto]|].
  split; [exists [a_param "x" (plain_type 3)], [mkParam ($"k") (plain_type 4) (Some Kwargs) None]; split; [reflexivity|]; split; [intros q [<-|[]]; reflexivity|]; split; [intros q [<-|[]]; reflexivity|right; left; eauto]|].
  split.
  { split.
    - intros t k v Ht. destruct Ht as [<-|[<-|[]]]; destruct k as [|[|[|k]]], v; cbn; intros H; exact H || reflexivity || discriminate H.
    - intros t v Ht _. destruct Ht as [<-|[<-|[]]]; intros H; exact H. }
  split; [|repeat split; vm_compute; reflexivity].
  intros t Ht i j f h nm Hi Hj Hf Hh Hn.
  assert (D : forall fs : list (formal thing), NoDup (map fo_name fs) -> nth_error fs i = Some f -> nth_error fs j = Some h -> i = j).
  { intros fs Nd E1 E2. apply (proj1 (NoDup_nth_error (map fo_name fs)) Nd); [rewrite map_length; apply nth_error_Some; congruence|]. rewrite !nth_error_map, E1, E2. cbn. congruence. }
  destruct Ht as [<-|[<-|[]]]; refine (D _ _ Hi Hj); vm_compute; repeat constructor; cbn; intuition congruence.
Qed.
