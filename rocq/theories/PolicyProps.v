(** * How results of functions are handed over to Python *)
From Coq Require Import Sorting.Permutation.
From Verif Require Import Base ParserModel StringModel AnnotModel AnnotSpec AnnotStore AnnotFinal CollectModel CollectSpec GraphModel GraphSpec GraphWalk GraphPlace GraphProps
  OrderModel OrderSpec OrderProofs OrderProps InlineModel InlineSpec EmitModel EmitSpec EmitProps ModuleModel ModuleSpec ModuleProofs ModuleFinal ModuleProps ImportSpec ImportProofs ImportProps
  ExecSpec ExecProps AccessSpec AccessProps InvalidSpec InvalidProofs DispatchSpec DispatchProofs PolicySpec PolicyProofs.

(** ** C96 *)

(** An object returned for the first time is new in Python and has the content of the
    original; whatever happens later, it is a separate object, the same one, one that
    keeps its parent alive, or one that owns the original, as the annotation says.
    Nothing else changes.  Partial: not for getters and operators. *)
Theorem results_are_handed_over_as_annotated_partial : forall default_holder mro manual fails u w found implicit iteration n name b files rs st' m s p,
  setting u w iteration -> 0 < n -> generate u w found implicit iteration n name = Some (RGraph b (EWritten files rs st')) -> adds_nothing manual ->
  run_module mro manual fails default_holder files m = Some (s, p) ->
  forall V copyable movable (moved : V -> V) es1 t k parent h r es2 s1 s2 s3 tr, to_return u p t k -> expected k h tr ->
  steps copyable movable moved at_start es1 s1 -> step copyable movable moved s1 (EReturn t parent h (Some r)) s2 -> steps copyable movable moved s2 es2 s3 ->
  ~ In (EDrop r) es2 -> (forall a q, location_of h = Some a -> ~ registered s1 a q) ->
  rt_objects s1 r = None /\ content s2 r = (match h with ByValue v => Some v | _ => match location_of h with Some a => rt_memory s1 a | None => None end end) /\
  (forall a, rt_memory s1 a <> None -> k <> $"move" \/ location_of h <> Some a -> rt_memory s2 a = rt_memory s1 a) /\
  treated copyable movable moved tr h parent s1 s3 r.
Proof. exact @returned_as_annotated. Qed.
Print Assumptions results_are_handed_over_as_annotated_partial.

(** Dropping an object in Python destroys an object in C++ only if it has been
    constructed for it, or handed over to it by a function with a policy that says so. *)
Theorem python_destroys_only_what_it_owns_partial : forall default_holder mro manual fails u w found implicit iteration n name b files rs st' m s p,
  setting u w iteration -> 0 < n -> generate u w found implicit iteration n name = Some (RGraph b (EWritten files rs st')) -> adds_nothing manual ->
  run_module mro manual fails default_holder files m = Some (s, p) ->
  forall V copyable movable (moved : V -> V) es s1 r s2 a, steps copyable movable moved at_start es s1 ->
  (forall t parent h result, In (EReturn t parent h result) es -> exists k, to_return u p t k) ->
  step copyable movable moved s1 (EDrop r) s2 -> rt_memory s1 a <> None -> rt_memory s2 a = None ->
  (exists v, In (EConstruct r a v) es) \/
  exists t parent h k, In (EReturn t parent h (Some r)) es /\ to_return u p t k /\ (location_of h <> Some a \/ expected k h Owned).
Proof. exact @destroyed_by_python. Qed.
Print Assumptions python_destroys_only_what_it_owns_partial.

(** With a known policy the result can be handed over, if the object exists and its class
    can be copied; references inside of an object need that object as first argument. *)
Theorem results_can_be_handed_over_partial : forall default_holder mro manual fails u w found implicit iteration n name b files rs st' m s p,
  setting u w iteration -> 0 < n -> generate u w found implicit iteration n name = Some (RGraph b (EWritten files rs st')) -> adds_nothing manual ->
  run_module mro manual fails default_holder files m = Some (s, p) ->
  forall V copyable movable (moved : V -> V) es s1 t k parent h tr, steps copyable movable moved at_start es s1 -> to_return u p t k -> expected k h tr -> In k (map fst expectations) ->
  (forall a, location_of h = Some a -> rt_memory s1 a <> None /\ copyable a = true) ->
  (forall q, parent = Some q -> rt_objects s1 q <> None) -> (tr = Inside -> parent <> None) -> exists result s2, step copyable movable moved s1 (EReturn t parent h result) s2.
Proof. exact @returns_succeed. Qed.
Print Assumptions results_can_be_handed_over_partial.

(** ** Example *)

(** struct GENPYBIND(visible) Number(1) {};
    struct GENPYBIND(visible) Example(2) {
      Number number(3);
      Number &reference(4)();
      Number &inner(5)() GENPYBIND(return_value_policy(..));
      Number &get(6)() GENPYBIND(getter_for(value), return_value_policy(copy));
      Number &operator+(7)() GENPYBIND(return_value_policy(reference));
    };
    Number *make(8)() GENPYBIND(visible); *)
Section Ledger.
Context (policy : string).
Definition ledger : unit :=
  mkUnit
    (fun i => match i with
              | 0 => a_decl KOther false None []
              | 1 | 2 => a_decl KRecord false None ["visible"]%string
              | 3 => a_decl KField false None []
              | 4 => mkDecl (KMethod NoOperator) [] false [] 0 false false false [] [] None false None
              | 5 => mkDecl (KMethod NoOperator) [lozenge ++ $"return_value_policy(" ++ $policy ++ $")"] false [] 0 false false false [] [] None false None
              | 6 => mkDecl (KMethod NoOperator) [lozenge ++ $"getter_for(value), return_value_policy(copy)"] false [] 0 false false false [] [] None false None
              | 7 => mkDecl (KMethod OtherOperator) [lozenge ++ $"return_value_policy(reference)"] false [] 0 false false false [] [] None false None
              | _ => mkDecl (KFunction NoOperator) [lozenge ++ $"visible"] false [] 0 false false false [] [] None false None
              end)
    [Node 1 []; Node 2 [Node 3 []; Node 4 []; Node 5 []; Node 6 []; Node 7 []]; Node 8 []] 0
    (fun i => match i with 0 => [] | 1 | 2 | 8 => [0] | _ => [2; 0] end)
    (fun _ => true) (fun _ => false) (fun i => i) (fun _ => false)
    (fun i => match i with 1 => $"Number" | 2 => $"Example" | 3 => $"number" | 4 => $"reference" | 5 => $"inner" | 6 => $"get" | 7 => $"operator+" | _ => $"make" end) (fun _ => false) N.of_nat.
Definition ledger_fn (i : nat) : fn := match i with 7 => a_fn [] (Some OPlus) | _ => a_fn [] None end.
Definition ledger_found (c : nat) : list nat := match c with 2 => [3; 4; 5; 6; 7] | 0 => [1; 2; 8] | _ => [] end.
Definition ledger_facts : facts :=
  mkFacts (mkExtra ledger_fn (fun _ => false) (fun _ => None) (fun _ => false) (fun _ => false) (fun _ => false) (fun _ => None) (fun _ _ => []))
    no_bases (fun i => a_member (is_tag_kind (kind ledger i))) (fun c => map (fun i => mkFound i None false) (ledger_found c)) (fun i => $"::S") [] (pop_first ledger).

Lemma ledger_setting : setting ledger ledger_facts (@rev nat).
Proof.
  constructor; [placed_unit [1; 2; 3; 4; 5; 6; 7; 8]|language_facts|exists N.of_nat; exact (pop_first_good ledger)|intros l; apply Permutation_rev].
Qed.
End Ledger.

Definition proper_ledger := ledger "reference_internal".
Definition proper_facts := ledger_facts "reference_internal".
Definition proper_files : list (list item) := Eval vm_compute in files_of proper_ledger proper_facts ledger_found.
Definition the_attributes : list (option member) := Eval vm_compute in
  match outcome (fun _ => []) proper_files [(Class 2, $"number"); (Class 2, $"reference"); (Class 2, $"inner"); (Class 2, $"value"); (Class 2, $"__pos__"); (Mod [], $"make")] with Some l => l | None => [] end.
Definition statement_of (m : option member) : stmt := match m with Some (MValue t) => t | Some (MFunction _ (t :: _)) => t | _ => SUnused end.
Definition nth_statement (k : nat) : stmt := statement_of (nth k the_attributes None).

Definition the_field : stmt := Eval vm_compute in nth_statement 0.
Definition the_reference : stmt := Eval vm_compute in nth_statement 1.
Definition the_inner : stmt := Eval vm_compute in nth_statement 2.
Definition the_value : stmt := Eval vm_compute in nth_statement 3.
Definition the_plus : stmt := Eval vm_compute in nth_statement 4.
Definition the_make : stmt := Eval vm_compute in nth_statement 5.

Lemma ledger_run : exists s p, run_module (fun _ => []) (fun _ _ p => Some p) (fun _ => false) held_by_default proper_files (module_of proper_files) = Some (s, p) /\
  own p (Class 2) ($"number") = Some (MValue the_field) /\ own p (Class 2) ($"reference") = Some (MFunction false [the_reference]) /\ own p (Class 2) ($"inner") = Some (MFunction false [the_inner]) /\
  own p (Class 2) ($"value") = Some (MValue the_value) /\ own p (Class 2) ($"__pos__") = Some (MFunction false [the_plus]) /\ own p (Mod []) ($"make") = Some (MFunction false [the_make]).
Proof.
  destruct (run_module (fun _ => []) (fun _ _ p => Some p) (fun _ => false) held_by_default proper_files (module_of proper_files)) as [[s p]|] eqn:E; [|vm_compute in E; discriminate E].
  exists s, p. split; [reflexivity|].
  assert (Ho : outcome (fun _ => []) proper_files [(Class 2, $"number"); (Class 2, $"reference"); (Class 2, $"inner"); (Class 2, $"value"); (Class 2, $"__pos__"); (Mod [], $"make")] =
    Some [Some (MValue the_field); Some (MFunction false [the_reference]); Some (MFunction false [the_inner]); Some (MValue the_value); Some (MFunction false [the_plus]); Some (MFunction false [the_make])]) by (vm_compute; reflexivity).
  unfold outcome in Ho. rewrite E in Ho. injection Ho as H1 H2 H3 H4 H5 H6. repeat (split; [assumption|]). assumption.
Qed.

Lemma ledger_generated : exists b st', generate proper_ledger proper_facts ledger_found (fun _ => false) (@rev nat) 1 ($"m") = Some (RGraph b (EWritten proper_files [] st')) /\ bs_reports b = [].
Proof. apply written_inv. vm_compute. reflexivity. Qed.

Lemma ledger_valid k i st : insert (u_decls (ledger k)) i [] = Some (st, []) -> d_skip (u_decls (ledger k) i) = false -> valid_annotations (u_decls (ledger k) i).
Proof. intros E Hs. destruct (valid_dec (ledger k) i st [] E Hs) as [H|(d & [] & _)]. exact H. Qed.

Lemma no_policy ans : forallb (fun an => match string_of ReturnValuePolicy an with None => true | _ => false end) ans = true -> latest (string_of ReturnValuePolicy) ans [] [].
Proof. intros H. left. split; [reflexivity|]. intros an Hin. rewrite forallb_forall in H. specialize (H an Hin). destruct (string_of ReturnValuePolicy an); [discriminate H|reflexivity]. Qed.
Lemma last_policy l an n : string_of ReturnValuePolicy an = Some n -> latest (string_of ReturnValuePolicy) (l ++ [an]) [] n.
Proof. intros H. right. exists l, an, []. split; [reflexivity|]. split; [exact H|intros ? []]. Qed.

Lemma ledger_policies p : own p (Class 2) ($"number") = Some (MValue the_field) -> own p (Class 2) ($"reference") = Some (MFunction false [the_reference]) ->
  own p (Class 2) ($"inner") = Some (MFunction false [the_inner]) -> own p (Mod []) ($"make") = Some (MFunction false [the_make]) ->
  to_return proper_ledger p the_field ($"reference_internal") /\ to_return proper_ledger p the_reference [] /\ to_return proper_ledger p the_inner ($"reference_internal") /\ to_return proper_ledger p the_make [].
Proof.
  intros O1 O2 O3 O4. split; [exact (tr_field _ _ _ _ _ _ _ O1)|]. split; [|split].
  - apply (tr_function _ _ _ _ _ _ _ 4 [] _ O2); [now left|reflexivity|eapply ledger_valid; [vm_compute; reflexivity|reflexivity]|constructor|apply no_policy; reflexivity].
  - apply (tr_function _ _ _ _ _ _ _ 5 [mkAnnotation ReturnValuePolicy [LString ($"reference_internal")]] _ O3); [now left|reflexivity|eapply ledger_valid; [vm_compute; reflexivity|reflexivity]|apply carried_one; vm_compute; reflexivity|].
    apply (last_policy []). vm_compute. reflexivity.
  - apply (tr_function _ _ _ _ _ _ _ 8 [mkAnnotation Visible []] _ O4); [now left|reflexivity|eapply ledger_valid; [vm_compute; reflexivity|reflexivity]|apply carried_one; vm_compute; reflexivity|apply no_policy; vm_compute; reflexivity].
Qed.

(** An object of class Example, number 0, at location 10; its member at location 11. *)
Notation all := (fun _ : nat => true).
Notation gone := (fun _ : nat => 0).
Definition start : list (event nat) := [EConstruct 0 10 1; ECreate 11 5].
Definition started : runtime nat := mkRuntime (put (put (fun _ => None) 10 (Some 1)) 11 (Some 5)) (put (fun _ => None) 0 (Some (Wraps 10 true))) [].
Lemma started_steps : steps all all gone at_start start started.
Proof.
  eapply steps_cons; [apply step_construct; [reflexivity|split; [reflexivity|intros r (o & E); discriminate E]]|].
  eapply steps_cons; [apply step_create; reflexivity|apply steps_nil].
Qed.
Lemma started_unknown a q : a <> 10 -> ~ registered started a q.
Proof. intros N (o & E). cbn in E. unfold put in E. destruct (Nat.eqb 0 q); [|discriminate E]. injection E as E _. congruence. Qed.

(** example.reference() *)
Definition copied : runtime nat := constructed started 1 12 5.
Lemma copied_step : step all all gone started (EReturn the_reference (Some 0) (ByReference 11) (Some 1)) copied.
Proof.
  eapply step_return; [reflexivity|intros q E; injection E as <-; discriminate|].
  eapply (cv_copy _ _ _ _ _ _ (ByReference 11) 11 5); try reflexivity; [intros q; apply started_unknown; discriminate|].
  split; [reflexivity|]. intros q. apply started_unknown. discriminate.
Qed.

(** example.inner() *)
Definition referred : runtime nat := mkRuntime (rt_memory started) (put (rt_objects started) 1 (Some (Wraps 11 false))) [(1, 0)].
Lemma referred_step t : passed_mode t = Some ReferenceInternal -> step all all gone started (EReturn t (Some 0) (ByReference 11) (Some 1)) referred.
Proof.
  intros M. eapply step_return; [exact M|intros q E; injection E as <-; discriminate|].
  apply (cv_internal all all gone ReferenceInternal (Some 0) started (ByReference 11) 11 1 0); try reflexivity. intros q. apply started_unknown. discriminate.
Qed.

(** make() *)
Definition given_away : runtime nat := mkRuntime (rt_memory started) (put (rt_objects started) 1 (Some (Wraps 11 true))) [].
Lemma given_step : step all all gone started (EReturn the_make None (ByPointer (Some 11)) (Some 1)) given_away.
Proof.
  eapply step_return; [reflexivity|discriminate|].
  apply (cv_own all all gone Automatic None started (ByPointer (Some 11)) 11 1); try reflexivity. intros q. apply started_unknown. discriminate.
Qed.

Example results_are_handed_over_as_annotated_example :
  setting proper_ledger proper_facts (@rev nat) /\
  (exists b st', generate proper_ledger proper_facts ledger_found (fun _ => false) (@rev nat) 1 ($"m") = Some (RGraph b (EWritten proper_files [] st')) /\ bs_reports b = []) /\
  adds_nothing (fun _ _ p => Some p) /\
  exists s p, run_module (fun _ => []) (fun _ _ p => Some p) (fun _ => false) held_by_default proper_files (module_of proper_files) = Some (s, p) /\
    steps all all gone at_start start started /\ (forall q, ~ registered started 11 q) /\
    (* example.reference() *)
    (to_return proper_ledger p the_reference [] /\ expected [] (ByReference 11 : handed nat) Separate /\ step all all gone started (EReturn the_reference (Some 0) (ByReference 11) (Some 1)) copied /\
      (exists s3, steps all all gone copied [EWrite 1 7; EDestroy 11] s3 /\ content s3 1 = Some 7 /\ rt_memory s3 11 = None)) /\
    (* example.inner() *)
    (to_return proper_ledger p the_inner ($"reference_internal") /\ expected ($"reference_internal") (ByReference 11 : handed nat) Inside /\ step all all gone started (EReturn the_inner (Some 0) (ByReference 11) (Some 1)) referred /\
      (exists s3, steps all all gone referred [EWrite 1 7] s3 /\ rt_memory s3 11 = Some 7) /\ (forall s3, ~ step all all gone referred (EDrop 0) s3) /\
      (exists s3, steps all all gone referred [EDrop 1; EDrop 0] s3 /\ rt_memory s3 11 = Some 5 /\ rt_memory s3 10 = None)) /\
    (* example.number *) to_return proper_ledger p the_field ($"reference_internal") /\
    (* make() *)
    (to_return proper_ledger p the_make [] /\ expected [] (ByPointer (Some 11) : handed nat) Owned /\ step all all gone started (EReturn the_make None (ByPointer (Some 11)) (Some 1)) given_away /\
      exists s3, step all all gone given_away (EDrop 1) s3 /\ rt_memory given_away 11 <> None /\ rt_memory s3 11 = None).
Proof.
  split; [apply ledger_setting|]. split; [exact ledger_generated|]. split; [intros l o p p' E t Ht; injection E as <-; exact Ht|].
  destruct ledger_run as (s & p & R & O1 & O2 & O3 & O4 & O5 & O6). exists s, p. split; [exact R|]. clear R.
  split; [exact started_steps|]. split; [intros q; apply started_unknown; discriminate|]. destruct (ledger_policies p O1 O2 O3 O6) as (T1 & T2 & T3 & T4).
  split; [split; [exact T2|]; split; [exists Owned; now left|]; split; [exact copied_step|]|].
  { eexists. split; [|split; [|]]. { eapply steps_cons; [apply (step_write _ _ _ _ 1 7 12); [exists true; reflexivity|discriminate]|]. eapply steps_cons; [apply step_destroy; discriminate|apply steps_nil]. } { reflexivity. } { reflexivity. } }
  split; [split; [exact T3|]; split; [exists Inside; do 7 right; now left|]; split; [apply referred_step; reflexivity|]|].
  { split; [|split].
    - eexists. split; [|]. { eapply steps_cons; [apply (step_write _ _ _ _ 1 7 11); [exists false; reflexivity|discriminate]|apply steps_nil]. } { reflexivity. }
    - intros s3 H. inversion H as [| | | |? Hx Hd|? ? ? Hx Hd| | |]; subst; apply (Hd 1); now left.
    - eexists. split; [|split; [|]].
      { eapply steps_cons; [apply (step_drop _ _ _ _ 1 11 false); [reflexivity|intros q [E|[]]; discriminate E]|]. eapply steps_cons; [apply (step_drop _ _ _ _ 0 10 true); [reflexivity|intros q []]|apply steps_nil]. }
      { reflexivity. } { reflexivity. } }
  split; [exact T1|]. split; [exact T4|]. split; [exists Separate; now left|]. split; [exact given_step|].
  eexists. split; [apply (step_drop _ _ _ _ 1 11 true); [reflexivity|intros q []]|]. split; [discriminate|reflexivity].
Qed.

(** ** What is not as annotated *)

(** Getters: the policy is ignored, the object in Python is always the same as the
    original, even if the annotation asks for a copy. *)
Theorem policies_of_getters_refuted : exists u w found implicit iteration n name b files st' mro manual fails default_holder m s p,
  setting u w iteration /\ 0 < n /\ generate u w found implicit iteration n name = Some (RGraph b (EWritten files [] st')) /\ bs_reports b = [] /\ adds_nothing manual /\
  run_module mro manual fails default_holder files m = Some (s, p) /\
  exists c k g ans, own p (Class c) k = Some (MValue (SProperty k g None)) /\ valid_annotations (u_decls u g) /\ carried (d_attrs (u_decls u g)) ans false /\ latest (string_of ReturnValuePolicy) ans [] ($"copy") /\
    exists es s1 s2 parent a r, steps all all gone at_start es s1 /\ (forall q, ~ registered s1 a q) /\ step all all gone s1 (EReturn (SProperty k g None) (Some parent) (ByReference a) (Some r)) s2 /\
      exists v s3, step all all gone s2 (EWrite r v) s3 /\ rt_memory s2 a <> Some v /\ rt_memory s3 a = Some v.
Proof.
  destruct ledger_generated as (b & st' & G & Rb). destruct ledger_run as (s & p & R & O1 & O2 & O3 & O4 & O5 & O6).
  exists proper_ledger, proper_facts, ledger_found, (fun _ => false), (@rev nat), 1, ($"m"), b, proper_files, st', (fun _ => []), (fun _ _ p => Some p), (fun _ => false), held_by_default, (module_of proper_files), s, p.
  split; [apply ledger_setting|]. split; [lia|]. split; [exact G|]. split; [exact Rb|]. split; [intros l o q q' E t Ht; injection E as <-; exact Ht|]. split; [exact R|]. clear G R.
  exists 2, ($"value"), 6, ([mkAnnotation GetterFor [LString ($"value")]] ++ [mkAnnotation ReturnValuePolicy [LString ($"copy")]]). split; [exact O4|].
  split; [eapply ledger_valid; [vm_compute; reflexivity|reflexivity]|]. split; [apply carried_one; vm_compute; reflexivity|]. split; [apply last_policy; vm_compute; reflexivity|].
  exists start, started, referred, 0, 11, 1. split; [exact started_steps|]. split; [intros q; apply started_unknown; discriminate|]. split; [apply referred_step; reflexivity|].
  exists 7. eexists. split; [apply (step_write _ _ _ _ 1 7 11); [exists false; reflexivity|discriminate]|]. split; [discriminate|reflexivity].
Qed.
Print Assumptions policies_of_getters_refuted.

(** Operators: the policy is ignored, references are always copied. *)
Theorem policies_of_operators_refuted : exists u w found implicit iteration n name b files st' mro manual fails default_holder m s p,
  setting u w iteration /\ 0 < n /\ generate u w found implicit iteration n name = Some (RGraph b (EWritten files [] st')) /\ bs_reports b = [] /\ adds_nothing manual /\
  run_module mro manual fails default_holder files m = Some (s, p) /\
  exists c k sp f l ans, own p (Class c) k = Some (MFunction false [SOperator sp f l]) /\ valid_annotations (u_decls u f) /\ carried (d_attrs (u_decls u f)) ans false /\ latest (string_of ReturnValuePolicy) ans [] ($"reference") /\
    forall V copyable movable (moved : V -> V) s1 s2 parent a r, (forall q, ~ registered s1 a q) -> step copyable movable moved s1 (EReturn (SOperator sp f l) parent (ByReference a) (Some r)) s2 ->
      independent copyable movable moved s2 a r.
Proof.
  destruct ledger_generated as (b & st' & G & Rb). destruct ledger_run as (s & p & R & O1 & O2 & O3 & O4 & O5 & O6).
  exists proper_ledger, proper_facts, ledger_found, (fun _ => false), (@rev nat), 1, ($"m"), b, proper_files, st', (fun _ => []), (fun _ _ p => Some p), (fun _ => false), held_by_default, (module_of proper_files), s, p.
  split; [apply ledger_setting|]. split; [lia|]. split; [exact G|]. split; [exact Rb|]. split; [intros l o q q' E t Ht; injection E as <-; exact Ht|]. split; [exact R|]. clear G R.
  do 2 eexists. do 3 eexists. exists ([] ++ [mkAnnotation ReturnValuePolicy [LString ($"reference")]]). split; [exact O5|].
  split; [eapply ledger_valid; [vm_compute; reflexivity|reflexivity]|]. split; [apply carried_one; vm_compute; reflexivity|]. split; [apply last_policy; vm_compute; reflexivity|].
  intros V copyable movable moved s1 s2 parent a r Nr H. inversion H as [| |? md ? ? ? ? Pm Ex C| | | | | |]; subst. injection Pm as <-.
  inversion C as [| |h0 a' r0 L R|h0 a' v r0 b' L R Ef Cp Mm F U|h0 a' v r0 b' L R Ef Cp Mm F U|h0 a' v r0 b' L R Ef Nm Cp Mm F U|h0 a' r0 L R Ef F|h0 a' r0 L R Ef F|h0 a' r0 q' L R Ef F P]; subst; try discriminate Ef; injection L as <-; [destruct (Nr _ R)|].
  eapply apart_independent; [cbn; apply put_same|]. intros ->. destruct U. congruence.
Qed.
Print Assumptions policies_of_operators_refuted.

(** Objects that are known in Python are not copied: a reference that is returned by copy
    is the object itself, if there is another reference to it in Python already. *)
Theorem copies_of_known_objects_refuted : exists u w found implicit iteration n name b files st' mro manual fails default_holder m s p,
  setting u w iteration /\ 0 < n /\ generate u w found implicit iteration n name = Some (RGraph b (EWritten files [] st')) /\ bs_reports b = [] /\ adds_nothing manual /\
  run_module mro manual fails default_holder files m = Some (s, p) /\
  exists t t', to_return u p t [] /\ to_return u p t' ($"reference_internal") /\
    exists es s1 s2 parent a r, steps all all gone at_start (es ++ [EReturn t' (Some parent) (ByReference a) (Some r)]) s1 /\
      expected [] (ByReference a : handed nat) Separate /\ step all all gone s1 (EReturn t (Some parent) (ByReference a) (Some r)) s2 /\
      exists v s3, step all all gone s2 (EWrite r v) s3 /\ rt_memory s2 a <> Some v /\ rt_memory s3 a = Some v.
Proof.
  destruct ledger_generated as (b & st' & G & Rb). destruct ledger_run as (s & p & R & O1 & O2 & O3 & O4 & O5 & O6).
  exists proper_ledger, proper_facts, ledger_found, (fun _ => false), (@rev nat), 1, ($"m"), b, proper_files, st', (fun _ => []), (fun _ _ p => Some p), (fun _ => false), held_by_default, (module_of proper_files), s, p.
  split; [apply ledger_setting|]. split; [lia|]. split; [exact G|]. split; [exact Rb|]. split; [intros l o q q' E t Ht; injection E as <-; exact Ht|]. split; [exact R|]. clear G R.
  destruct (ledger_policies p O1 O2 O3 O6) as (T1 & T2 & T3 & T4). exists the_reference, the_field. split; [exact T2|]. split; [exact T1|].
  exists start, referred, referred, 0, 11, 1. split; [|split; [exists Owned; now left|]].
  { assert (H := started_steps). unfold start in *. inversion H as [|? ? ? ? ? A B]; subst. inversion B as [|? ? ? ? ? A' B']; subst. inversion B'; subst.
    cbn [app]. eapply steps_cons; [exact A|]. eapply steps_cons; [exact A'|]. eapply steps_cons; [apply referred_step; reflexivity|apply steps_nil]. }
  split; [eapply step_return; [reflexivity|intros q E; injection E as <-; discriminate|]; apply (cv_known all all gone Automatic (Some 0) referred (ByReference 11) 11 1); [reflexivity|exists false; reflexivity]|].
  exists 7. eexists. split; [apply (step_write _ _ _ _ 1 7 11); [exists false; reflexivity|discriminate]|]. split; [discriminate|reflexivity].
Qed.
Print Assumptions copies_of_known_objects_refuted.

(** *** Unknown policies *)

Definition typo_files : list (list item) := Eval vm_compute in files_of (ledger "internal_reference") (ledger_facts "internal_reference") ledger_found.

(** Names that pybind11 does not know are accepted and nothing is reported, but the
    generated code does not compile. *)
Theorem policies_exist_refuted : exists u w found implicit iteration n name b files st' mro manual fails default_holder m s p,
  setting u w iteration /\ 0 < n /\ generate u w found implicit iteration n name = Some (RGraph b (EWritten files [] st')) /\ bs_reports b = [] /\ adds_nothing manual /\
  run_module mro manual fails default_holder files m = Some (s, p) /\
  exists o k t n', own p o k = Some (MFunction false [t]) /\ to_return u p t n' /\ passed_mode t = None.
Proof.
  assert (G : exists b st', generate (ledger "internal_reference") (ledger_facts "internal_reference") ledger_found (fun _ => false) (@rev nat) 1 ($"m") = Some (RGraph b (EWritten typo_files [] st')) /\ bs_reports b = []) by (apply written_inv; vm_compute; reflexivity).
  destruct G as (b & st' & G & Rb).
  destruct (run_module (fun _ => []) (fun _ _ p => Some p) (fun _ => false) held_by_default typo_files (module_of typo_files)) as [[s p]|] eqn:E; [|vm_compute in E; discriminate E].
  assert (Ho : exists t, outcome (fun _ => []) typo_files [(Class 2, $"inner")] = Some [Some (MFunction false [t])] /\ function_of t = Some 5 /\ passed_mode t = None) by (eexists; split; [vm_compute; reflexivity|split; reflexivity]).
  destruct Ho as (t & Ho & Hf & Hp). unfold outcome in Ho. rewrite E in Ho. injection Ho as Ho.
  exists (ledger "internal_reference"), (ledger_facts "internal_reference"), ledger_found, (fun _ => false), (@rev nat), 1, ($"m"), b, typo_files, st', (fun _ => []), (fun _ _ p => Some p), (fun _ => false), held_by_default, (module_of typo_files), s, p.
  split; [apply ledger_setting|]. split; [lia|]. split; [exact G|]. split; [exact Rb|]. split; [intros l o q q' E' t' Ht; injection E' as <-; exact Ht|]. split; [exact E|]. clear G E.
  exists (Class 2), ($"inner"), t, ($"internal_reference"). split; [exact Ho|]. split; [|exact Hp].
  apply (tr_function _ _ _ _ _ _ _ 5 ([] ++ [mkAnnotation ReturnValuePolicy [LString ($"internal_reference")]]) _ Ho); [now left|exact Hf|eapply ledger_valid; [vm_compute; reflexivity|reflexivity]|apply carried_one; vm_compute; reflexivity|].
  apply last_policy. vm_compute. reflexivity.
Qed.
Print Assumptions policies_exist_refuted.
