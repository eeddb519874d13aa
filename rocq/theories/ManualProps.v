(** * Properties of when manual bindings are executed *)
From Coq Require Import Sorting.Permutation Sorting.Sorted.
From Verif Require Import Base ParserModel StringModel StringSpec AnnotModel AnnotSpec CollectModel CollectSpec GraphModel GraphSpec GraphWalk GraphPlace GraphFinal GraphProps
  OrderModel OrderSpec OrderProofs OrderProps InlineModel InlineSpec InlineProofs EmitModel EmitSpec EmitProofs EmitFinal EmitProps ModuleModel ModuleSpec ModuleChunks ModuleProofs ModuleFinal ModuleProps
  ImportSpec ImportProofs ImportProps ExecSpec ExecProofs ExecProps AccessSpec AccessProofs AccessProps ManualSpec ManualProofs.

(** ** C74 *)

(** When a generated module is imported, the manual bindings of each context are
    executed with its object in the order of their declaration, after those of
    contexts that it depends on (compare C30, C32) and first those at the top level;
    finally those that are to be placed at the end. *)
Theorem manual_bindings_are_executed_in_order :
  forall default_holder mro manual fails u w found implicit iteration n name b files rs st', setting u w iteration -> no_variables u w -> 0 < n ->
  generate u w found implicit iteration n name = Some (RGraph b (EWritten files rs st')) ->
  exists g vis order all chunks post, exposed u found implicit name g vis b /\
    generated u w g vis (bs_annotations b) name rs st' order all post /\ layout name post all chunks files /\
    let intros := map (fun e => (ex_id e, ex_intro e)) all in
    let m := IModule name intros (map (fun e => (ex_id e, ex_id e)) all) post in
    filter is_module (concat files) = [m] /\
    (forall e r, all = e :: r -> ex_context e = u_root u) /\
    (NoDup (map fst intros) -> forall s p, run_module mro manual fails default_holder files m = Some (s, p) ->
      (exists steps parts, performed files m s = Some steps /\ effects mro manual fails (map fst (s_types s)) (initial s) steps p /\
        Forall2 (fun e part => exists o ls, value s (ex_id e) = Some o /\ bindings_of u w b name (ex_context e) ls /\ part = map (pair o) ls) all parts /\
        manual_code steps = concat parts ++ map (pair (Mod [])) post) /\
      (nested_blocks u -> agreeing_blocks u (bs_annotations b) g -> distinct_names u (bs_annotations b) g -> usable_bases default_holder w intros ->
       forall e o, In e all -> value s (ex_id e) = Some o -> located u (bs_annotations b) g (ex_context e) o)).
Proof. exact module_bindings. Qed.
Print Assumptions manual_bindings_are_executed_in_order.

(** ** Examples *)

Definition a_block (global : bool) (l : nat) (text : string) : decl := mkDecl KVar [lozenge ++ $text] false [] 0 false false false [] [] (Some l) global None.

(** struct GENPYBIND(visible) S(1) { GENPYBIND_MANUAL({20}) (2) };
    void f(3)() GENPYBIND(visible);
    GENPYBIND_MANUAL({40}) (4)
    GENPYBIND(postamble) GENPYBIND_MANUAL({50}) (5)
    GENPYBIND_MANUAL({60}) (6) *)
Definition parade : unit :=
  mkUnit
    (fun i => match i with
              | 0 => a_decl KOther false None []
              | 1 => a_decl KRecord false None ["visible"]%string
              | 2 => a_block false 20 "manual"
              | 3 => a_decl (KFunction NoOperator) false None ["visible"]%string
              | 4 => a_block true 40 "manual"
              | 5 => a_block true 50 "manual, postamble"
              | _ => a_block true 60 "manual"
              end)
    [Node 1 [Node 2 []]; Node 3 []; Node 4 []; Node 5 []; Node 6 []] 0
    (fun i => match i with 0 => [] | 2 => [1; 0] | _ => [0] end)
    (fun _ => true) (fun _ => false) (fun i => i) (fun _ => false)
    (fun i => match i with 1 => $"S" | 3 => $"f" | _ => $"genpybind_" end) (fun _ => false) N.of_nat.
Definition parade_found (c : nat) : list nat := match c with 0 => [3; 4; 5; 6] | 1 => [2] | _ => [] end.
Definition parade_facts : facts :=
  let w := simple_facts parade no_bases (fun c => match c with 0 => [6; 5; 4; 3; 1] | 1 => [2] | _ => [] end) (fun i => "::S"%string) in
  mkFacts (w_extra w) (w_hierarchy w) (w_members w) (w_results w) (w_qualified w) [4; 5; 6] (w_pop w).
Definition parade_files : list (list item) := Eval vm_compute in files_of parade parade_facts parade_found.
Lemma parade_setting : setting parade parade_facts (@rev nat).
Proof. constructor; [placed_unit [1; 2; 3; 4; 5; 6]|language_facts|exists N.of_nat; exact (pop_first_good parade)|intros l; apply Permutation_rev]. Qed.
Lemma parade_variables : no_variables parade parade_facts.
Proof.
  constructor.
  - intros r k i [].
  - discriminate.
  - intros c x i K. do 7 (destruct c as [|c]; [discriminate K|]). discriminate K.
Qed.

(** Top level, class, end of the module. *)
Example manual_bindings_are_executed_in_order_example :
  no_variables parade parade_facts /\
  (exists b st', generate parade parade_facts parade_found (fun _ => false) (@rev nat) 1 ($"m") = Some (RGraph b (EWritten parade_files [] st')) /\ bs_reports b = []) /\
  (exists intros calls post, module_of parade_files = IModule ($"m") intros calls post /\ NoDup (map fst intros)) /\
  exists s p steps, imported (fun _ => []) parade_files = Some (s, p) /\ performed parade_files (module_of parade_files) s = Some steps /\
    manual_code steps = [(Mod [], 40); (Mod [], 60); (Class 1, 20); (Mod [], 50)].
Proof.
  split; [exact parade_variables|]. split; [apply written_inv; vm_compute; reflexivity|]. split.
  - do 3 eexists. split; [reflexivity|]. cbn. repeat constructor; cbn; intuition discriminate.
  - do 3 eexists. split; [vm_compute; reflexivity|]. split; vm_compute; reflexivity.
Qed.

Lemma parade_importable : importable parade parade_facts parade_found parade_files.
Proof.
  split; [exact parade_setting|]. split; [|split; [apply written_inv; vm_compute; reflexivity|]].
  - intros c d (Kc & _). do 7 (destruct c as [|c]; [discriminate Kc|]). discriminate Kc.
  - do 3 eexists. split; [reflexivity|]. eexists. vm_compute. reflexivity.
Qed.

(** A visible variable with manual bindings, for the end of the module or not. *)
Definition holds_block (u : unit) (i l : nat) (post : bool) : Prop :=
  AccessSpec.says u i (Some true) /\ exists a, own_attributes u i a /\ f_manual (at_field a) = Some l /\ f_postamble (at_field a) = post.
Definition block_of (u : unit) (i : nat) : option (option bool * option nat * bool) :=
  option_map (fun a => (n_visible (at_named a), f_manual (at_field a), f_postamble (at_field a))) (attributes_of u i).
Lemma block_holds u i l post : block_of u i = Some (Some true, Some l, post) -> holds_block u i l post.
Proof.
  unfold block_of. destruct (attributes_of u i) as [a|] eqn:E; [|discriminate]. intros [= V M P]. split.
  - apply attributes_say. rewrite E. cbn. rewrite V. reflexivity.
  - exists a. split; [apply attributes_own, E|auto].
Qed.

(** README: different blocks are emitted in the order in which they are defined.
    The one in the class is defined first but is executed after the one at the top
    level, also without [postamble]. *)
Theorem manual_bindings_are_executed_as_defined_refuted :
  exists u w found files i j k l, importable u w found files /\ (u_location u i < u_location u j)%N /\ holds_block u i k false /\ holds_block u j l false /\
    forall mro, exists s p steps before middle after o, imported mro files = Some (s, p) /\ performed files (module_of files) s = Some steps /\
      manual_code steps = before ++ (Mod [], l) :: middle ++ (o, k) :: after /\ ~ In k (map snd (before ++ middle)) /\ ~ In l (map snd after).
Proof.
  exists parade, parade_facts, parade_found, parade_files, 2, 4, 20, 40. split; [exact parade_importable|]. split; [reflexivity|].
  split; [apply block_holds; vm_compute; reflexivity|]. split; [apply block_holds; vm_compute; reflexivity|].
  intro mro. do 3 eexists. exists [], [(Mod [], 60)], [(Mod [], 50)], (Class 1).
  split; [vm_compute; reflexivity|]. split; [vm_compute; reflexivity|]. split; [vm_compute; reflexivity|]. cbn. split; intuition discriminate.
Qed.
Print Assumptions manual_bindings_are_executed_as_defined_refuted.

(** README: code at the top level is emitted before all bindings that are
    generated.  But classes have been introduced, with their base classes, and
    functions declared earlier at the top level have been defined. *)
Theorem top_level_bindings_are_executed_first_refuted :
  exists u w found files i l r f, importable u w found files /\ holds_block u i l false /\ hd_error (u_contexts u i) = Some (u_root u) /\ kind u r = KRecord /\
    forall mro, exists s p n t rest, imported mro files = Some (s, p) /\ attribute s (Mod []) n = Some (Class r) /\
      performed files (module_of files) s = Some (Statement (Mod []) (Some (Mod [])) t :: rest) /\ mentions t f /\ kind u f = KFunction NoOperator /\ In (Mod [], l) (manual_code rest).
Proof.
  exists parade, parade_facts, parade_found, parade_files, 4, 40, 1, 3. split; [exact parade_importable|].
  split; [apply block_holds; vm_compute; reflexivity|]. split; [reflexivity|]. split; [reflexivity|].
  intro mro. do 2 eexists. exists ($"S"). do 2 eexists. split; [vm_compute; reflexivity|]. split; [vm_compute; reflexivity|]. split; [vm_compute; reflexivity|].
  split; [reflexivity|]. split; [reflexivity|]. left. reflexivity.
Qed.
Print Assumptions top_level_bindings_are_executed_first_refuted.

(** ** C75 *)

(** Executed are exactly the manual bindings that are visible in some exposed
    context, with the object for that context, and those to be placed at the end
    with the module.  Missing: the latter irrespective of their visibility. *)
Theorem visible_manual_bindings_are_executed_partial :
  forall default_holder mro manual fails u w found implicit iteration n name b files rs st', setting u w iteration -> no_variables u w -> 0 < n ->
  generate u w found implicit iteration n name = Some (RGraph b (EWritten files rs st')) ->
  exists g vis order all chunks post, exposed u found implicit name g vis b /\
    generated u w g vis (bs_annotations b) name rs st' order all post /\ layout name post all chunks files /\
    let intros := map (fun e => (ex_id e, ex_intro e)) all in
    let m := IModule name intros (map (fun e => (ex_id e, ex_id e)) all) post in
    (NoDup (map fst intros) -> forall s p, run_module mro manual fails default_holder files m = Some (s, p) ->
      exists steps, performed files m s = Some steps /\ forall o l, In (o, l) (manual_code steps) <->
        (exists e i, In e all /\ value s (ex_id e) = Some o /\ declared_in u w b (ex_context e) i /\ is_variable u i = true /\ binding u b name (ex_context e) i l) \/
        (o = Mod [] /\ exists i a, In i (w_variables w) /\ supports_field (u_decls u i) = true /\ lookup_attrs (bs_annotations b) i = Some a /\ f_manual (at_field a) = Some l /\ f_postamble (at_field a) = true)).
Proof. exact module_executed. Qed.
Print Assumptions visible_manual_bindings_are_executed_partial.

(** GENPYBIND(hidden) GENPYBIND_MANUAL({10}) (1)
    GENPYBIND(postamble, hidden) GENPYBIND_MANUAL({20}) (2)
    GENPYBIND_MANUAL({30}) (3)
    struct GENPYBIND(hidden) S(4) { GENPYBIND_MANUAL({50}) (5) }; *)
Definition curtain : unit :=
  mkUnit
    (fun i => match i with
              | 0 => a_decl KOther false None []
              | 1 => a_block true 10 "manual, hidden"
              | 2 => a_block true 20 "manual, postamble, hidden"
              | 3 => a_block true 30 "manual"
              | 4 => a_decl KRecord false None ["hidden"]%string
              | _ => a_block false 50 "manual"
              end)
    [Node 1 []; Node 2 []; Node 3 []; Node 4 [Node 5 []]] 0
    (fun i => match i with 0 => [] | 5 => [4; 0] | _ => [0] end)
    (fun _ => true) (fun _ => false) (fun i => i) (fun _ => false)
    (fun i => match i with 4 => $"S" | _ => $"genpybind_" end) (fun _ => false) N.of_nat.
Definition curtain_found (c : nat) : list nat := match c with 0 => [1; 2; 3] | _ => [] end.
Definition curtain_facts : facts :=
  let w := simple_facts curtain no_bases (fun c => match c with 0 => [1; 2; 3; 4] | 4 => [5] | _ => [] end) (fun i => "::S"%string) in
  mkFacts (w_extra w) (w_hierarchy w) (w_members w) (w_results w) (w_qualified w) [1; 2; 3] (w_pop w).
Definition curtain_files : list (list item) := Eval vm_compute in files_of curtain curtain_facts curtain_found.
Lemma curtain_setting : setting curtain curtain_facts (@rev nat).
Proof. constructor; [placed_unit [1; 2; 3; 4; 5]|language_facts|exists N.of_nat; exact (pop_first_good curtain)|intros l; apply Permutation_rev]. Qed.
Lemma curtain_variables : no_variables curtain curtain_facts.
Proof.
  constructor.
  - intros r k i [].
  - discriminate.
  - intros c x i K. do 7 (destruct c as [|c]; [discriminate K|]). discriminate K.
Qed.
Lemma curtain_importable : importable curtain curtain_facts curtain_found curtain_files.
Proof.
  split; [exact curtain_setting|]. split; [|split; [apply written_inv; vm_compute; reflexivity|]].
  - intros c d (Kc & _). do 7 (destruct c as [|c]; [discriminate Kc|]). discriminate Kc.
  - do 3 eexists. split; [reflexivity|]. eexists. vm_compute. reflexivity.
Qed.

(** Neither the hidden one nor the one in the hidden class. *)
Example visible_manual_bindings_are_executed_example :
  importable curtain curtain_facts curtain_found curtain_files /\ no_variables curtain curtain_facts /\
  AccessSpec.says curtain 1 (Some false) /\ AccessSpec.says curtain 3 (Some true) /\
  (exists intros calls post, module_of curtain_files = IModule ($"m") intros calls post /\ NoDup (map fst intros)) /\
  exists s p steps, imported (fun _ => []) curtain_files = Some (s, p) /\ performed curtain_files (module_of curtain_files) s = Some steps /\
    manual_code steps = [(Mod [], 30); (Mod [], 20)].
Proof.
  split; [exact curtain_importable|]. split; [exact curtain_variables|]. split; [apply attributes_say; vm_compute; reflexivity|]. split; [apply attributes_say; vm_compute; reflexivity|]. split.
  - do 3 eexists. split; [reflexivity|]. cbn. repeat constructor; cbn; intuition discriminate.
  - do 3 eexists. split; [vm_compute; reflexivity|]. split; vm_compute; reflexivity.
Qed.

(** Hidden manual bindings are executed if they are to be placed at the end. *)
Theorem hidden_manual_bindings_are_not_executed_refuted :
  exists u w found files i l a, importable u w found files /\ AccessSpec.says u i (Some false) /\ own_attributes u i a /\ f_manual (at_field a) = Some l /\
    forall mro, exists s p steps, imported mro files = Some (s, p) /\ performed files (module_of files) s = Some steps /\ In (Mod [], l) (manual_code steps).
Proof.
  assert (A : exists a, attributes_of curtain 2 = Some a /\ f_manual (at_field a) = Some 20) by (eexists; split; vm_compute; reflexivity). destruct A as (a & Ha & Hm).
  exists curtain, curtain_facts, curtain_found, curtain_files, 2, 20, a. split; [exact curtain_importable|]. split; [apply attributes_say; vm_compute; reflexivity|].
  split; [apply attributes_own, Ha|]. split; [exact Hm|]. intro mro. do 3 eexists. split; [vm_compute; reflexivity|]. split; [vm_compute; reflexivity|]. vm_compute. auto.
Qed.
Print Assumptions hidden_manual_bindings_are_not_executed_refuted.
