(** * Lifetimes of objects *)
From Coq Require Import Sorting.Permutation.
From Verif Require Import Base ParserModel StringModel AnnotModel AnnotSpec AnnotStore AnnotFinal CollectModel CollectSpec GraphModel GraphSpec GraphWalk GraphPlace GraphProps
  OrderModel OrderSpec OrderProofs OrderProps InlineModel InlineSpec EmitModel EmitSpec EmitProps ModuleModel ModuleSpec ModuleProofs ModuleFinal ModuleProps ImportSpec ImportProofs ImportProps
  ExecSpec ExecProps AccessSpec AccessProps InvalidSpec InvalidProofs DispatchSpec DispatchProofs LifeSpec LifeProofs.

(** ** C92 *)

(** After a call of a function annotated with keep_alive(n, m) the object that m stands
    for exists as long as the one n stands for, whatever else happens.  The call has
    completed, or it has raised an exception for another reason than that pybind11
    can not track the objects.  Partial: not for static member functions. *)
Theorem annotated_objects_are_kept_alive_partial : forall V (is_none : V -> bool) tuple dict referable default accepts default_holder mro manual fails u w found implicit iteration n name b files rs st' m s p,
  setting u w iteration -> 0 < n -> generate u w found implicit iteration n name = Some (RGraph b (EWritten files rs st')) -> adds_nothing manual ->
  run_module mro manual fails default_holder files m = Some (s, p) ->
  forall es1 o t f ans pos kw bi result es2 h v v',
  steps is_none tuple dict referable (w_extra w) nothing (es1 ++ ECall o t pos kw bi result :: es2) h ->
  proper_call is_none default accepts u (w_extra w) p o t f ans pos kw bi ->
  snd (called is_none tuple dict referable (w_extra w) t bi result) <> None \/
    (forall a a', to_be_kept is_none tuple dict default u (w_extra w) o f ans pos kw bi result a a' -> referable a = true) ->
  to_be_kept is_none tuple dict default u (w_extra w) o f ans pos kw bi result v v' -> hp_alive h v -> hp_alive h v'.
Proof. exact @kept_alive. Qed.
Print Assumptions annotated_objects_are_kept_alive_partial.

(** Objects can be destroyed when no other one is left that should keep them alive by
    an annotation. *)
Theorem nothing_else_is_kept_alive_partial : forall V (is_none : V -> bool) tuple dict referable default accepts default_holder mro manual fails u w found implicit iteration n name b files rs st' m s p,
  setting u w iteration -> 0 < n -> generate u w found implicit iteration n name = Some (RGraph b (EWritten files rs st')) -> adds_nothing manual ->
  run_module mro manual fails default_holder files m = Some (s, p) ->
  forall es h, steps is_none tuple dict referable (w_extra w) nothing es h ->
  (forall o t pos kw bi result, In (ECall o t pos kw bi result) es -> exists f ans, proper_call is_none default accepts u (w_extra w) p o t f ans pos kw bi) ->
  forall v', hp_alive h v' ->
    (forall v o t f ans pos kw bi result, hp_alive h v -> In (ECall o t pos kw bi result) es -> proper_call is_none default accepts u (w_extra w) p o t f ans pos kw bi ->
      ~ to_be_kept is_none tuple dict default u (w_extra w) o f ans pos kw bi result v v') ->
    (forall v l, hp_alive h v -> In (EOther l) es -> ~ In (v, v') l) ->
    exists h', step is_none tuple dict referable (w_extra w) h (EDelete v') h' /\ ~ hp_alive h' v'.
Proof. exact @kept_only. Qed.
Print Assumptions nothing_else_is_kept_alive_partial.

(** The annotations do not make calls fail, if the objects can be tracked, and exactly
    the pairs of objects named by them are registered. *)
Theorem calls_register_annotated_pairs_partial : forall V (is_none : V -> bool) tuple dict referable default accepts default_holder mro manual fails u w found implicit iteration n name b files rs st' m s p,
  setting u w iteration -> 0 < n -> generate u w found implicit iteration n name = Some (RGraph b (EWritten files rs st')) -> adds_nothing manual ->
  run_module mro manual fails default_holder files m = Some (s, p) ->
  forall o t f ans pos kw bi result l out, proper_call is_none default accepts u (w_extra w) p o t f ans pos kw bi ->
  called is_none tuple dict referable (w_extra w) t bi result = (l, out) ->
  let kept := to_be_kept is_none tuple dict default u (w_extra w) o f ans pos kw bi result in
  (forall v v', In (v, v') l -> kept v v') /\ (out <> None -> forall v v', kept v v' -> In (v, v') l) /\
  ((forall v v', kept v v' -> referable v = true) -> out = result /\ forall v v', kept v v' -> In (v, v') l).
Proof. exact @kept_pairs. Qed.
Print Assumptions calls_register_annotated_pairs_partial.

(** ** Example *)

(** struct GENPYBIND(visible) Resource(1) {};
    struct GENPYBIND(visible) Container(2) {
      Container(3)(Resource *resource) GENPYBIND(keep_alive(this, resource));
      Container(4)( );
      Resource *get(5)() GENPYBIND(keep_alive(return, this));
      static Container *pick(6)(Container *x) GENPYBIND(keep_alive(return, x));
    };
    void link(7)(Container *container, Resource *resource) GENPYBIND(visible, keep_alive(container, resource)); *)
Definition vault : unit :=
  mkUnit
    (fun i => match i with
              | 0 => a_decl KOther false None []
              | 1 | 2 => a_decl KRecord false None ["visible"]%string
              | 3 => mkDecl KConstructor [lozenge ++ $"keep_alive(this, resource)"] false [$"resource"] 1 true false false [] [] None false None
              | 4 => mkDecl KConstructor [] false [] 0 true false false [] [] None false None
              | 5 => mkDecl (KMethod NoOperator) [lozenge ++ $"keep_alive(return, this)"] false [] 0 false false false [] [] None false None
              | 6 => mkDecl (KMethod NoOperator) [lozenge ++ $"keep_alive(return, x)"] false [$"x"] 1 false true false [] [] None false None
              | _ => mkDecl (KFunction NoOperator) [lozenge ++ $"visible, keep_alive(container, resource)"] false [$"container"; $"resource"] 2 true false false [] [] None false None
              end)
    [Node 1 []; Node 2 [Node 3 []; Node 4 []; Node 5 []; Node 6 []]; Node 7 []] 0
    (fun i => match i with 0 => [] | 1 | 2 | 7 => [0] | _ => [2; 0] end)
    (fun _ => true) (fun _ => false) (fun i => i) (fun _ => false)
    (fun i => match i with 1 => $"Resource" | 2 | 3 | 4 => $"Container" | 5 => $"get" | 6 => $"pick" | _ => $"link" end) (fun _ => false) N.of_nat.

Definition vault_fn (i : nat) : fn :=
  match i with
  | 3 => a_fn [a_param "resource" (class_type 1)] None
  | 6 => a_fn [a_param "x" (class_type 2)] None
  | 7 => a_fn [a_param "container" (class_type 2); a_param "resource" (class_type 1)] None
  | _ => a_fn [] None
  end.
Definition vault_facts : facts :=
  mkFacts (mkExtra vault_fn (fun _ => false) (fun _ => None) (fun _ => false) (fun _ => false) (fun _ => false) (fun _ => None) (fun _ _ => []))
    no_bases (fun i => a_member (is_tag_kind (kind vault i))) (fun c => map (fun i => mkFound i None false) (match c with 2 => [3; 4; 5; 6] | 0 => [1; 2; 7] | _ => [] end)) (fun i => $"::S") [] (pop_first vault).

Lemma vault_setting : setting vault vault_facts (@rev nat).
Proof.
  constructor; [placed_unit [1; 2; 3; 4; 5; 6; 7]|language_facts|exists N.of_nat; exact (pop_first_good vault)|intros l; apply Permutation_rev].
Qed.

Definition vault_found (c : nat) : list nat := match c with 2 => [3; 4; 5; 6] | 0 => [1; 2; 7] | _ => [] end.
Definition vault_files : list (list item) := Eval vm_compute in files_of vault vault_facts vault_found.
Definition vault_overloads (o : object) (k : string) : list stmt :=
  match outcome (fun _ => []) vault_files [(o, $k)] with Some [Some (MFunction _ l)] => l | _ => [] end.
Definition the_init : list stmt := Eval vm_compute in vault_overloads (Class 2) "__init__".
Definition the_pick : list stmt := Eval vm_compute in vault_overloads (Class 2) "pick".
Definition the_link : list stmt := Eval vm_compute in vault_overloads (Mod []) "link".

Lemma vault_run : exists s p, run_module (fun _ => []) (fun _ _ p => Some p) (fun _ => false) held_by_default vault_files (module_of vault_files) = Some (s, p) /\
  own p (Class 2) ($"__init__") = Some (MFunction false the_init) /\ own p (Class 2) ($"pick") = Some (MFunction true the_pick) /\ own p (Mod []) ($"link") = Some (MFunction false the_link).
Proof.
  destruct (run_module (fun _ => []) (fun _ _ p => Some p) (fun _ => false) held_by_default vault_files (module_of vault_files)) as [[s p]|] eqn:E; [|vm_compute in E; discriminate E].
  exists s, p. split; [reflexivity|].
  assert (Ho : outcome (fun _ => []) vault_files [(Class 2, $"__init__"); (Class 2, $"pick"); (Mod [], $"link")] = Some [Some (MFunction false the_init); Some (MFunction true the_pick); Some (MFunction false the_link)]) by (vm_compute; reflexivity).
  unfold outcome in Ho. rewrite E in Ho. injection Ho as H1 H2 H3. auto.
Qed.

(** Objects in Python. *)
Inductive thing := None_ | Resource (n : nat) | Container (n : nat) | Tuple (l : list thing) | Dict (l : list (str * thing)).
Definition is_none (v : thing) : bool := match v with None_ => true | _ => false end.
Definition tracked (v : thing) : bool := match v with Resource _ | Container _ => true | _ => false end.

Definition calls (o : object) (l : list stmt) (pos : list thing) (kw : keywords thing) (result : option thing) : option (list (thing * thing) * option thing) :=
  option_map (fun r => called is_none Tuple Dict tracked (w_extra vault_facts) (fst r) (snd r) result)
    (dispatch is_none (fun _ _ => None_) (fun _ _ _ _ => true) (w_extra vault_facts) o l pos kw).

Lemma vault_valid i st : insert (u_decls vault) i [] = Some (st, []) -> d_skip (u_decls vault i) = false -> valid_annotations (u_decls vault i).
Proof. intros E Hs. destruct (valid_dec vault i st [] E Hs) as [H|(d & [] & _)]. exact H. Qed.

Definition linking : binding thing := mkBinding [Container 1; Resource 1] [] [].
Definition link_annotations : list annotation := [mkAnnotation Visible []; mkAnnotation KeepAlive [LString ($"container"); LString ($"resource")]].
Definition the_link_function : stmt := Eval vm_compute in hd (SManual 0) the_link.

Example annotated_objects_are_kept_alive_example :
  setting vault vault_facts (@rev nat) /\
  (exists b st', generate vault vault_facts vault_found (fun _ => false) (@rev nat) 1 ($"m") = Some (RGraph b (EWritten vault_files [] st')) /\ bs_reports b = []) /\
  adds_nothing (fun _ _ p => Some p) /\
  exists s p, run_module (fun _ => []) (fun _ _ p => Some p) (fun _ => false) held_by_default vault_files (module_of vault_files) = Some (s, p) /\
    proper_call is_none (fun _ _ => None_) (fun _ _ _ _ => true) vault (w_extra vault_facts) p (Mod []) the_link_function 7 link_annotations [Container 1] [($"resource", Resource 1)] linking /\
    to_be_kept is_none Tuple Dict (fun _ _ => None_) vault (w_extra vault_facts) (Mod []) 7 link_annotations [Container 1] [($"resource", Resource 1)] linking (Some None_) (Container 1) (Resource 1) /\
    (exists h, steps is_none Tuple Dict tracked (w_extra vault_facts) nothing
       ([ENew (Resource 1); ENew (Container 1)] ++ ECall (Mod []) the_link_function [Container 1] [($"resource", Resource 1)] linking (Some None_) :: [ENew (Resource 2); EDelete (Resource 2)]) h /\
       hp_alive h (Container 1) /\ ~ hp_alive h (Resource 2)) /\
    (* Container(resource) *) calls (Class 2) the_init [Container 1; Resource 1] [] (Some None_) = Some ([(Container 1, Resource 1)], Some None_) /\
    (* nothing to be kept alive *) calls (Class 2) the_init [Container 1; None_] [] (Some None_) = Some ([], Some None_) /\
    (* link fails on its own *) calls (Mod []) the_link [Container 1; Resource 1] [] None = Some ([(Container 1, Resource 1)], None) /\
    (* get *) calls (Class 2) (vault_overloads (Class 2) "get") [Container 1] [] (Some (Resource 1)) = Some ([(Resource 1, Container 1)], Some (Resource 1)).
Proof.
  split; [exact vault_setting|]. split; [apply written_inv; vm_compute; reflexivity|]. split; [intros l o p p' E t Ht; injection E as <-; exact Ht|].
  destruct vault_run as (s & p & R & O1 & O2 & O3). exists s, p. split; [exact R|]. clear R O1 O2.
  assert (Pk : proper_keywords [($"resource", Resource 1)]) by (split; [repeat constructor; intros []|intros [E|[]]; discriminate E]).
  assert (Ca : carried (d_attrs (u_decls vault 7)) link_annotations false) by (apply carried_one; vm_compute; reflexivity).
  assert (Df : distinct_formals (formals (fun _ _ => None_) (Mod []) the_link_function)).
  { intros i j g h nm Hi Hj Hg Hh _. assert (Nd : NoDup (map fo_name (formals (fun _ _ => None_) (Mod []) the_link_function))) by (vm_compute; repeat constructor; cbn; intuition congruence).
    apply (proj1 (NoDup_nth_error _) Nd); [rewrite map_length; apply nth_error_Some; congruence|]. rewrite !nth_error_map, Hi, Hj. cbn. congruence. }
  split.
  { constructor.
    - exists ($"link"), false, the_link. split; [exact O3|]. now left.
    - reflexivity.
    - eapply of_function; reflexivity.
    - constructor; [reflexivity|discriminate].
    - eapply vault_valid; [vm_compute; reflexivity|reflexivity].
    - exact Ca.
    - exists (fi_params (vault_fn 7)), []. split; [reflexivity|]. split; [intros q [<-|[<-|[]]]; reflexivity|]. split; [intros q []|auto].
    - split; intros [E|[E|[]]]; discriminate E.
    - exact Pk.
    - exists true. apply (proj1 (try_iff is_none (fun _ _ => None_) (fun _ _ _ _ => true) (w_extra vault_facts) (Mod []) true _ _ the_link_function the_link_function linking Pk Df)). vm_compute. reflexivity. }
  split.
  { exists ($"container"), ($"resource"). split; [exists (mkAnnotation KeepAlive [LString ($"container"); LString ($"resource")]); split; [right; now left|auto]|].
    assert (Ts : ~ takes_self vault (Mod []) 7) by (intros [E|[E _]]; discriminate E).
    split; [|split; [|auto]].
    - apply (sf_parameter _ _ _ _ _ _ _ _ _ _ _ _ 0 (a_param "container" (class_type 2)) _ 0); [split; [reflexivity|lia]|reflexivity|reflexivity|split; [contradiction|discriminate]|split; [reflexivity|intros _; exact Ts]|].
      apply by_position; [reflexivity|]. intros v [E|[]]. discriminate E.
    - apply (sf_parameter _ _ _ _ _ _ _ _ _ _ _ _ 1 (a_param "resource" (class_type 1)) _ 0); [split; [reflexivity|]; intros j Hj; destruct j; [discriminate|lia]|reflexivity|reflexivity|split; [contradiction|discriminate]|split; [reflexivity|intros _; exact Ts]|].
      apply by_keyword; [cbn; lia|]. now left. }
  split; [|repeat split; vm_compute; reflexivity].
  assert (Pp : pairs is_none Tuple Dict tracked (w_extra vault_facts) (ECall (Mod []) the_link_function [Container 1] [($"resource", Resource 1)] linking (Some None_)) = [(Container 1, Resource 1)]) by (vm_compute; reflexivity).
  eexists. split.
  - eapply steps_cons; [apply step_new; exact (fun H => H)|]. eapply steps_cons; [apply step_new; cbn; intuition discriminate|].
    eapply steps_cons. { apply step_keep; [discriminate|discriminate|]. rewrite Pp. intros v v' [E|[]]. injection E as <- <-. cbn. auto. }
    eapply steps_cons; [apply step_new; cbn; intuition discriminate|].
    eapply steps_cons; [apply step_delete; [cbn; auto|]|apply steps_nil]. intros v. cbn [hp_keeps]. rewrite Pp. cbn. intuition congruence.
  - cbn. split; [intuition discriminate|tauto].
Qed.

(** ** Static member functions *)

(** The annotation is accepted, but makes every call fail. *)
Theorem keep_alive_of_static_functions_refuted : exists u w found implicit iteration n name b files st' mro manual fails default_holder m s p,
  setting u w iteration /\ 0 < n /\ generate u w found implicit iteration n name = Some (RGraph b (EWritten files [] st')) /\ bs_reports b = [] /\ adds_nothing manual /\
  run_module mro manual fails default_holder files m = Some (s, p) /\
  exists o k static l t f ans, own p o k = Some (MFunction static l) /\ In t l /\ function_of t = Some f /\ kind u f = KMethod NoOperator /\ d_static (u_decls u f) = true /\
    consistent u (w_extra w) f /\ valid_annotations (u_decls u f) /\ carried (d_attrs (u_decls u f)) ans false /\ annotated_alive ans ($"return") ($"x") /\
    (exists q, fi_params (x_fn (w_extra w) f) = [q] /\ pm_name q = $"x" /\ is_ordinary q = true) /\
    forall V (is_none : V -> bool) tuple dict referable default accepts pos kw bi convert result,
      suits is_none default accepts (w_extra w) o convert pos kw t bi -> called is_none tuple dict referable (w_extra w) t bi result = ([], None).
Proof.
  assert (G : exists b st', generate vault vault_facts vault_found (fun _ => false) (@rev nat) 1 ($"m") = Some (RGraph b (EWritten vault_files [] st')) /\ bs_reports b = []) by (apply written_inv; vm_compute; reflexivity).
  destruct G as (b & st' & G & Rb). destruct vault_run as (s & p & R & O1 & O2 & O3).
  exists vault, vault_facts, vault_found, (fun _ => false), (@rev nat), 1, ($"m"), b, vault_files, st', (fun _ => []), (fun _ _ p => Some p), (fun _ => false), held_by_default, (module_of vault_files), s, p.
  split; [exact vault_setting|]. split; [lia|]. split; [exact G|]. split; [exact Rb|]. split; [intros l o q q' E t Ht; injection E as <-; exact Ht|]. split; [exact R|]. clear G R.
  exists (Class 2), ($"pick"), true, the_pick, (hd (SManual 0) the_pick), 6, [mkAnnotation KeepAlive [LString ($"return"); LString ($"x")]].
  split; [exact O2|]. split; [now left|]. split; [reflexivity|]. split; [reflexivity|]. split; [reflexivity|]. split; [constructor; [reflexivity|discriminate]|].
  split; [eapply vault_valid; [vm_compute; reflexivity|reflexivity]|]. split; [apply carried_one; vm_compute; reflexivity|]. split; [eexists; split; [now left|auto]|].
  split; [eexists; split; [reflexivity|auto]|].
  intros V is_none' tuple dict referable default accepts pos kw bi convert result [Fi _]. assert (L := ft_length _ _ _ _ _ _ _ _ Fi).
  assert (L' : length (bi_values bi) = 1) by exact L. destruct (bi_values bi) as [|v [|]] eqn:E; try discriminate L'.
  unfold called, passed. rewrite E. cbn. destruct result; reflexivity.
Qed.
Print Assumptions keep_alive_of_static_functions_refuted.
