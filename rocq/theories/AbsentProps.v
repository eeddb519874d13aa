(** * Properties of translation units with fewer declarations *)
From Coq Require Import Sorting.Permutation Lia.
From Verif Require Import Base ParserModel StringModel AnnotModel AnnotSpec CollectModel CollectSpec GraphModel GraphSpec GraphWalk GraphPlace GraphFinal GraphProps
  OrderModel OrderSpec OrderProofs OrderProps InlineModel InlineSpec EmitModel EmitSpec EmitProps ModuleModel ModuleSpec ModuleProofs ModuleFinal ModuleProps ImportSpec ImportProofs ImportProps ExecSpec ExecProps AccessSpec AccessProofs AccessProps
  ToolModel AbsentSpec AbsentProofs.

(** ** C110 *)

(** Functions, variables, members and aliases without annotations that are not
    found in a visible context may as well be missing: the same files are written,
    with the same reports, or the run stops or fails in the same way. *)
Theorem declarations_out_of_sight_do_not_matter : forall drop u w found implicit iteration n name, setting u w iteration -> dispensable drop u w found implicit ->
  same_result (generate (without drop u) (facts_without drop w) (fun c => filter (kept drop) (found c)) implicit iteration n name) (generate u w found implicit iteration n name).
Proof. intros drop u w found implicit iteration n name S D. exact (sm_generate drop u w found implicit iteration S D n name). Qed.
Print Assumptions declarations_out_of_sight_do_not_matter.

(** In particular those of the global scope, e.g. of headers of other libraries. *)
Theorem global_helpers_do_not_matter : forall drop u w found implicit iteration n name, setting u w iteration -> ~ marked (u_decls u (u_root u)) ->
  (forall i, drop i = true -> plain u i /\ only_global u w found i) -> (forall i j, drop i = true -> In j (expand (w_extra w) i) -> drop j = true) ->
  same_result (generate (without drop u) (facts_without drop w) (fun c => filter (kept drop) (found c)) implicit iteration n name) (generate u w found implicit iteration n name).
Proof. exact global_generate. Qed.
Print Assumptions global_helpers_do_not_matter.

(** The program leaves the same files, writes the same to standard output and exits
    with the same status. *)
Theorem declarations_out_of_sight_do_not_affect_outputs : forall env outputs keep xfail name jobs jobs' fs, Forall2 reduced_job jobs jobs' ->
  main env outputs keep xfail name jobs' fs = main env outputs keep xfail name jobs fs.
Proof. exact reduced_main. Qed.
Print Assumptions declarations_out_of_sight_do_not_affect_outputs.

(** ** Declarations that are hidden explicitly *)

(** namespace a(1) GENPYBIND(visible) { void f(2)(); }
    namespace a(3) { void g(4)() GENPYBIND(hidden); } *)
Definition guarded : unit :=
  mkUnit
    (fun i => match i with
              | 0 => a_decl KOther false None []
              | 1 => a_decl KNamespace false None ["visible"]%string
              | 3 => a_decl KNamespace false None []
              | 4 => a_decl (KFunction NoOperator) false None ["hidden"]%string
              | _ => a_decl (KFunction NoOperator) false None []
              end)
    [Node 1 [Node 2 []]; Node 3 [Node 4 []]] 0
    (fun i => match i with 0 => [] | 1 | 3 => [0] | 2 => [1; 0] | _ => [3; 0] end)
    (fun _ => true) (fun _ => false) (fun i => match i with 3 => 1 | i => i end) (fun _ => false)
    (fun i => match i with 2 => $"f" | 4 => $"g" | _ => $"a" end) (fun _ => false) N.of_nat.
Definition guarded_found (c : nat) : list nat := match c with 1 | 3 => [2; 4] | _ => [] end.
Definition guarded_facts : facts := simple_facts guarded no_bases (fun c => match c with 0 => [1; 3] | c => guarded_found c end) (fun _ => "a")%string.

Lemma guarded_setting : setting guarded guarded_facts (@rev nat).
Proof. constructor; [placed_unit [1; 2; 3; 4]|language_facts|exists N.of_nat; exact (pop_first_good guarded)|intros l; apply Permutation_rev]. Qed.

(** Declarations that are annotated to be hidden matter nevertheless: [g(4)] is
    the reason why the annotations of both parts of the namespace have to match. *)
Theorem hidden_declarations_do_not_matter_refuted : exists drop u w found implicit iteration n name,
  setting u w iteration /\ (forall i, drop i = true -> says u i (Some false) /\ ~ context_kind (kind u i)) /\ (forall i j, drop i = true -> In j (expand (w_extra w) i) -> drop j = true) /\
  ~ same_result (generate (without drop u) (facts_without drop w) (fun c => filter (kept drop) (found c)) implicit iteration n name) (generate u w found implicit iteration n name).
Proof.
  exists (Nat.eqb 4), guarded, guarded_facts, guarded_found, (fun _ => false), (@rev nat), 1, ($"m"). split; [exact guarded_setting|]. split; [|split].
  - intros i Hi. apply Nat.eqb_eq in Hi. subst i. split; [apply attributes_say; vm_compute; reflexivity|]. intros [K|[K|K]]; discriminate K.
  - intros i j Hi [<-|[]]. exact Hi.
  - match goal with |- ~ same_result ?r ?r' => let v := eval vm_compute in r in let v' := eval vm_compute in r' in change r with v; change r' with v' end. cbn [same_result]. discriminate.
Qed.
Print Assumptions hidden_declarations_do_not_matter_refuted.

(** ** Examples *)

(** In the example of C72, h(8) in namespace b(7), which is not visible, can be
    left out. *)
Example declarations_out_of_sight_do_not_matter_example :
  setting vault vault_facts (@rev nat) /\ dispensable (Nat.eqb 8) vault vault_facts vault_found (fun _ => false) /\ In 8 (vault_found 7) /\
  source_order (without (Nat.eqb 8) vault) = [1; 2; 3; 4; 5; 6; 7; 9] /\ source_order vault = [1; 2; 3; 4; 5; 6; 7; 8; 9].
Proof.
  split; [exact vault_setting|]. split; [|split; [left; reflexivity|split; vm_compute; reflexivity]]. constructor.
  - intros i Hi. apply Nat.eqb_eq in Hi. subst i. split; [intros (rest & [])|intros [K|[K|K]]; discriminate K].
  - intros i Hi. apply Nat.eqb_eq in Hi. subst i. apply sight_lookup; [exact (se_placed _ _ _ vault_setting)|]. intros b vis Hb Hv c L.
    assert (Hc : c = 1 \/ c = 4).
    { vm_compute in Hb. injection Hb as <-. vm_compute in Hv. injection Hv as <-. cbn [dlookup] in L. do 10 (destruct c as [|c]; [first [discriminate L|auto]|]). discriminate L. }
    destruct Hc as [-> | ->]; (split; [intros Hin; cbn in Hin; intuition discriminate|]); intros (x & Hx & Hin).
    + injection Hx as <-. vm_compute in Hin. intuition discriminate.
    + vm_compute in Hb. injection Hb as <-. vm_compute in Hx. injection Hx as <-. vm_compute in Hin. intuition discriminate.
  - intros i j Hi [<-|[]]. exact Hi.
Qed.

(** The compile command for the same example succeeds. *)
Example declarations_out_of_sight_do_not_affect_outputs_example :
  let env := mkEnvironment (fun _ => true) (fun _ => true) in
  let j := mkJob ($"/src/vault.h") false [] vault vault_facts vault_found (fun _ => false) (@rev nat) in
  let j' := mkJob ($"/src/vault.h") false [] (without (Nat.eqb 8) vault) (facts_without (Nat.eqb 8) vault_facts) (fun c => filter (kept (Nat.eqb 8)) (vault_found c)) (fun _ => false) (@rev nat) in
  reduced_job j j' /\ exists fs out text items, main env [$"/out/vault.cpp"] false false ($"vault") [j'] (fun _ => None) = Some (fs, out, 0%N) /\ fs ($"/out/vault.cpp") = Some (New text items).
Proof.
  cbv zeta. split.
  - exists (Nat.eqb 8). split; [exact vault_setting|]. split; [exact (proj1 (proj2 declarations_out_of_sight_do_not_matter_example))|reflexivity].
  - do 4 eexists. split; [vm_compute; reflexivity|]. vm_compute. reflexivity.
Qed.

(** int twice(1)(int);
    struct GENPYBIND(visible) S(2) { int x(3); };
    extern int count(4); *)
Definition shed : unit :=
  mkUnit
    (fun i => match i with
              | 0 => a_decl KOther false None []
              | 1 => a_decl (KFunction NoOperator) false None []
              | 2 => a_decl KRecord false None ["visible"]%string
              | 3 => a_decl KField false None []
              | _ => a_decl KVar false None []
              end)
    [Node 1 []; Node 2 [Node 3 []]; Node 4 []] 0
    (fun i => match i with 0 => [] | 3 => [2; 0] | _ => [0] end)
    (fun _ => true) (fun _ => false) (fun i => i) (fun _ => false)
    (fun i => match i with 1 => $"twice" | 2 => $"S" | 3 => $"x" | _ => $"count" end) (fun _ => false) N.of_nat.
Definition shed_found (c : nat) : list nat := match c with 0 => [1; 4] | 2 => [3] | _ => [] end.
Definition shed_facts : facts := simple_facts shed no_bases (fun c => match c with 0 => [1; 2; 4] | c => shed_found c end) (fun _ => "::S")%string.

Lemma shed_setting : setting shed shed_facts (@rev nat).
Proof. constructor; [placed_unit [1; 2; 3; 4]|language_facts|exists N.of_nat; exact (pop_first_good shed)|intros l; apply Permutation_rev]. Qed.

Example global_helpers_do_not_matter_example :
  let drop i := Nat.eqb 1 i || Nat.eqb 4 i in
  setting shed shed_facts (@rev nat) /\ ~ marked (u_decls shed (u_root shed)) /\ (forall i, drop i = true -> plain shed i /\ only_global shed shed_facts shed_found i) /\
  (forall i j, drop i = true -> In j (expand (w_extra shed_facts) i) -> drop j = true) /\
  source_order (without drop shed) = [2; 3] /\ looked_up shed shed_facts 0 XContext = [1; 4] /\ looked_up shed (facts_without drop shed_facts) 0 XContext = [] /\
  written (generate (without drop shed) (facts_without drop shed_facts) (fun c => filter (kept drop) (shed_found c)) (fun _ => false) (@rev nat) 1 ($"m")) = Some (files_of shed shed_facts shed_found).
Proof.
  cbv zeta. split; [exact shed_setting|]. split; [intros (rest & [])|]. split; [|split; [|split; [|split; [|split]]]]; try (vm_compute; reflexivity).
  - assert (G : forall i c l x, c <> 0 -> In i (flat_map (expand (w_extra shed_facts)) (looked_up shed shed_facts c x)) -> In i l -> l = [1; 4] -> False).
    { intros i c l x Hc Hin Hl ->. do 4 (destruct c as [|c]; [first [congruence|destruct x as [| | |r []]; vm_compute in Hin; cbn in Hl; intuition (subst; discriminate)]|]). destruct x as [| | |r []]; vm_compute in Hin; exact Hin. }
    intros i Hi. assert (Hc : i = 1 \/ i = 4).
    { apply Bool.orb_true_iff in Hi. destruct Hi as [Hi|Hi]; apply Nat.eqb_eq in Hi; auto. }
    split; [destruct Hc as [-> | ->]; (split; [intros (rest & [])|intros [K|[K|K]]; discriminate K])|]. split.
    + intros c Hin. destruct c as [|[|[|c]]]; [reflexivity|destruct Hin|destruct Hc as [-> | ->]; destruct Hin as [E|[]]; discriminate E|destruct Hin].
    + intros b c (x & Hx & Hin). destruct (Nat.eq_dec c 0) as [->|Ne]; [reflexivity|]. exfalso. apply (G i c [1; 4] x Ne Hin); [cbn; destruct Hc; auto|reflexivity].
  - intros i j Hi [<-|[]]. exact Hi.
Qed.
