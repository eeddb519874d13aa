(** * Options of classes and enumerations in Python *)
From Coq Require Import Sorting.Permutation.
From Verif Require Import Base ParserModel StringModel AnnotModel AnnotSpec CollectModel CollectSpec GraphModel GraphSpec GraphWalk GraphPlace GraphProps
  OrderModel OrderSpec OrderProofs OrderProps InlineModel InlineSpec EmitModel EmitSpec EmitProps ModuleModel ModuleSpec ModuleProofs ModuleFinal ModuleProps ImportSpec ImportProofs ImportProps ExecSpec ExecProps AccessSpec AccessProps
  StoreSpec OptionSpec OptionProofs.

(** ** C85 *)

(** Classes and enumerations are introduced with the options that they are annotated
    with, wherever they are exposed. *)
Theorem options_are_those_annotated : forall u w found implicit iteration n name b files rs st',
  setting u w iteration -> 0 < n -> generate u w found implicit iteration n name = Some (RGraph b (EWritten files rs st')) ->
  forall nm intros calls post, In (IModule nm intros calls post) (concat files) -> independent u intros -> forall id i, In (id, i) intros -> as_said u i.
Proof. exact options_as_said. Qed.
Print Assumptions options_are_those_annotated.

(** Attributes the class does not have can be added to an instance exactly if the class,
    or one of its bases in Python, is annotated accordingly.  They affect that
    instance only. *)
Theorem attributes_can_be_added_if_annotated : forall u w found implicit iteration n name b files rs st',
  setting u w iteration -> 0 < n -> generate u w found implicit iteration n name = Some (RGraph b (EWritten files rs st')) ->
  forall default_holder mro manual fails nm intros calls post s p, In (IModule nm intros calls post) (concat files) -> independent u intros ->
  run_module mro manual fails default_holder files (IModule nm intros calls post) = Some (s, p) ->
  forall V class_of (convert : nat -> V -> option V) getter setter initial (wd : world V) o k v, attribute_along p mro wd (class_of o) k = None ->
    let set := set_attr p mro class_of (has_dictionary intros) convert setter wd (Instance o) k v in
    (open u intros (class_of o) -> snd set = Accepted /\ wd_memory (fst set) = wd_memory wd /\ wd_set (fst set) = wd_set wd /\
      forall q j, get_attr p mro class_of initial getter (fst set) (Instance q) j =
        if Nat.eqb o q && str_eqb k j then Value v else get_attr p mro class_of initial getter wd (Instance q) j) /\
    (~ open u intros (class_of o) -> set = (wd, Refused)).
Proof. exact attributes_added. Qed.
Print Assumptions attributes_can_be_added_if_annotated.

(** ** Example *)

(** struct GENPYBIND(visible, dynamic_attr) A(1) { int a(2); };
    struct GENPYBIND(visible) B(3) : A {};
    struct GENPYBIND(dynamic_attr, holder_type("std::shared_ptr<C>"), dynamic_attr(false), visible) C(4) {};
    enum GENPYBIND(arithmetic) E(5) {};
    typedef E GENPYBIND(expose_here) F(6); *)
Definition cabinet : unit :=
  mkUnit
    (fun i => match i with
              | 0 => a_decl KOther false None []
              | 1 => a_decl KRecord false None ["visible, dynamic_attr"]%string
              | 2 => a_decl KField false None []
              | 3 => a_decl KRecord false None ["visible"]%string
              | 4 => a_decl KRecord false None ["dynamic_attr, holder_type(""std::shared_ptr<C>""), dynamic_attr(false), visible"]%string
              | 5 => a_decl KEnum false None ["arithmetic"]%string
              | _ => a_decl KTypedef false (Some 5) ["expose_here"]%string
              end)
    [Node 1 [Node 2 []]; Node 3 []; Node 4 []; Node 5 []; Node 6 []] 0
    (fun i => match i with 0 => [] | 2 => [1; 0] | _ => [0] end)
    (fun _ => true) (fun _ => false) (fun i => i) (fun _ => false)
    (fun i => match i with 1 => $"A" | 2 => $"a" | 3 => $"B" | 4 => $"C" | 5 => $"E" | _ => $"F" end) (fun _ => false) N.of_nat.
Definition cabinet_facts : facts :=
  mkFacts (mkExtra (fun _ => a_fn [] None) (fun _ => false) (fun _ => None) (fun _ => false) (fun _ => false) (fun _ => false) (fun _ => None) (fun _ _ => []))
    (mkHierarchy (fun i => if Nat.eqb i 3 then [mkSpec 1 true false] else []) (fun i => if Nat.eqb i 3 then 1 else 0))
    (fun i => a_member (is_tag_kind (kind cabinet i))) (fun c => map (fun i => mkFound i None false) (match c with 0 => [1; 3; 4; 5; 6] | 1 => [2] | _ => [] end))
    (fun i => match i with 1 => $"::A" | 3 => $"::B" | 4 => $"::C" | _ => $"::E" end) [] (pop_first cabinet).

Lemma cabinet_setting : setting cabinet cabinet_facts (@rev nat).
Proof. constructor; [placed_unit [1; 2; 3; 4; 5; 6]|language_facts|exists N.of_nat; exact (pop_first_good cabinet)|intros l; apply Permutation_rev]. Qed.

Definition cabinet_files : list (list item) := Eval vm_compute in files_of cabinet cabinet_facts (fun _ => []).
Definition cabinet_intros : list (str * introducer) := Eval vm_compute in match module_of cabinet_files with IModule _ intros _ _ => intros | _ => [] end.
Definition after_A (c : nat) : list nat := if Nat.eqb c 3 then [1] else [].
Definition cabinet_module : pystate := Eval vm_compute in
  match run_module after_A (fun _ _ p => Some p) (fun _ => false) held_by_default cabinet_files (module_of cabinet_files) with Some (_, p) => p | None => mkPy [] [] end.

(** Objects 10, 30 and 40 are instances of A, B and C. *)
Definition type_of (o : nat) : nat := match o with 10 => 1 | 30 => 3 | _ => 4 end.
Definition assign_in (wd : world N) (o : nat) (k : string) (v : N) : world N * answer :=
  set_attr cabinet_module after_A type_of (has_dictionary cabinet_intros) (fun _ => Some) (fun _ _ _ _ => None) wd (Instance o) ($k) v.

Example attributes_can_be_added_if_annotated_example :
  setting cabinet cabinet_facts (@rev nat) /\
  (exists b st', generate cabinet cabinet_facts (fun _ => []) (fun _ => false) (@rev nat) 1 ($"m") = Some (RGraph b (EWritten cabinet_files [] st')) /\ bs_reports b = []) /\
  (exists nm calls post s, In (IModule nm cabinet_intros calls post) (concat cabinet_files) /\
     run_module after_A (fun _ _ p => Some p) (fun _ => false) held_by_default cabinet_files (IModule nm cabinet_intros calls post) = Some (s, cabinet_module)) /\
  independent cabinet cabinet_intros /\
  map snd cabinet_intros = [NAlias ($"root"); NClass (mkClass 1 [] []) ($"context") ($"A") true; NClass (mkClass 3 [1] []) ($"context") ($"B") false;
    NClass (mkClass 4 [] ($"std::shared_ptr<C>")) ($"context") ($"C") false; NEnum 5 ($"context") ($"F") true] /\
  map (has_dictionary cabinet_intros) [1; 3; 4] = [true; true; false] /\
  (let wd := mkWorld [] [] (fun _ => 0%N) in
   let wd1 := fst (assign_in wd 30 "x" 5%N) in let wd2 := fst (assign_in wd1 30 "a" 6%N) in
   map (fun o => attribute_along cabinet_module after_A wd (type_of o) ($"x")) [10; 30; 40] = [None; None; None] /\
   map (fun r => snd r) [assign_in wd 30 "x" 5%N; assign_in wd1 30 "a" 6%N; assign_in wd2 40 "x" 7%N] = [Accepted; Accepted; Refused] /\
   wd_memory wd2 (Field_ 30 2) = 6%N /\
   map (fun o => get_attr cabinet_module after_A type_of (fun _ => 0%N) (fun _ _ _ => Some 0%N) wd2 (Instance o) ($"x")) [10; 30; 40] = [Refused; Value 5%N; Refused]).
Proof.
  split; [exact cabinet_setting|]. split; [apply written_inv; vm_compute; reflexivity|].
  split; [do 4 eexists; split; [vm_compute; do 5 right; left; reflexivity|vm_compute; reflexivity]|].
  split; [intros id i Hi; destruct i; exact I || reflexivity|].
  split; [vm_compute; reflexivity|]. split; [vm_compute; reflexivity|]. cbv zeta. repeat split; vm_compute; reflexivity.
Qed.
