(** * Properties of the influence of the name of the module *)
From Coq Require Import Sorting.Permutation.
From Verif Require Import Base ParserModel StringModel AnnotModel AnnotSpec CollectModel CollectSpec GraphModel GraphSpec GraphWalk GraphPlace GraphProps
  OrderModel OrderSpec OrderProofs OrderProps InlineModel InlineSpec EmitModel EmitSpec EmitProps ModuleModel ModuleSpec ModuleProofs ModuleFinal ModuleProps ImportSpec ImportProofs ImportProps ExecSpec ExecProps AccessSpec AccessProps
  FindSpec FindProofs FindProps TitleSpec TitleProofs.

(** ** C108 *)

(** Apart from annotations [only_expose_in], the name of the module affects nothing
    but the name under which the generated module is defined. *)
Theorem the_module_name_is_only_a_name : forall u w found implicit iteration n name name', placed u -> interchangeable u name name' ->
  generate u w found implicit iteration n name' = option_map (retitled name') (generate u w found implicit iteration n name).
Proof. exact generate_retitled. Qed.
Print Assumptions the_module_name_is_only_a_name.

(** In the example of C81 this holds for modules called m and p;  the one called
    other has further contents. *)
Example the_module_name_is_only_a_name_example :
  generate shelf shelf_facts (fun _ => []) (fun _ => false) (@rev nat) 2 ($"p") = option_map (retitled ($"p")) (generate shelf shelf_facts (fun _ => []) (fun _ => false) (@rev nat) 2 ($"m")) /\
  generate shelf shelf_facts (fun _ => []) (fun _ => false) (@rev nat) 2 ($"p") <> generate shelf shelf_facts (fun _ => []) (fun _ => false) (@rev nat) 2 ($"m") /\
  generate shelf shelf_facts (fun _ => []) (fun _ => false) (@rev nat) 2 ($"other") <> option_map (retitled ($"other")) (generate shelf shelf_facts (fun _ => []) (fun _ => false) (@rev nat) 2 ($"m")).
Proof.
  split; [|split].
  - apply the_module_name_is_only_a_name; [exact (se_placed _ _ _ shelf_setting)|]. intros i a K O.
    assert (D : ns_only_expose_in (at_namespace a) = [] \/ ns_only_expose_in (at_namespace a) = [$"other"]).
    { destruct O as (st & ds & I & L). do 11 (destruct i as [|i]; [try discriminate K; vm_compute in I; injection I as <- <-; vm_compute in L; injection L as <-; auto|]). discriminate K. }
    destruct D as [-> | ->]; [reflexivity|]. split; intros [E|[]]; discriminate E.
  - intros E. vm_compute in E. discriminate E.
  - intros E. vm_compute in E. discriminate E.
Qed.
