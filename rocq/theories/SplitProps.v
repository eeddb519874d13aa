(** * Properties of modules spread over several files *)
From Coq Require Import Sorting.Permutation.
From Verif Require Import Base ParserModel StringModel StringSpec AnnotModel AnnotSpec CollectModel CollectSpec GraphModel GraphSpec GraphProps
  OrderModel OrderSpec OrderProofs OrderProps InlineModel InlineSpec EmitModel EmitSpec EmitProps ModuleModel ModuleSpec ModuleChunks ModuleProofs ModuleFinal ModuleProps
  ImportSpec ImportProps ExecSpec ExecProps ManualSpec ManualProps SplitSpec SplitProofs.

(** ** C78 *)

(** Modules that are generated with different numbers of output files, compiled and
    linked in any order, behave the same when imported, also if they cannot be
    linked or imported. *)
Theorem number_of_files_does_not_matter :
  forall mro manual fails default_holder u w found implicit iteration n m name b files rs st', setting u w iteration -> 0 < n -> 0 < m ->
  generate u w found implicit iteration n name = Some (RGraph b (EWritten files rs st')) ->
  exists files', generate u w found implicit iteration m name = Some (RGraph b (EWritten files' rs st')) /\ length files' = m /\
    (exists r, linked (run_module mro manual fails default_holder) files' r) /\
    forall r r', linked (run_module mro manual fails default_holder) files r -> linked (run_module mro manual fails default_holder) files' r' -> r' = r.
Proof. exact module_split. Qed.
Print Assumptions number_of_files_does_not_matter.

(** ** Examples *)

Definition files_in (n : nat) : list (list item) :=
  match written (generate parade parade_facts parade_found (fun _ => false) (@rev nat) n ($"m")) with Some files => files | None => [] end.

(** One file, or two that are linked in reverse order. *)
Example number_of_files_does_not_matter_example :
  setting parade parade_facts (@rev nat) /\ files_in 1 <> [] /\ length (files_in 2) = 2 /\ ~ In [] (files_in 2) /\
  exists s p, linked (run_module (fun _ => []) (fun _ _ p => Some p) (fun _ => false) held_by_default) (files_in 1) (Some (s, p)) /\
    linked (run_module (fun _ => []) (fun _ _ p => Some p) (fun _ => false) held_by_default) (files_in 2) (Some (s, p)) /\
    attribute s (Mod []) ($"S") = Some (Class 1).
Proof.
  split; [exact parade_setting|]. split; [vm_compute; discriminate|]. split; [reflexivity|]. split; [vm_compute; intros [H|[H|[]]]; discriminate H|].
  destruct (run_module (fun _ => []) (fun _ _ p => Some p) (fun _ => false) held_by_default (files_in 1) (module_of (files_in 1))) as [[s p]|] eqn:E1; [|vm_compute in E1; discriminate E1].
  exists s, p. split; [|split].
  - rewrite <- E1. apply linked_ok; [apply Permutation_refl|vm_compute; reflexivity|vm_compute; repeat constructor; cbn; intuition discriminate].
  - assert (E2 : run_module (fun _ => []) (fun _ _ p => Some p) (fun _ => false) held_by_default (rev (files_in 2)) (module_of (files_in 2)) = Some (s, p)) by (rewrite <- E1; vm_compute; reflexivity).
    rewrite <- E2. apply linked_ok; [apply Permutation_rev|vm_compute; reflexivity|vm_compute; repeat constructor; cbn; intuition discriminate].
  - vm_compute in E1. injection E1 as <- _. reflexivity.
Qed.
