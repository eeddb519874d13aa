(** * Properties of the layout of headers *)
From Coq Require Import Lia Sorting.Permutation.
From Verif Require Import Base ParserModel ParserSpec StringModel StringSpec AnnotModel AnnotSpec CollectModel CollectSpec GraphModel GraphSpec GraphWalk GraphPlace GraphFinal GraphProps
  OrderModel OrderSpec OrderProofs OrderProps InlineModel InlineSpec InlineProofs EmitModel EmitSpec EmitProofs EmitFinal EmitProps ModuleModel ModuleSpec ModuleChunks ModuleProofs ModuleFinal ModuleProps
  ImportSpec ImportProofs ImportProps ExecSpec ExecProofs ExecProps AccessSpec AccessProofs AccessProps EnumProps LayoutSpec LayoutProofs.

(** ** C106 *)

(** Positions matter only in so far as one is before another (and what is known
    about the queue remains true). *)
Theorem positions_matter_through_their_order_only : forall u location w found implicit iteration n name, same_sequence u location ->
  generate (moved u location) w found implicit iteration n name = generate u w found implicit iteration n name /\
  (good_queue location (w_pop w) <-> good_queue (u_location u) (w_pop w)).
Proof. intros u location w found implicit iteration n name H. split; [exact (mv_generate u location H w found implicit iteration n name)|exact (moved_queue u location (w_pop w) H)]. Qed.
Print Assumptions positions_matter_through_their_order_only.

(** The example of C72 with 100 lines in front of it, 80 characters each, and blank
    lines in between;  in reverse order the result is different. *)
Example positions_matter_through_their_order_only_example :
  generate (moved vault (fun i => 8000 + 160 * N.of_nat i)%N) vault_facts vault_found (fun _ => false) (@rev nat) 1 ($"m") =
  generate vault vault_facts vault_found (fun _ => false) (@rev nat) 1 ($"m") /\
  generate (moved modes (fun i => 100 - N.of_nat i)%N) modes_facts modes_found (fun _ => false) (@rev nat) 1 ($"m") <>
  generate modes modes_facts modes_found (fun _ => false) (@rev nat) 1 ($"m").
Proof.
  split; [apply positions_matter_through_their_order_only; intros i j; change (u_location vault) with N.of_nat; lia|].
  intros E. vm_compute in E. discriminate E.
Qed.
