(** * Properties of what annotations of single declarations affect *)
From Coq Require Import Sorting.Permutation.
From Verif Require Import Base ParserModel StringModel StringSpec AnnotModel AnnotSpec CollectModel CollectSpec GraphModel GraphSpec GraphWalk GraphPlace GraphFinal GraphProps
  OrderModel OrderSpec OrderProofs OrderProps InlineModel InlineSpec InlineProofs EmitModel EmitSpec EmitProofs EmitFinal EmitProps ModuleModel ModuleSpec ModuleChunks ModuleProofs ModuleFinal ModuleProps
  ImportSpec ImportProofs ImportProps ExecSpec ExecProofs ExecProps AccessSpec AccessProofs AccessProps LocalSpec LocalProofs.

(** ** C103 *)

(** Changes to [expose_as], [readonly], [keep_alive], [noconvert], [required] and
    [return_value_policy] of a function, constructor, data member, variable or
    enumerator (that has annotations before and after the change) change at most
    the statements for this declaration: the same code is written otherwise, with
    the same reports, or the run stops or fails in the same way. *)
Theorem annotations_affect_only_their_declaration : forall u i texts a a' w found implicit iteration n name,
  single u i -> valid_with u i a -> valid_with (reannotated u i texts) i a' -> similar a a' ->
  has_annotations (u_decls (reannotated u i texts) i) true = has_annotations (u_decls u i) true ->
  same_output i (generate u w found implicit iteration n name) (generate (reannotated u i texts) w found implicit iteration n name).
Proof. intros u i texts a a' w found implicit iteration n name Hi V V' S Ha. exact (generate_sim u i texts Hi a a' V V' S Ha w found implicit iteration n name). Qed.
Print Assumptions annotations_affect_only_their_declaration.

(** namespace a(1) GENPYBIND(visible) { void f(2)(); }
    namespace a(3) { void g(4)(); } *)
Definition reopened : unit :=
  mkUnit
    (fun i => match i with
              | 0 => a_decl KOther false None []
              | 1 => a_decl KNamespace false None ["visible"]%string
              | 3 => a_decl KNamespace false None []
              | _ => a_decl (KFunction NoOperator) false None []
              end)
    [Node 1 [Node 2 []]; Node 3 [Node 4 []]] 0
    (fun i => match i with 0 => [] | 1 | 3 => [0] | 2 => [1; 0] | _ => [3; 0] end)
    (fun _ => true) (fun _ => false) (fun i => match i with 3 => 1 | i => i end) (fun _ => false)
    (fun i => match i with 2 => $"f" | 4 => $"g" | _ => $"a" end) (fun _ => false) N.of_nat.
Definition reopened_found (c : nat) : list nat := match c with 1 | 3 => [2; 4] | _ => [] end.
Definition reopened_facts : facts := simple_facts reopened no_bases (fun c => match c with 0 => [1; 3] | c => reopened_found c end) (fun _ => "a")%string.

(** The first annotation in a part of a namespace matters: it makes
    [g(4) GENPYBIND(visible(default), expose_as(h))] an error, as the annotations
    of this part do not match those of the first one. *)
Theorem first_annotations_affect_only_their_declaration_refuted : exists u i texts a a' w found implicit iteration n name,
  single u i /\ valid_with u i a /\ valid_with (reannotated u i texts) i a' /\ similar a a' /\
  ~ same_output i (generate u w found implicit iteration n name) (generate (reannotated u i texts) w found implicit iteration n name).
Proof.
  exists reopened, 4, [lozenge ++ $"visible(default), expose_as(h)"]. do 2 eexists. exists reopened_facts, reopened_found, (fun _ => false), (@rev nat), 1, ($"m").
  split; [exact I|]. split; [vm_compute; reflexivity|]. split; [vm_compute; reflexivity|]. split; [constructor; reflexivity|].
  match goal with |- ~ same_output _ ?r ?r' => let v := eval vm_compute in r in let v' := eval vm_compute in r' in change r with v; change r' with v' end.
  intros [].
Qed.
Print Assumptions first_annotations_affect_only_their_declaration_refuted.

(** ** Examples *)

(** In the example of C72, k(9) GENPYBIND(hidden, visible) is renamed: its statement
    changes (and nothing else). *)
Example annotations_affect_only_their_declaration_example :
  let v := reannotated vault 9 [lozenge ++ $"visible, expose_as(z)"] in
  same_output 9 (generate vault vault_facts vault_found (fun _ => false) (@rev nat) 2 ($"m")) (generate v vault_facts vault_found (fun _ => false) (@rev nat) 2 ($"m")) /\
  written (generate vault vault_facts vault_found (fun _ => false) (@rev nat) 2 ($"m")) <> written (generate v vault_facts vault_found (fun _ => false) (@rev nat) 2 ($"m")).
Proof.
  split.
  - eapply annotations_affect_only_their_declaration; [exact I|vm_compute; reflexivity|vm_compute; reflexivity|constructor; reflexivity|vm_compute; reflexivity].
  - vm_compute. discriminate.
Qed.
