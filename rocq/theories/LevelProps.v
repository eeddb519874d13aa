(** * Levels of messages *)
From Verif Require Import Base ParserModel StringModel AnnotModel AnnotSpec CollectModel CollectSpec GraphModel GraphSpec GraphProps
  OrderModel OrderProps InlineModel EmitModel EmitProps ModuleModel ModuleSpec ModuleProps ExecProps ImportProps ToolModel ToolSpec ToolProps AccessProps LevelSpec LevelProofs.

(** ** C119 *)

(** Processing of the declarations is given up exactly if a message of level error
    has been printed, e.g. for annotations differing from those of the first
    declaration.  Warnings do not have any effect. *)
Theorem errors_stop_processing : forall u, placed u ->
  (forall ok b, build_graph u = Done (ok, b) -> (ok = false <-> exists r, In r (bs_reports b) /\ severe r)) /\
  (forall found implicit name rs, process u found implicit name = Done (NoGraph rs) -> exists r, In r rs /\ severe r).
Proof. exact (fun u P => conj (no_graph_level u P) (fun found implicit name rs => stopped_level u found implicit name rs P)). Qed.
Print Assumptions errors_stop_processing.

(** The exit status is zero exactly if no message of level error has been printed,
    provided that the header compiles and the outputs can be written. *)
Theorem exit_status_follows_messages : forall env outputs keep name j fs fs' out code,
  main env outputs keep false name [j] fs = Some (fs', out, code) -> acceptable outputs -> placed (j_unit j) ->
  j_errors j = false -> snd (handle_pragmas (j_pragmas j) []) = false ->
  (forall p, In p (effective outputs) -> can_open env p = true /\ (p <> $"-" -> can_rename env p = true)) ->
  let result := generate (j_unit j) (j_facts j) (j_found j) (j_implicit j) (j_iteration j) (length (effective outputs)) (default_name name (j_main j)) in
  (result = Some RStopped -> code <> 0%N) /\
  (forall b parts reports st, result = Some (RGraph b (EWritten parts reports st)) ->
     (code = 0%N <-> (forall r, In r (bs_reports b) -> ~ severe r) /\ forall r, In r reports -> ~ severe_late r)).
Proof. exact status_level. Qed.
Print Assumptions exit_status_follows_messages.

(** Likewise for several compile commands: each has to do without errors. *)
Theorem exit_status_follows_all_messages : forall env outputs keep name jobs ns fs fs' out code,
  main env outputs keep false name jobs fs = Some (fs', out, code) -> acceptable outputs -> names name jobs ns ->
  Forall (fun j => placed (j_unit j) /\ j_errors j = false /\ snd (handle_pragmas (j_pragmas j) []) = false) jobs ->
  (forall p, In p (effective outputs) -> can_open env p = true /\ (p <> $"-" -> can_rename env p = true)) ->
  (code = 0%N <-> jobs <> [] /\ Forall2 (fun n j => exists b parts reports st,
     generate (j_unit j) (j_facts j) (j_found j) (j_implicit j) (j_iteration j) (length (effective outputs)) n = Some (RGraph b (EWritten parts reports st)) /\
     (forall r, In r (bs_reports b) -> ~ severe r) /\ forall r, In r reports -> ~ severe_late r) ns jobs).
Proof. exact statuses_level. Qed.
Print Assumptions exit_status_follows_all_messages.

(** namespace a { struct S {}; }, opened again with other annotations. *)
Definition reopened (first again class : string) : unit :=
  mkUnit
    (fun i => match i with
              | 0 => a_decl KOther false None []
              | 1 => a_decl KNamespace false None [first]
              | 2 => a_decl KRecord false None [class]
              | 3 => a_decl KNamespace false None [again]
              | _ => a_decl KRecord false None []
              end)
    [Node 1 [Node 2 []]; Node 3 [Node 4 []]] 0
    (fun i => match i with 0 => [] | 2 => [1; 0] | 4 => [3; 0] | _ => [0] end)
    (fun _ => true) (fun _ => false) (fun i => match i with 3 => 1 | _ => i end) (fun _ => false)
    (fun i => match i with 1 | 3 => $"a" | 2 => $"S" | _ => $"T" end) (fun _ => false) N.of_nat.
Definition reopened_found (c : nat) : list nat := match c with 1 => [2] | 3 => [4] | _ => [] end.
Definition reopened_job (first again class : string) : job :=
  mkJob ($"/src/a.h") false [] (reopened first again class)
    (simple_facts (reopened first again class) no_bases (fun c => match c with 0 => [1; 3] | c => reopened_found c end)
      (fun i => match i with 1 | 3 => "a" | 2 => "::a::S" | _ => "::a::T" end)%string) reopened_found (fun _ => false) (@rev nat).

Lemma reopened_placed first again class : placed (reopened first again class).
Proof. placed_unit [1; 2; 3; 4]. Qed.

Definition reports_of (u : unit) : option (bool * list report) := match build_graph u with Done (ok, b) => Some (ok, bs_reports b) | _ => None end.

(** Differing annotations are errors, unknown bases are not. *)
Example errors_example :
  (placed (reopened "visible" "hidden" "visible") /\ reports_of (reopened "visible" "hidden" "visible") = Some (false, [RMismatch 3 1]) /\ severe (RMismatch 3 1) /\
   observe (main anything [$"/a"] false false [] [reopened_job "visible" "hidden" "visible"] no_files) [$"/a"] = Some ([Absent], 0, 1%N)) /\
  (placed (reopened "visible" "visible" "hide_base(nope)") /\ reports_of (reopened "visible" "visible" "hide_base(nope)") = Some (true, [RAnnotation 2 (DUnknownBase HideBase)]) /\
   ~ severe (RAnnotation 2 (DUnknownBase HideBase)) /\
   observe (main anything [$"/a"] false false [] [reopened_job "visible" "visible" "hide_base(nope)"] no_files) [$"/a"] = Some ([Generated 9], 0, 0%N)).
Proof.
  split; (split; [apply reopened_placed|]); (split; [vm_compute; reflexivity|]); (split; [|vm_compute; reflexivity]).
  - constructor.
  - intros H. inversion H as [i d D| | |]. inversion D.
Qed.

(** One of two commands with an error, and none. *)
Example all_messages_example :
  observe (main anything [$"/a"] false false [] [reopened_job "visible" "visible" "hide_base(nope)"; reopened_job "visible" "hidden" "visible"] no_files) [] = Some ([], 0, 1%N) /\
  observe (main anything [$"/a"] false false [] [reopened_job "visible" "visible" "hide_base(nope)"; reopened_job "visible" "visible" "visible"] no_files) [] = Some ([], 0, 0%N).
Proof. split; vm_compute; reflexivity. Qed.
