(** * Properties of what hiding a single declaration changes in the outputs of the program *)
From Coq Require Import Sorting.Permutation.
From Verif Require Import Base ParserModel StringModel StringSpec AnnotModel AnnotSpec CollectModel CollectSpec GraphModel GraphSpec GraphWalk GraphPlace GraphFinal GraphProps
  OrderModel OrderSpec OrderProofs OrderProps InlineModel InlineSpec InlineProofs EmitModel EmitSpec EmitProofs EmitFinal EmitProps ModuleModel ModuleSpec ModuleChunks ModuleProofs ModuleFinal ModuleProps
  ImportSpec ImportProofs ImportProps ExecSpec ExecProofs ExecProps AccessSpec AccessProofs AccessProps LocalSpec LocalProofs HideSpec HideProofs HideProps ToolModel ToolSpec WithdrawSpec WithdrawProofs.

(** C112: a header that is processed successfully still is after hiding one of
    its declarations: the outputs, on disk and printed, lack the statements that
    bind it and nothing else; other files are the same. *)
Theorem hiding_keeps_the_rest_of_the_outputs : forall i env outputs keep name j j' fs fs' out, hidden_job i j j' ->
  main env outputs keep false name [j] fs = Some (fs', out, 0%N) ->
  exists fs'', main env outputs keep false name [j'] fs = Some (fs'', map (withdrawn i) out, 0%N) /\
    (forall p, In p outputs -> p <> $"-" -> fs'' p = option_map (withdrawn i) (fs' p)) /\
    (forall p, ~ In p outputs \/ p = $"-" -> fs'' p = fs' p).
Proof. exact main_withdrawn. Qed.
Print Assumptions hiding_keeps_the_rest_of_the_outputs.

(** ** Examples *)

Definition desk_job : job := mkJob ($"/src/desk.h") false [] desk vault_facts vault_found (fun _ => false) (@rev nat).
Definition desk_job' : job := mkJob ($"/src/desk.h") false [] (reannotated desk 2 desk_hidden) vault_facts vault_found (fun _ => false) (@rev nat).

Lemma desk_hidden_job : hidden_job 2 desk_job desk_job'.
Proof.
  exists desk_hidden. do 2 eexists. split; [exact desk_placed|]. split; [exact Logic.I|]. split; [discriminate|]. split; [vm_compute; reflexivity|]. split; [vm_compute; reflexivity|].
  split; [repeat (split; [reflexivity|]); reflexivity|]. split; [repeat (split; [reflexivity|]); reflexivity|]. split; [vm_compute; reflexivity|]. split; [exact desk_accompanied|reflexivity].
Qed.

(** A file and standard output: the program succeeds and what is in the file
    (but not what is printed) changes. *)
Example hiding_keeps_the_rest_of_the_outputs_example :
  let env := mkEnvironment (fun _ => true) (fun _ => true) in
  hidden_job 2 desk_job desk_job' /\ exists fs out c,
    main env [$"/out/desk.cpp"; $"-"] false false ($"m") [desk_job] (fun _ => None) = Some (fs, out, 0%N) /\ out <> [] /\
    fs ($"/out/desk.cpp") = Some c /\ withdrawn 2 c <> c /\ map (withdrawn 2) out = out.
Proof.
  cbv zeta. split; [exact desk_hidden_job|]. do 3 eexists. split; [vm_compute; reflexivity|]. split; [discriminate|]. split; [vm_compute; reflexivity|].
  split; [vm_compute; discriminate|vm_compute; reflexivity].
Qed.
