(** * Properties of runs with several compile commands *)
From Verif Require Import Base ParserModel StringModel StringSpec AnnotModel AnnotSpec CollectModel CollectSpec GraphModel GraphSpec GraphProps
  OrderModel OrderProps InlineModel EmitModel EmitProps ModuleModel ModuleSpec ModuleProps ToolModel ToolSpec ToolProofs ToolProps RunsSpec RunsProofs.

(** ** C102 *)

(** A run with several compile commands is like one run for each of them, one
    after the other, in which the module has the name found for the first one. *)
Theorem commands_are_processed_one_after_another : forall env outputs keep xfail name j jobs fs, jobs <> [] ->
  main env outputs keep xfail name (j :: jobs) fs =
  followed_by xfail (main env outputs keep xfail name [j] fs) (main env outputs keep xfail (default_name name (j_main j)) jobs).
Proof. exact one_after_another. Qed.
Print Assumptions commands_are_processed_one_after_another.

(** Finally outputs hold what has been written last. *)
Theorem the_last_command_determines_the_outputs : forall env outputs keep xfail jobs name j fs fs' out code ns n parts reports,
  main env outputs keep xfail name (jobs ++ [j]) fs = Some (fs', out, code) ->
  acceptable outputs -> names name (jobs ++ [j]) (ns ++ [n]) -> generates (effective outputs) n j parts reports ->
  (forall p, In p (effective outputs) -> can_open env p = true /\ (p <> $"-" -> can_rename env p = true)) ->
  keep = true \/ succeeds env (effective outputs) n j parts ->
  let text := preamble (j_main j) (fst (handle_pragmas (j_pragmas j) [])) in
  holds_last fs' text (effective outputs) parts /\ exists earlier, out = earlier ++ printed text (effective outputs) parts.
Proof. exact last_holds. Qed.
Print Assumptions the_last_command_determines_the_outputs.

(** They are gone if the last command fails, as far as outputs have been opened
    for it. *)
Theorem the_last_command_erases_the_outputs : forall env outputs xfail jobs name j fs fs' out code ns n b e,
  main env outputs false xfail name (jobs ++ [j]) fs = Some (fs', out, code) ->
  acceptable outputs -> names name (jobs ++ [j]) (ns ++ [n]) -> ~ (exists parts, succeeds env (effective outputs) n j parts) ->
  (forall p, In p (effective outputs) -> can_open env p = true /\ (p <> $"-" -> can_rename env p = true)) ->
  generate (j_unit j) (j_facts j) (j_found j) (j_implicit j) (j_iteration j) (length (effective outputs)) n = Some (RGraph b e) ->
  forall p, In p outputs -> p <> $"-" -> fs' p = None.
Proof. exact last_erased. Qed.
Print Assumptions the_last_command_erases_the_outputs.

(** No run ever changes other files. *)
Theorem other_files_are_left_alone : forall env outputs keep xfail jobs name fs fs' out code,
  main env outputs keep xfail name jobs fs = Some (fs', out, code) -> forall p, p = $"-" \/ ~ In p outputs -> fs' p = fs p.
Proof. exact others_kept. Qed.
Print Assumptions other_files_are_left_alone.

(** ** Examples *)

(** Three commands, of which the second one fails, with an output given twice. *)
Example the_last_command_determines_the_outputs_example :
  let outputs := [$"/a"; $"-"; $"/a"] in let jobs := [good []; bad] in
  observe (main anything outputs false false [] (jobs ++ [good two_pragmas]) no_files) [$"/a"; $"/b"] = Some ([Generated 4; Absent], 3, 1%N) /\
  observe (main anything outputs false false [] (jobs ++ [bad]) no_files) [$"/a"; $"/b"] = Some ([Absent; Absent], 3, 1%N) /\
  observe (main anything outputs false true [] (jobs ++ [good two_pragmas]) no_files) [] = Some ([], 3, 0%N) /\
  acceptable outputs /\ (forall j, names [] (jobs ++ [job_of j [] shapes shapes_facts]) ([$"shapes"; $"shapes"] ++ [$"shapes"])) /\
  (exists parts reports, generates outputs ($"shapes") (good two_pragmas) parts reports /\ succeeds anything outputs ($"shapes") (good two_pragmas) parts /\
    map (@length _) parts = [9; 4; 4]) /\
  (exists b e, generate (j_unit bad) (j_facts bad) (j_found bad) (j_implicit bad) (j_iteration bad) (length outputs) ($"shapes") = Some (RGraph b e)) /\
  ~ exists parts, succeeds anything outputs ($"shapes") bad parts.
Proof.
  cbv zeta. do 3 (split; [vm_compute; reflexivity|]). split; [intros p [<-|[<-|[<-|[]]]]; [right|left|right]; reflexivity|]. split.
  { intros j. cbn [app]. constructor; [congruence|intros _; vm_compute; reflexivity|]. do 2 (constructor; [reflexivity|discriminate|]). constructor. }
  destruct (written (generate shapes shapes_facts (fun _ => []) (fun _ => false) (@rev nat) 3 ($"shapes"))) as [parts|] eqn:E; [|vm_compute in E; discriminate E].
  assert (Hl : option_map (map (@length _)) (written (generate shapes shapes_facts (fun _ => []) (fun _ => false) (@rev nat) 3 ($"shapes"))) = Some [9; 4; 4]) by (vm_compute; reflexivity).
  rewrite E in Hl. injection Hl as Hl. destruct (written_inv _ _ E) as (b & st & Hg & _). split; [|split].
  - exists parts, []. assert (G : generates [$"/a"; $"-"; $"/a"] ($"shapes") (good two_pragmas) parts []) by (exists b, st; exact Hg).
    split; [exact G|]. split; [|exact Hl]. constructor; try reflexivity. exists []. split; [exact G|intros r []].
  - exists b. eexists. exact Hg.
  - intros (parts' & [C _ _ _ _]). discriminate C.
Qed.
