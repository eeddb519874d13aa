(** * Properties of the CMake function for building modules *)
From Verif Require Import Base AnnotModel CollectModel GraphModel OrderModel InlineModel EmitModel ModuleModel ModuleSpec ModuleProps ToolModel ToolSpec ToolProps BuildModel BuildSpec BuildProofs.

(** ** C66 *)

(** The requested number of distinct files is written, all of them are compiled
    into the module together with other sources, and after a successful run of
    the tool they hold all parts of the generated code. *)
Theorem builds_compile_the_whole_module : forall bin top src target l h n, directory bin -> directory src -> target <> [] -> use l h n ->
  exists b c, configure bin top src target (flat_map words l) = Some b /\ read_command (bd_command b) = Some c /\
    cm_module c = target /\ cm_sources c = [absolute src h] /\ N.of_nat (length (cm_outputs c)) = n /\ bd_sources b = cm_outputs c ++ others l /\
    (forall x, In x (libraries l) -> In x (bd_libraries b)) /\ NoDup (cm_outputs c) /\
    forall env j fs fs' out code parts, main env (cm_outputs c) false false (cm_module c) [j] fs = Some (fs', out, code) -> succeeds env (cm_outputs c) target j parts ->
      code = 0%N /\ out = [] /\ (forall p, ~ In p (cm_outputs c) -> fs' p = fs p) /\
      Forall2 (fun p part => fs' p = Some (New (preamble (j_main j) (fst (handle_pragmas (j_pragmas j) []))) part)) (cm_outputs c) parts.
Proof. exact cmake_build. Qed.
Print Assumptions builds_compile_the_whole_module.

Definition a_use : list part := [Other [$"MODULE"]; Libraries [$"geometry"]; Count [$"3"]; TheHeader ($"shapes.h"); Other [$"extra.cpp"]].
Definition a_build : option build := configure ($"/build/py") ($"/build") ($"/src") ($"shapes") (flat_map words a_use).
Definition a_files : list str := [$"/build/py/genpybind-shapes-0.cpp"; $"/build/py/genpybind-shapes-1.cpp"; $"/build/py/genpybind-shapes-2.cpp"].

Example builds_compile_the_whole_module_example :
  directory ($"/build/py") /\ directory ($"/src") /\ use a_use ($"shapes.h") 3 /\
  a_build = Some (mkBuild ([$"-p"; $"/build"; $"--module-name"; $"shapes"; $"/src/shapes.h"] ++ map (fun f => $"-o=" ++ f) a_files)
    (a_files ++ [$"MODULE"; $"extra.cpp"]) [$"geometry"; $"genpybind::genpybind"]) /\
  exists parts fs' out code, main anything a_files false false ($"shapes") [good two_pragmas] no_files = Some (fs', out, code) /\ succeeds anything a_files ($"shapes") (good two_pragmas) parts /\
    map (@length _) parts = [9; 4; 4] /\ map (fun p => see (fs' p)) a_files = [Generated 9; Generated 4; Generated 4].
Proof.
  split; [exists "b"%char, ($"uild/py"); split; [reflexivity|discriminate]|]. split; [exists "s"%char, ($"rc"); split; [reflexivity|discriminate]|].
  split; [|split; [reflexivity|]].
  - constructor.
    + intros p v Hp Hv. cbn in Hp. repeat destruct Hp as [<-|Hp]; try contradiction; cbn in Hv; repeat destruct Hv as [<-|Hv]; try contradiction; cbn; intuition discriminate.
    + cbn. auto.
    + split; [reflexivity|discriminate].
    + right. exists 3%N. split; reflexivity.
  - destruct (observe_inv (main anything a_files false false ($"shapes") [good two_pragmas] no_files) a_files ([Generated 9; Generated 4; Generated 4], 0, 0%N) ltac:(vm_compute; reflexivity))
      as (fs' & out & code & H & Hp & _ & Hc).
    destruct (written (generate shapes shapes_facts (fun _ => []) (fun _ => false) (@rev nat) 3 ($"shapes"))) as [parts|] eqn:E; [|vm_compute in E; discriminate E].
    assert (Hl : option_map (map (@length _)) (written (generate shapes shapes_facts (fun _ => []) (fun _ => false) (@rev nat) 3 ($"shapes"))) = Some [9; 4; 4]) by (vm_compute; reflexivity).
    rewrite E in Hl. injection Hl as Hl. destruct (written_inv _ _ E) as (b & st & Hg & _).
    exists parts, fs', out, code. split; [exact H|]. split; [|split; [exact Hl|exact Hp]].
    constructor; try reflexivity. exists []. split; [exists b, st; exact Hg|intros r []].
Qed.

(** ** C67 *)

(** Other arguments at the end, as in the documentation, make CMake fail if a
    number of files is given. *)
Theorem documented_order_is_rejected : forall bin top src target h libs k rest, (forall v, In v (h :: libs ++ rest) -> ~ In v reserved) -> (1 <= k)%N -> rest <> [] ->
  configure bin top src target ([$"HEADER"; h] ++ ($"LINK_LIBRARIES" :: libs) ++ [$"NUM_BINDING_FILES"; decimal k] ++ rest) = None.
Proof. exact documented_order. Qed.
Print Assumptions documented_order_is_rejected.

Theorem arguments_may_follow_the_number_of_files_refuted : exists bin top src target h k s, directory bin /\ directory src /\ (1 <= k)%N /\ ~ In s reserved /\
  configure bin top src target [$"HEADER"; h; $"NUM_BINDING_FILES"; decimal k; s] = None /\ configure bin top src target [s; $"HEADER"; h; $"NUM_BINDING_FILES"; decimal k] <> None.
Proof.
  exists ($"/build"), ($"/build"), ($"/src"), ($"m"), ($"m.h"), 2%N, ($"extra.cpp").
  split; [exists "b"%char, ($"uild"); split; [reflexivity|discriminate]|]. split; [exists "s"%char, ($"rc"); split; [reflexivity|discriminate]|].
  split; [discriminate|]. split; [cbn; intuition discriminate|]. split; [reflexivity|discriminate].
Qed.
Print Assumptions arguments_may_follow_the_number_of_files_refuted.

(** After libraries they are taken for libraries. *)
Theorem arguments_may_follow_the_libraries_refuted : exists bin top src target h lib s b, directory bin /\ directory src /\ ~ In s reserved /\
  configure bin top src target [$"HEADER"; h; $"LINK_LIBRARIES"; lib; s] = Some b /\ ~ In s (bd_sources b) /\ In s (bd_libraries b).
Proof.
  exists ($"/build"), ($"/build"), ($"/src"), ($"m"), ($"m.h"), ($"lib"), ($"extra.cpp"). eexists.
  split; [exists "b"%char, ($"uild"); split; [reflexivity|discriminate]|]. split; [exists "s"%char, ($"rc"); split; [reflexivity|discriminate]|].
  split; [cbn; intuition discriminate|]. split; [reflexivity|]. split; [vm_compute; intuition discriminate|cbn; auto].
Qed.
Print Assumptions arguments_may_follow_the_libraries_refuted.
