(** * Properties of type aliases in Python *)
From Coq Require Import Sorting.Permutation Sorting.Sorted.
From Verif Require Import Base ParserModel StringModel StringSpec AnnotModel AnnotSpec CollectModel CollectSpec GraphModel GraphSpec GraphWalk GraphPlace GraphFinal GraphProps
  OrderModel OrderSpec OrderProofs OrderProps InlineModel InlineSpec InlineProofs EmitModel EmitSpec EmitProofs EmitFinal EmitProps ModuleModel ModuleSpec ModuleChunks ModuleProofs ModuleFinal ModuleProps
  ImportSpec ImportProofs ImportProps ExecSpec ExecProofs ExecProps AccessSpec AccessProofs AccessProps ManualSpec ManualProofs ManualProps AliasModel AliasSpec AliasProofs.

(** ** C76 *)

(** When a generated module is imported, an alias is set exactly for each type alias
    annotated as visible, in the object for each exposed context that it belongs
    to.  Its value is the Python class of the target, wherever it is exposed and
    whenever it is declared, and without a warning.  For targets that are not
    exposed it is the class that has been registered otherwise by then, or [None]
    and a warning. *)
Theorem aliases_refer_to_their_targets :
  forall default_holder mro manual fails elsewhere u w found implicit iteration n name b files rs st', setting u w iteration -> 0 < n ->
  generate u w found implicit iteration n name = Some (RGraph b (EWritten files rs st')) ->
  exists g vis order all chunks post, exposed u found implicit name g vis b /\
    generated u w g vis (bs_annotations b) name rs st' order all post /\ layout name post all chunks files /\
    let intros := map (fun e => (ex_id e, ex_intro e)) all in
    let m := IModule name intros (map (fun e => (ex_id e, ex_id e)) all) post in
    filter is_module (concat files) = [m] /\
    (NoDup (map fst intros) -> forall s p, run_module mro manual fails default_holder files m = Some (s, p) ->
      exists steps, performed files m s = Some steps /\
        (forall o k t, (exists q, In (Statement o q (SAlias k t)) steps) <->
           exists e i, In e all /\ value s (ex_id e) = Some o /\ kind u (ex_context e) <> KEnum /\ declared_in u w b (ex_context e) i /\ shown_alias u w i t k) /\
        (forall before o q k t after, steps = before ++ Statement o q (SAlias k t) :: after -> is_tag_kind (kind u t) = true ->
           let v := object_for_type s (known_elsewhere elsewhere before) t in
           (In t (g_nodes g) -> exists c, located u (bs_annotations b) g t c /\ v = (PObject c, false)) /\
           (~ In t (g_nodes g) -> v = match known_elsewhere elsewhere before t with Some c => (PForeign c, false) | None => (PNone, true) end))).
Proof. exact module_aliases. Qed.
Print Assumptions aliases_refer_to_their_targets.

(** ** Examples *)

(** struct GENPYBIND(visible) X(1) { using Alias(2) GENPYBIND(visible) = Y; using Plain(3) = Y; GENPYBIND_MANUAL({40}) (4) };
    struct Z(5) {};
    using Late(6) GENPYBIND(visible) = Z;
    struct GENPYBIND(visible) Y(7) {}; *)
Definition signpost : unit :=
  mkUnit
    (fun i => match i with
              | 0 => a_decl KOther false None []
              | 1 => a_decl KRecord false None ["visible"]%string
              | 2 => a_decl KTypedef false (Some 7) ["visible"]%string
              | 3 => a_decl KTypedef false (Some 7) []
              | 4 => a_block false 40 "manual"
              | 5 => a_decl KRecord false None []
              | 6 => a_decl KTypedef false (Some 5) ["visible"]%string
              | _ => a_decl KRecord false None ["visible"]%string
              end)
    [Node 1 [Node 2 []; Node 3 []; Node 4 []]; Node 5 []; Node 6 []; Node 7 []] 0
    (fun i => match i with 0 => [] | 2 | 3 | 4 => [1; 0] | _ => [0] end)
    (fun _ => true) (fun _ => false) (fun i => i) (fun _ => false)
    (fun i => match i with 1 => $"X" | 2 => $"Alias" | 3 => $"Plain" | 5 => $"Z" | 6 => $"Late" | 7 => $"Y" | _ => $"genpybind_" end) (fun _ => false) N.of_nat.
Definition signpost_found (c : nat) : list nat := match c with 0 => [6] | 1 => [2; 3; 4] | _ => [] end.
Definition signpost_facts : facts :=
  let w := simple_facts signpost no_bases (fun c => match c with 0 => [7; 6; 5; 1] | 1 => [4; 3; 2] | _ => [] end)
    (fun i => match i with 1 => "::X" | 5 => "::Z" | _ => "::Y" end)%string in
  let x := w_extra w in
  mkFacts (mkExtra (x_fn x) (x_const x) (fun i => match i with 2 | 3 => Some 7 | 6 => Some 5 | _ => None end) (x_enumerator x) (x_scoped x) (x_abstract x) (x_specializations x) (x_adl x))
    (w_hierarchy w) (w_members w) (w_results w) (w_qualified w) (w_variables w) (w_pop w).
Definition signpost_files : list (list item) := Eval vm_compute in files_of signpost signpost_facts signpost_found.
Lemma signpost_setting : setting signpost signpost_facts (@rev nat).
Proof. constructor; [placed_unit [1; 2; 3; 4; 5; 6; 7]|language_facts|exists N.of_nat; exact (pop_first_good signpost)|intros l; apply Permutation_rev]. Qed.

(** The manual binding registers the class Z. *)
Definition registers_z (codes : list nat) (t : nat) : option nat := if existsb (Nat.eqb 40) codes then if Nat.eqb t 5 then Some 5 else None else None.

(** X.Alias is Y, Late is None with a warning, X.Plain is not set. *)
Example aliases_refer_to_their_targets_example :
  (exists b st', generate signpost signpost_facts signpost_found (fun _ => false) (@rev nat) 1 ($"m") = Some (RGraph b (EWritten signpost_files [] st')) /\ bs_reports b = []) /\
  (exists intros calls post, module_of signpost_files = IModule ($"m") intros calls post /\ NoDup (map fst intros)) /\
  exists s p, imported (fun _ => []) signpost_files = Some (s, p) /\
    performed signpost_files (module_of signpost_files) s =
      Some [Statement (Mod []) (Some (Mod [])) (SAlias ($"Late") 5); Statement (Mod []) (Some (Mod [])) SUnused; Statement (Class 1) (Some (Mod [])) (SAlias ($"Alias") 7); Statement (Class 1) (Some (Mod [])) (SManual 40)] /\
    object_for_type s (known_elsewhere registers_z []) 5 = (PNone, true) /\
    (forall elsewhere, object_for_type s elsewhere 7 = (PObject (Class 7), false)).
Proof.
  split; [apply written_inv; vm_compute; reflexivity|]. split.
  - do 3 eexists. split; [reflexivity|]. cbn. repeat constructor; cbn; intuition discriminate.
  - do 2 eexists. split; [vm_compute; reflexivity|]. split; [vm_compute; reflexivity|]. split; [vm_compute; reflexivity|]. intros; reflexivity.
Qed.

Lemma signpost_importable : importable signpost signpost_facts signpost_found signpost_files.
Proof.
  split; [exact signpost_setting|]. split; [|split; [apply written_inv; vm_compute; reflexivity|]].
  - intros c d (Kc & _). do 8 (destruct c as [|c]; [discriminate Kc|]). discriminate Kc.
  - do 3 eexists. split; [reflexivity|]. eexists. vm_compute. reflexivity.
Qed.

(** README: alias is a reference to the target.  But it is [None] if the target is
    registered by manual bindings of a class, even if these come first in the
    source. *)
Theorem aliases_find_classes_registered_before_refuted :
  exists u w found files i l j t k elsewhere, importable u w found files /\ (u_location u i < u_location u j)%N /\ holds_block u i l false /\ shown_alias u w j t k /\
    (forall codes, elsewhere codes t <> None <-> In l codes) /\
    exists s p steps before o q after, imported (fun _ => []) files = Some (s, p) /\ performed files (module_of files) s = Some steps /\
      steps = before ++ Statement o q (SAlias k t) :: after /\ In l (map snd (manual_code steps)) /\
      object_for_type s (known_elsewhere elsewhere before) t = (PNone, true).
Proof.
  exists signpost, signpost_facts, signpost_found, signpost_files, 4, 40, 6, 5, ($"Late"), registers_z. split; [exact signpost_importable|]. split; [reflexivity|].
  split; [apply block_holds; vm_compute; reflexivity|]. split; [|split].
  - split; [reflexivity|]. split; [apply attributes_say; vm_compute; reflexivity|]. split; [reflexivity|].
    destruct (attributes_of signpost 6) as [a|] eqn:E; [|vm_compute in E; discriminate E]. exists a. split; [apply attributes_own, E|].
    vm_compute in E. injection E as <-. split; [reflexivity|]. unfold called. cbn. auto.
  - intros codes. unfold registers_z. replace (Nat.eqb 5 5) with true by reflexivity. destruct (existsb (Nat.eqb 40) codes) eqn:E.
    + split; [intros _|intros _; discriminate]. apply existsb_exists in E as (x & Hx & E). apply Nat.eqb_eq in E. subst x. exact Hx.
    + split; [congruence|]. intros H. assert (existsb (Nat.eqb 40) codes = true) by (apply existsb_exists; exists 40; auto). congruence.
  - do 3 eexists. exists []. do 3 eexists. split; [vm_compute; reflexivity|]. split; [vm_compute; reflexivity|]. split; [reflexivity|].
    split; [left; reflexivity|]. vm_compute. reflexivity.
Qed.
Print Assumptions aliases_find_classes_registered_before_refuted.
