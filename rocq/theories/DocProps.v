(** * The documentation found in Python *)
From Coq Require Import Sorting.Permutation Sorting.Sorted.
From Verif Require Import Base ParserModel StringModel AnnotModel AnnotSpec AnnotStore AnnotFinal CollectModel CollectSpec GraphModel GraphSpec GraphWalk GraphPlace GraphProps
  OrderModel OrderSpec OrderProofs OrderProps InlineModel InlineSpec EmitModel EmitSpec EmitProps TextModel ModuleModel ModuleSpec ModuleProofs ModuleChunks ModuleFinal ModuleProps ImportSpec ImportProofs ImportProps
  ExecSpec ExecProps AccessSpec AccessProofs AccessProps DocSpec DocProofs.

(** ** C97 *)

(** The __doc__ of a function of the module, read by lines, has the signatures of
    its overloads in order, each along with the comment of the function it calls, which
    is visible. *)
Theorem functions_have_their_comments_partial :
  forall default_holder mro manual fails u w found implicit iteration n name b files rs st', setting u w iteration -> 0 < n ->
  generate u w found implicit iteration n name = Some (RGraph b (EWritten files rs st')) ->
  forall m s p, run_module mro manual fails default_holder files m = Some (s, p) ->
  forall tx signature, adds_nothing manual ->
  exists g vis, exposed u found implicit name g vis b /\ forall o k static l, own p o k = Some (MFunction static l) ->
    (forall t f, In t l -> bound_to t = Some f -> is_tag_kind (kind u f) = false -> exists c, In c (g_nodes g) /\ declared_in u w b c f /\ visible_in u b name c f) /\
    (l <> [] -> readable tx signature k l -> exists docs, read_function k (function_doc tx signature k l) = Some docs /\
      Forall2 (fun t d => fst d = signature t /\ documents tx t (snd d)) l docs).
Proof. exact functions_documented. Qed.
Print Assumptions functions_have_their_comments_partial.

(** The comment of every visible function that is not a property or operator is
    found there. *)
Theorem comments_of_visible_functions_are_found_partial :
  forall default_holder mro manual fails u w found implicit iteration n name b files rs st' tx signature, setting u w iteration -> nested_blocks u -> 0 < n ->
  generate u w found implicit iteration n name = Some (RGraph b (EWritten files rs st')) ->
  exists g vis order all chunks post, exposed u found implicit name g vis b /\
    generated u w g vis (bs_annotations b) name rs st' order all post /\ layout name post all chunks files /\
    let intros := map (fun e => (ex_id e, ex_intro e)) all in
    let m := IModule name intros (map (fun e => (ex_id e, ex_id e)) all) post in
    filter is_module (concat files) = [m] /\
    (NoDup (map fst intros) -> agreeing_blocks u (bs_annotations b) g -> distinct_names u (bs_annotations b) g -> usable_bases default_holder w intros ->
     exists cs, contributions u (bs_annotations b) g all cs /\
       (no_clashes mro u (bs_annotations b) g cs -> executable manual fails all post ->
        exists s p, run_module mro manual fails default_holder files m = Some (s, p) /\
          forall c o x i a k, In c (map ex_context all) -> located u (bs_annotations b) g c o -> create u (bs_annotations b) (w_hierarchy w) c = Some x ->
            In i (flat_map (expand (w_extra w)) (looked_up u w c x)) -> supports_function (u_decls u i) = true -> own_attributes u i a -> visible_in u b name c i ->
            ordinary u (w_extra w) x i a k -> (forall q, x <> XEnum q) ->
            exists static l, own p o k = Some (MFunction static l) /\
              (readable tx signature k l -> exists docs t d, read_function k (function_doc tx signature k l) = Some docs /\ In t l /\ bound_to t = Some i /\ In (signature t, d) docs /\ commented tx i d))).
Proof. exact comments_found. Qed.
Print Assumptions comments_of_visible_functions_are_found_partial.

(** The __doc__ of an exposed enumeration has its comment and lists exactly the
    visible values in the order in which they are written, each with its comment. *)
Theorem enumerations_list_their_values :
  forall default_holder mro manual fails u w found implicit iteration n name b files rs st', setting u w iteration -> 0 < n ->
  generate u w found implicit iteration n name = Some (RGraph b (EWritten files rs st')) ->
  forall m s p, In m (concat files) -> run_module mro manual fails default_holder files m = Some (s, p) ->
  forall tx, leaves_values manual -> proper_enumerators u w ->
  exists g vis, exposed u found implicit name g vis b /\ forall e, In e (g_nodes g) -> kind u e = KEnum ->
    exists l vs, enumerators u w b e l /\ listed tx u b name e l vs /\ (readable_enum tx e vs -> read_enum (enum_doc tx p e) = Some (tx_brief tx e, vs)).
Proof. exact enumerations_documented. Qed.
Print Assumptions enumerations_list_their_values.

(** ** Example *)

(** /// Describes how the output will taste.
    enum class GENPYBIND(visible) Flavor(1) {
      /// Like you would expect.
      bland(2),
      fruity(3) GENPYBIND(hidden),
      sweet(4) GENPYBIND(expose_as(mellow)),
    };
    class GENPYBIND(visible) Example(5) {
      /// How many there are.
      int number(6);
      /// How large it is.
      int size(7)() GENPYBIND(getter_for(length));
    };
    /// Cooks something.
    void cook(8)() GENPYBIND(visible);
    void cook(9)(int) GENPYBIND(visible);
    /// Cooks anything.
    template <typename T> void cook(11)(T);
    template void cook(10)(Example) GENPYBIND(visible); *)
Definition menu : unit :=
  mkUnit
    (fun i => match i with
              | 0 | 2 => a_decl KOther false None []
              | 1 => a_decl KEnum false None ["visible"]%string
              | 3 => a_decl KOther false None ["hidden"]%string
              | 4 => a_decl KOther false None ["expose_as(mellow)"]%string
              | 5 => a_decl KRecord false None ["visible"]%string
              | 6 => a_decl KField false None []
              | 7 => mkDecl (KMethod NoOperator) [lozenge ++ $"getter_for(length)"] false [] 0 false false false [] [] None false None
              | _ => a_decl (KFunction NoOperator) false None ["visible"]%string
              end)
    [Node 1 [Node 2 []; Node 3 []; Node 4 []]; Node 5 [Node 6 []; Node 7 []]; Node 8 []; Node 9 []; Node 10 []] 0
    (fun i => match i with 0 => [] | 2 | 3 | 4 => [1; 0] | 6 | 7 => [5; 0] | _ => [0] end)
    (fun _ => true) (fun _ => false) (fun i => i) (fun _ => false)
    (fun i => match i with 1 => $"Flavor" | 2 => $"bland" | 3 => $"fruity" | 4 => $"sweet" | 5 => $"Example" | 6 => $"number" | 7 => $"size" | _ => $"cook" end) (fun _ => false) N.of_nat.
Definition menu_found (c : nat) : list nat := match c with 0 => [1; 5; 8; 9; 10] | 1 => [2; 3; 4] | 5 => [6; 7] | _ => [] end.
Definition menu_facts : facts := simple_facts menu no_bases menu_found (fun i => match i with 1 => "::Flavor" | _ => "::Example" end)%string.

Lemma menu_setting : setting menu menu_facts (@rev nat).
Proof. constructor; [placed_unit [1; 2; 3; 4; 5; 6; 7; 8; 9; 10]|language_facts|exists N.of_nat; exact (pop_first_good menu)|intros l; apply Permutation_rev]. Qed.

Definition menu_files : list (list item) := Eval vm_compute in files_of menu menu_facts menu_found.

Definition menu_texts : texts :=
  mkTexts (fun _ => []) (fun _ => []) (fun _ => []) (fun _ => None) (fun _ => [])
    (fun i => match i with
              | 1 => $"Describes how the output will taste." | 2 => $"Like you would expect." | 6 => $"How many there are." | 7 => $"How large it is."
              | 8 => $"Cooks something." | 11 => $"Cooks anything." | _ => []
              end)
    (fun i => match i with 10 => Some 11 | _ => None end) (fun _ => (None, [])).
Definition menu_signature (t : stmt) : str := match bound_to t with Some 9 => $"(arg0: int) -> None" | Some 10 => $"(arg0: m.Example) -> None" | _ => $"() -> None" end.

Definition cook : list stmt := Eval vm_compute in match outcome (fun _ => []) menu_files [(Mod [], $"cook")] with Some [Some (MFunction _ l)] => l | _ => [] end.

Definition text_of (l : list string) : str := joined (map (fun s => $s) l).

Lemma menu_generated : exists b st', generate menu menu_facts menu_found (fun _ => false) (@rev nat) 1 ($"m") = Some (RGraph b (EWritten menu_files [] st')) /\ bs_reports b = [].
Proof. apply written_inv. vm_compute. reflexivity. Qed.

Lemma menu_run : exists s p, imported (fun _ => []) menu_files = Some (s, p) /\
  own p (Mod []) ($"cook") = Some (MFunction false cook) /\ own p (Class 5) ($"number") = Some (MValue (SMember false false ($"number") 6)) /\
  own p (Class 5) ($"length") = Some (MValue (SProperty ($"length") 7 None)) /\ entries p 1 = [($"bland", SValue ($"bland") 2); ($"mellow", SValue ($"mellow") 4)].
Proof. do 2 eexists. split; [vm_compute; reflexivity|]. repeat split; vm_compute; reflexivity. Qed.

Lemma cook_readable : readable menu_texts menu_signature ($"cook") cook.
Proof.
  constructor.
  - vm_compute. intuition discriminate.
  - intros t Ht. cbn in Ht. destruct Ht as [<-|[<-|[<-|[]]]]; (split; [vm_compute; intuition discriminate|]; split; [eexists; reflexivity|vm_compute; discriminate]).
  - intros t Ht. cbn in Ht. destruct Ht as [<-|[<-|[<-|[]]]]; (split; [vm_compute; intuition discriminate|]; apply words_unlike; vm_compute; auto).
Qed.

Example documentation_is_found_example :
  setting menu menu_facts (@rev nat) /\
  (exists b st', generate menu menu_facts menu_found (fun _ => false) (@rev nat) 1 ($"m") = Some (RGraph b (EWritten menu_files [] st')) /\ bs_reports b = []) /\
  adds_nothing (fun _ _ p => Some p) /\ leaves_values (fun _ _ p => Some p) /\ proper_enumerators menu menu_facts /\
  exists s p, imported (fun _ => []) menu_files = Some (s, p) /\
    own p (Mod []) ($"cook") = Some (MFunction false cook) /\ readable menu_texts menu_signature ($"cook") cook /\
    function_doc menu_texts menu_signature ($"cook") cook =
      $"cook(*args, **kwargs)" ++ break ++ $"Overloaded function." ++ break ++ break ++
      text_of ["1. cook() -> None"; "Cooks something."; "2. cook(arg0: int) -> None"; "3. cook(arg0: m.Example) -> None"; "Cooks anything."]%string ++ break /\
    (* as in docstrings_test.py *)
    enum_doc menu_texts p 1 = text_of ["Describes how the output will taste."; "Members:"; "  bland : Like you would expect."; "  mellow"]%string /\
    readable_enum menu_texts 1 [($"bland", $"Like you would expect."); ($"mellow", [])].
Proof.
  split; [exact menu_setting|]. split; [exact menu_generated|]. split; [intros l o p p' [= <-] t H; exact H|]. split; [intros l o p p' [= <-] e; reflexivity|].
  split. { intros i Hi. cbn in Hi. split; [|split; [reflexivity|intros j l E; discriminate E]]. unfold kind in *. do 11 (destruct i as [|i]; [first [reflexivity|discriminate Hi]|]). reflexivity. }
  destruct menu_run as (s & p & R & Ho & _ & _ & He). exists s, p. split; [exact R|]. split; [exact Ho|]. split; [exact cook_readable|].
  split; [vm_compute; reflexivity|]. split; [unfold enum_doc; rewrite He; vm_compute; reflexivity|].
  constructor; [split; [vm_compute; intuition discriminate|vm_compute; discriminate]|].
  intros n c [[= <- <-]|[[= <- <-]|[]]]; (split; [vm_compute; intuition discriminate|split; vm_compute; intuition discriminate]).
Qed.

(** Comments of data members and of getters are not passed on, although they are
    visible and annotations are in order. *)
Theorem comments_of_members_refuted :
  exists u w found implicit iteration n name b files st' mro manual fails default_holder m s p tx signature,
    setting u w iteration /\ 0 < n /\ generate u w found implicit iteration n name = Some (RGraph b (EWritten files [] st')) /\ bs_reports b = [] /\
    run_module mro manual fails default_holder files m = Some (s, p) /\
    exists field getter o k k' v v', tx_brief tx field <> [] /\ tx_brief tx getter <> [] /\
      own p o k = Some v /\ (exists t, reaches v t /\ mentions t field) /\ attribute_doc tx signature k v = None /\
      own p o k' = Some v' /\ (exists t, reaches v' t /\ mentions t getter) /\ attribute_doc tx signature k' v' = None.
Proof.
  destruct menu_generated as (b & st' & G & Rb). destruct menu_run as (s & p & R & _ & H1 & H2 & _).
  exists menu, menu_facts, menu_found, (fun _ => false), (@rev nat), 1, ($"m"), b, menu_files, st', (fun _ => []), (fun _ _ p => Some p), (fun _ => false), held_by_default, (module_of menu_files), s, p, menu_texts, menu_signature.
  split; [exact menu_setting|]. split; [lia|]. split; [exact G|]. split; [exact Rb|]. split; [exact R|]. clear G R.
  exists 6, 7, (Class 5), ($"number"), ($"length"), (MValue (SMember false false ($"number") 6)), (MValue (SProperty ($"length") 7 None)).
  split; [intro Q; vm_compute in Q; discriminate Q|]. split; [intro Q; vm_compute in Q; discriminate Q|].
  split; [exact H1|]. split; [eexists; split; [reflexivity|reflexivity]|]. split; [reflexivity|].
  split; [exact H2|]. split; [eexists; split; [reflexivity|left; reflexivity]|reflexivity].
Qed.
Print Assumptions comments_of_members_refuted.
