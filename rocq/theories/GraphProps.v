(** * Properties of the context graph and its processing *)
From Verif Require Import Base ParserModel AnnotModel AnnotSpec CollectModel CollectSpec GraphModel GraphSpec GraphWalk GraphPlace GraphProofs GraphFinal.
From Coq Require Import Sorting.Sorted.

(** ** Examples *)

Definition a_decl (k : dkind) (skip : bool) (target : option nat) (texts : list string) : decl :=
  mkDecl k (map (fun t => lozenge ++ $t) texts) skip [] 0 false false false [] [] None true target.

(** namespace GENPYBIND(visible) 1 { class 2; class GENPYBIND(hidden) 4 { class GENPYBIND(visible) 5; }; }
    using 3 GENPYBIND(visible, expose_here) = 2;
    namespace GENPYBIND(only_expose_in(other)) 6 { class GENPYBIND(visible) 7; } *)
Definition demo : unit :=
  mkUnit
    (fun i => match i with
              | 0 => a_decl KOther false None []
              | 1 => a_decl KNamespace false None ["visible"]%string
              | 2 => a_decl KRecord false None []
              | 3 => a_decl KTypedef false (Some 2) ["visible"; "expose_here"]%string
              | 4 => a_decl KRecord false None ["hidden"]%string
              | 6 => a_decl KNamespace false None ["only_expose_in(other)"]%string
              | _ => a_decl KRecord false None ["visible"]%string
              end)
    [Node 1 [Node 2 []; Node 4 [Node 5 []]]; Node 3 []; Node 6 [Node 7 []]] 0
    (fun i => match i with 0 => [] | 2 | 4 => [1; 0] | 5 => [4; 1; 0] | 7 => [6; 0] | _ => [0] end)
    (fun _ => true) (fun _ => false) (fun i => i) (fun _ => false) (fun i => match i with 3 => $"Alias" | _ => $"Other" end) (fun _ => false) N.of_nat.

(** Decides the facts about a given translation unit. *)
Ltac unit_facts :=
  repeat match goal with
  | |- _ -> _ => intro
  | |- forall _, _ => intro
  | H : _ \/ _ |- _ => destruct H
  | H : False |- _ => destruct H
  | H : _ /\ _ |- _ => destruct H
  | H : In _ _ |- _ => cbn in H
  | H : part _ _ |- _ => destruct H as (? & ? & ?)
  | H : inside _ (Node _ _) _ |- _ => inversion H; subst; clear H
  | H : Node _ _ = _ |- _ => subst
  end; subst; cbn in *; try discriminate; try congruence; auto.

Lemma demo_placed : placed demo.
Proof.
  constructor.
  - constructor.
    + change (NoDup [1; 2; 4; 5; 3; 6; 7]). repeat constructor; cbn; intuition congruence.
    + intros n ts m (t & Ht & Hi) Hm Hn Hk. unfold demo in *. cbn in Ht.
      destruct Ht as [<-|[<-|[<-|[]]]].
      all: repeat match goal with
        | H : inside _ (Node _ _) _ |- _ => inversion H; subst; clear H
        | H : In _ (_ :: _) |- _ => destruct H as [<-|H]
        | H : In _ [] |- _ => destruct H
        end; cbn in *; repeat match goal with H : _ \/ _ |- _ => destruct H | H : False |- _ => destruct H end; subst; cbn in *; discriminate.
    + intros i. do 8 (destruct i as [|i]; [cbn; discriminate|]). cbn. discriminate.
  - reflexivity.
  - reflexivity.
  - intros i Hi. change (In i [1; 2; 4; 5; 3; 6; 7]) in Hi. unit_facts.
  - intros a t Ha Hk _ Ht. change (In a [1; 2; 4; 5; 3; 6; 7]) in Ha. repeat (destruct Ha as [<-|Ha]; [try discriminate|]); [|destruct Ha].
    cbn in Ht. injection Ht as <-. auto.
Qed.

(** ** C21 *)

(** If a graph is produced, it is a tree (up to unreachable nodes) whose edges
    lead to the context of the unique [expose_here] alias if there is one, and
    else to the innermost enclosing context. *)
Theorem every_context_has_one_place :
  forall u, placed u -> forall b, build_graph u = Done (true, b) ->
    tree_like (bs_graph b) (u_root u) /\
    (forall p c, edge (bs_graph b) p c <-> place u p c) /\
    (forall n, In n (g_nodes (bs_graph b)) <-> n = u_root u \/ exists p c, place u p c /\ (n = p \/ n = c)) /\
    (forall a a' t, relocates u a t -> relocates u a' t -> a = a') /\
    (forall a t, assoc (bs_relocated b) t = Some a <-> relocates u a t).
Proof. exact one_place. Qed.
Print Assumptions every_context_has_one_place.

(** No graph is produced exactly if an error is reported; assertions hold. *)
Theorem no_graph_only_after_errors :
  forall u, placed u -> build_graph u <> AssertFails /\ (build_graph u = NestedReport <-> collect u = None) /\
    forall ok b, build_graph u = Done (ok, b) -> (ok = false <-> exists r, In r (bs_reports b) /\ is_error_report r = true).
Proof. exact no_graph_iff. Qed.
Print Assumptions no_graph_only_after_errors.

(** All but the first of several aliases for one target are errors naming both. *)
Theorem competing_aliases_are_reported :
  forall u, placed u -> forall s, collect u = Some s -> errors_occurred (cs_reports s) = false ->
    forall ok b, build_graph u = Done (ok, b) -> forall a c,
    In (RAlreadyExposed a c) (bs_reports b) <->
    exists t, relocates u a t /\ relocates u c t /\ precedes u c a /\ forall d, relocates u d t -> d = c \/ precedes u c d.
Proof. exact conflicts_iff. Qed.
Print Assumptions competing_aliases_are_reported.

Definition built_edges (u : unit) : option (bool * list (nat * nat) * list report) :=
  match build_graph u with Done (ok, b) => Some (ok, g_edges (bs_graph b), bs_reports b) | _ => None end.

Example C21_example : placed demo /\ built_edges demo = Some (true, [(0, 2); (0, 1); (1, 4); (4, 5); (0, 6); (6, 7)], []).
Proof. split; [exact demo_placed|vm_compute; reflexivity]. Qed.

(** A second alias 6 for the target of 3. *)
Definition demo_twice : unit :=
  mkUnit (fun i => match i with 6 => a_decl KTypedef false (Some 2) ["expose_here"]%string | _ => u_decls demo i end)
    [Node 1 [Node 2 []; Node 4 [Node 5 []]]; Node 3 []; Node 6 []] 0 (u_contexts demo)
    (fun _ => true) (fun _ => false) (fun i => i) (fun _ => false) (u_name demo) (fun _ => false) N.of_nat.

Example C21_example_conflict : built_edges demo_twice = Some (false, [(0, 2)], [RAlreadyExposed 6 3]).
Proof. vm_compute. reflexivity. Qed.

(** ** C22 *)

(** An alias is reported exactly if its target is unreachable.  Each cycle has
    the target of a reported alias on it.  Without reports everything is
    reachable, provided that the contexts enclosing contexts are looked at. *)
Theorem relocation_cycles_are_reported :
  forall u, placed u -> forall b vis, build_graph u = Done (true, b) ->
    derive_effective_visibility u (bs_annotations b) (bs_graph b) = Some vis ->
    let cycles := expose_here_cycles u (bs_graph b) (reachable_contexts vis) (bs_relocated b) in
    let reached := reachable (bs_graph b) (u_root u) in
    (forall a, In a cycles <-> exists t, relocates u a t /\ ~ reached t) /\
    (well_nested u -> forall n l, leads (edge (bs_graph b)) n n l -> exists a t, In t l /\ relocates u a t /\ In a cycles) /\
    (well_nested u -> no_orphans u -> cycles = [] -> forall n, In n (g_nodes (bs_graph b)) -> reached n) /\
    StronglySorted (fun a c => (u_location u a <= u_location u c)%N) cycles.
Proof. exact cycles_spec. Qed.
Print Assumptions relocation_cycles_are_reported.

(** class 1 { using 3 GENPYBIND(expose_here) = 2; }; class 2 { using 4 GENPYBIND(expose_here) = 1; }; *)
Definition cyclic : unit :=
  mkUnit
    (fun i => match i with
              | 0 => a_decl KOther false None []
              | 3 => a_decl KTypedef false (Some 2) ["expose_here"]%string
              | 4 => a_decl KTypedef false (Some 1) ["expose_here"]%string
              | _ => a_decl KRecord false None ["visible"]%string
              end)
    [Node 1 [Node 3 []]; Node 2 [Node 4 []]] 0
    (fun i => match i with 0 => [] | 3 => [1; 0] | 4 => [2; 0] | _ => [0] end)
    (fun _ => true) (fun _ => false) (fun i => i) (fun _ => false) (fun i => match i with 3 => $"A" | _ => $"B" end) (fun _ => false) N.of_nat.

Example C22_example : process cyclic (fun _ => []) (fun _ => false) ($"m") = Done (Cycles [3; 4]).
Proof. vm_compute. reflexivity. Qed.

(** namespace std { ... }
    template <> struct GENPYBIND(visible) std::hash<...> { ... };  // 2
    The namespace is not looked into, the specialisation belongs to it. *)
Definition specialised : unit :=
  mkUnit
    (fun i => match i with
              | 0 => a_decl KOther false None []
              | 1 => a_decl KNamespace true None []
              | _ => a_decl KRecord false None ["visible"]%string
              end)
    [Node 1 []; Node 2 []; Node 3 []] 0
    (fun i => match i with 0 => [] | 2 => [1; 0] | _ => [0] end)
    (fun _ => true) (fun _ => false) (fun i => i) (fun _ => false) (fun _ => $"hash") (fun _ => false) N.of_nat.

Lemma specialised_placed : placed specialised.
Proof.
  constructor.
  - constructor.
    + change (NoDup [2; 3]). repeat constructor; cbn; intuition congruence.
    + intros n ts m (t & Ht & Hi) Hm Hn Hk. unfold specialised in *. cbn in Ht.
      destruct Ht as [<-|[<-|[<-|[]]]]; inversion Hi; subst; cbn in *; repeat match goal with H : _ \/ _ |- _ => destruct H | H : False |- _ => destruct H end; subst; cbn in *; try discriminate.
    + intros i. do 4 (destruct i as [|i]; [cbn; auto; discriminate|]). cbn. discriminate.
  - reflexivity.
  - reflexivity.
  - intros i Hi. change (In i [2; 3]) in Hi. unit_facts.
  - intros a t Ha Hk _ Ht. change (In a [2; 3]) in Ha. repeat (destruct Ha as [<-|Ha]; [try discriminate|]); destruct Ha.
Qed.

Lemma specialised_nested : well_nested specialised.
Proof.
  exists (fun i => match i with 0 => 0 | 1 => 1 | _ => 2 end). intros c p (l1 & l2 & E & _ & Hn).
  assert (l1 = []) as ->. { destruct l1 as [|x l1]; [reflexivity|]. specialize (Hn x (or_introl eq_refl)). discriminate. }
  unfold specialised in E. cbn in E. destruct c as [|[|[|c]]]; try discriminate; injection E as <- _; lia.
Qed.

(** Without that proviso the claim fails: a visible class is lost without any report. *)
Theorem unreachable_contexts_are_reported_refuted :
  exists u found implicit b, placed u /\ well_nested u /\
    process u found implicit ($"m") = Done (Pruned (mkGraph [0; 3] [(0, 3)]) [0] [(3, true); (0, false)] [] b) /\
    bs_reports b = [] /\
    exists n, In n (g_nodes (bs_graph b)) /\ kind u n = KRecord /\ explicit (bs_annotations b) n true /\ ~ reachable (bs_graph b) (u_root u) n.
Proof.
  exists specialised, (fun _ => []), (fun _ => false).
  destruct (build_graph specialised) as [[ok b]| |] eqn:E; [|vm_compute in E; discriminate|vm_compute in E; discriminate].
  exists b. split; [exact specialised_placed|]. split; [exact specialised_nested|].
  assert (Eb : Done (ok, b) = build_graph specialised) by (symmetry; exact E). vm_compute in Eb. injection Eb as -> ->.
  split; [vm_compute; reflexivity|]. split; [reflexivity|]. exists 2. split; [cbn; auto|]. split; [reflexivity|].
  split; [eexists; split; [vm_compute; reflexivity|reflexivity]|].
  intros (l & Hp). inversion Hp as [|p c l' Hp' He]; subst; clear Hp. cbn in He. destruct He as [He|[He|[]]]; [injection He as <-|discriminate].
  inversion Hp' as [|p c l Hp He]; subst; clear Hp'. cbn in He. destruct He as [He|[He|[]]]; discriminate.
Qed.
Print Assumptions unreachable_contexts_are_reported_refuted.

(** ** C23 *)

(** The nearest context on the way to the root that has an explicit visibility
    or is not public decides. *)
Theorem visibility_comes_from_nearest_deciding_context :
  forall u st g, tree_like g (u_root u) ->
    exists m, derive_effective_visibility u st g = Some m /\
      (forall n, (exists v, dlookup m n = Some v) <-> reachable g (u_root u) n) /\
      (forall n l v, path (edge g) (u_root u) (n :: l) -> (dlookup m n = Some v <-> visible_along u st (n :: l) v)).
Proof. exact visibility_spec. Qed.
Print Assumptions visibility_comes_from_nearest_deciding_context.

Example C23_example :
  match build_graph demo with
  | Done (_, b) => option_map (fun m => map (dlookup m) [0; 1; 2; 4; 5; 6; 7; 8]) (derive_effective_visibility demo (bs_annotations b) (bs_graph b))
  | _ => None
  end = Some [Some false; Some true; Some true; Some false; Some true; Some false; Some true; None].
Proof. vm_compute. reflexivity. Qed.

(** ** C24 *)

Theorem contexts_to_expose_have_content :
  forall u st found implicit vis g, tree_like g (u_root u) ->
    (forall n, reachable g (u_root u) n -> exists b, dlookup vis n = Some b) ->
    exists ns, contexts_with_visible_decls u st found implicit vis g = Some ns /\
      forall n, In n ns <-> reachable g (u_root u) n /\ has_content u st found implicit (lookup_vis vis) g n.
Proof. exact content_spec. Qed.
Print Assumptions contexts_to_expose_have_content.

(** ** C25 *)

(** A context is kept exactly if it and all of its ancestors are to be
    preserved; the result is a tree, with the same parents. *)
Theorem pruning_keeps_what_is_exposed :
  forall u contexts vis g, tree_like g (u_root u) -> (forall n, reachable g (u_root u) n -> exists b, dlookup vis n = Some b) ->
    exists g', prune_graph u g contexts vis = Some g' /\ tree_like g' (u_root u) /\
      (forall p c, edge g' p c <-> exists l, kept_path u contexts vis g (c :: p :: l)) /\
      (forall n, In n (g_nodes g') <-> n = u_root u \/ exists l, kept_path u contexts vis g (n :: l)) /\
      (forall n, In n (g_nodes g') <-> reachable g' (u_root u) n) /\
      (forall l, path (edge g') (u_root u) l -> path (edge g) (u_root u) l).
Proof. exact pruned_spec. Qed.
Print Assumptions pruning_keeps_what_is_exposed.

(** Exactly the contexts with something to expose that get lost are warned
    about (at the alias for relocated ones), and if a visible class gets lost
    then so does the context it is nested in, which is warned about. *)
Theorem lost_contexts_are_warned_about :
  forall u, placed u -> forall found implicit module_name g' contexts vis warned b,
    process u found implicit module_name = Done (Pruned g' contexts vis warned b) ->
    let g := bs_graph b in
    (forall w, In w warned <-> exists n, In n contexts /\ n <> u_root u /\ ~ In n (g_nodes g') /\
       (relocates u w n \/ (w = n /\ forall a, ~ relocates u a n))) /\
    (forall n, tag u n -> lookup_vis vis n = true -> reachable g (u_root u) n -> ~ In n (g_nodes g') ->
       exists p, edge g p n /\ In p contexts /\ p <> u_root u /\ ~ In p (g_nodes g')).
Proof. exact lost_is_warned. Qed.
Print Assumptions lost_contexts_are_warned_about.

(** The steps follow each other without failing assertions. *)
Theorem processing_never_asserts :
  forall u, placed u -> forall found implicit module_name,
    match process u found implicit module_name with
    | AssertFails => False
    | NestedReport => collect u = None
    | Done (NoGraph rs) => exists r, In r rs /\ is_error_report r = true
    | Done (Cycles aliases) => aliases <> [] /\ exists b vis, build_graph u = Done (true, b) /\
        derive_effective_visibility u (bs_annotations b) (bs_graph b) = Some vis /\
        aliases = expose_here_cycles u (bs_graph b) (reachable_contexts vis) (bs_relocated b)
    | Done (Pruned g' contexts' vis' warned b) => exists vis contexts,
        let g := bs_graph b in let st := bs_annotations b in
        build_graph u = Done (true, b) /\ derive_effective_visibility u st g = Some vis /\
        expose_here_cycles u g (reachable_contexts vis) (bs_relocated b) = [] /\
        contexts_with_visible_decls u st found implicit vis g = Some contexts /\
        hide_namespaces u st g module_name contexts vis = Some (contexts', vis') /\
        prune_graph u g contexts' vis' = Some g' /\ warned = unreachable_visible u g' contexts' (bs_relocated b)
    end.
Proof. exact process_spec. Qed.
Print Assumptions processing_never_asserts.

(** 5 is visible inside of the hidden 4: warned about is 4.  6 and 7 are for
    another module. *)
Definition processed_demo (m : string) :=
  match process demo (fun _ => []) (fun _ => false) ($m) with
  | Done (Pruned g contexts vis warned _) => Some (g_edges g, contexts, map (dlookup vis) [6; 7], warned)
  | _ => None
  end.

Example C24_C25_C26_example :
  processed_demo "mine" = Some ([(0, 2)], [0; 4], [Some false; Some false], [4]) /\
  processed_demo "other" = Some ([(0, 2); (0, 6); (6, 7)], [0; 6; 4], [Some false; Some true], [4]).
Proof. split; vm_compute; reflexivity. Qed.

(** ** C26 *)

Theorem only_expose_in_hides_foreign_parts :
  forall u st module_name g, tree_like g (u_root u) -> forall contexts vis,
    exists contexts' vis', hide_namespaces u st g module_name contexts vis = Some (contexts', vis') /\
      (forall n l, path (edge g) (u_root u) (n :: l) ->
         (In n contexts' <-> In n contexts /\ ~ exists m, In m (n :: l) /\ foreign u st module_name m) /\
         ((exists m, In m (n :: l) /\ foreign u st module_name m) -> dlookup vis' n = Some false) /\
         (~ (exists m, In m (n :: l) /\ foreign u st module_name m) -> dlookup vis' n = dlookup vis n)) /\
      (forall n, ~ reachable g (u_root u) n -> (In n contexts' <-> In n contexts) /\ dlookup vis' n = dlookup vis n).
Proof. exact hide_spec. Qed.
Print Assumptions only_expose_in_hides_foreign_parts.

(** ** C27 *)

(** Nearest proper ancestor that is not an annotated namespace without [module]. *)
Theorem scope_is_nearest_module_or_class :
  forall u st g, tree_like g (u_root u) -> kind u (u_root u) = KOther ->
    exists m, find_enclosing_scopes u st g = Some m /\
      (forall n, (exists v, dlookup m n = Some v) <-> reachable g (u_root u) n) /\
      dlookup m (u_root u) = Some None /\
      (forall n l, path (edge g) (u_root u) (n :: l) -> n <> u_root u ->
         exists l1 p l2, l = l1 ++ p :: l2 /\ ~ transparent u st p /\ (forall q, In q l1 -> transparent u st q) /\ dlookup m n = Some (Some p)).
Proof. exact scope_spec. Qed.
Print Assumptions scope_is_nearest_module_or_class.

(** The annotated namespaces 1 and 6 are transparent. *)
Example C27_example :
  match build_graph demo with
  | Done (_, b) => option_map (fun m => map (dlookup m) [0; 1; 4; 5; 7]) (find_enclosing_scopes demo (bs_annotations b) (bs_graph b))
  | _ => None
  end = Some [Some None; Some (Some 0); Some (Some 0); Some (Some 4); Some (Some 0)].
Proof. vm_compute. reflexivity. Qed.

(** ** C53, C44 *)

(** Attributes of contexts that are not the target of an annotated alias are
    those collected.  Targets keep their attributes except for name and
    visibility: the name is that of the relocating alias if there is one; the
    visibility is that of the relocating alias, or visible if an encouraging
    alias comes later. *)
Theorem aliases_change_name_and_visibility_of_targets :
  forall u, placed u -> forall b s, collect u = Some s -> build_graph u = Done (true, b) -> forall t,
    ((forall a, ~ relocates u a t) -> (forall a, ~ encourages u a t) -> lookup_attrs (bs_annotations b) t = lookup_attrs (cs_annotations s) t) /\
    (forall a0, relocates u a0 t \/ encourages u a0 t ->
      exists y z, lookup_attrs (bs_annotations b) t = Some y /\ own_attributes u t z /\ same_but_named y z /\
      (forall a x, relocates u a t -> own_attributes u a x ->
         n_spelling (at_named y) = match n_spelling (at_named x) with [] => u_name u a | n => n end) /\
      ((forall a, ~ relocates u a t) -> n_spelling (at_named y) = n_spelling (at_named z)) /\
      (forall a x, relocates u a t -> own_attributes u a x -> (forall e, encourages u e t -> ~ precedes u a e) ->
         n_visible (at_named y) = n_visible (at_named x)) /\
      (forall e, encourages u e t -> (forall a, relocates u a t -> precedes u a e) -> n_visible (at_named y) = Some true)).
Proof. exact attributes_of_targets. Qed.
Print Assumptions aliases_change_name_and_visibility_of_targets.

Example C53_example :
  match build_graph demo with
  | Done (_, b) => option_map at_named (lookup_attrs (bs_annotations b) 2)
  | _ => None
  end = Some (mkNamed ($"Alias") (Some true)).
Proof. vm_compute. reflexivity. Qed.

(** class GENPYBIND(hidden) 1; using 2 GENPYBIND(encourage) = 1; *)
Definition encouraged : unit :=
  mkUnit
    (fun i => match i with
              | 0 => a_decl KOther false None []
              | 1 => a_decl KRecord false None ["hidden"]%string
              | _ => a_decl KTypedef false (Some 1) ["encourage"]%string
              end)
    [Node 1 []; Node 2 []] 0 (fun _ => [0])
    (fun _ => true) (fun _ => false) (fun i => i) (fun _ => false) (fun _ => $"X") (fun _ => false) N.of_nat.

Lemma encouraged_placed : placed encouraged.
Proof.
  constructor.
  - constructor.
    + change (NoDup [1; 2]). repeat constructor; cbn; intuition congruence.
    + intros n ts m (t & Ht & Hi) Hm Hn Hk. unfold encouraged in *. cbn in Ht.
      destruct Ht as [<-|[<-|[]]]; inversion Hi; subst; cbn in *; repeat match goal with H : _ \/ _ |- _ => destruct H | H : False |- _ => destruct H end; subst; cbn in *; try discriminate.
    + intros i. do 3 (destruct i as [|i]; [cbn; auto; discriminate|]). cbn. discriminate.
  - reflexivity.
  - reflexivity.
  - intros i Hi. change (In i [1; 2]) in Hi. unit_facts.
  - intros a t Ha Hk _ Ht. change (In a [1; 2]) in Ha. destruct Ha as [<-|[<-|[]]]; [discriminate|]. cbn in Ht. injection Ht as <-. auto.
Qed.

(** Contrary to the documentation [encourage] overrides an explicit [hidden],
    and the class is exposed. *)
Theorem encourage_respects_hidden_refuted :
  exists u t a z b g' contexts vis, placed u /\ own_attributes u t z /\ n_visible (at_named z) = Some false /\ encourages u a t /\
    process u (fun _ => []) (fun _ => false) ($"m") = Done (Pruned g' contexts vis [] b) /\ bs_reports b = [] /\
    explicit (bs_annotations b) t true /\ In t (g_nodes g').
Proof.
  destruct (process encouraged (fun _ => []) (fun _ => false) ($"m")) as [[rs|l|g' contexts vis w b]| |] eqn:E; try (vm_compute in E; discriminate).
  assert (Eb : Done (Pruned g' contexts vis w b) = process encouraged (fun _ => []) (fun _ => false) ($"m")) by (symmetry; exact E).
  destruct (AnnotModel.insert (u_decls encouraged) 1 []) as [[st ds]|] eqn:Ei; [|vm_compute in Ei; discriminate].
  assert (Ei' : Some (st, ds) = AnnotModel.insert (u_decls encouraged) 1 []) by (symmetry; exact Ei).
  destruct (AnnotModel.insert (u_decls encouraged) 2 []) as [[st2 ds2]|] eqn:Ei2; [|vm_compute in Ei2; discriminate].
  assert (Ei2' : Some (st2, ds2) = AnnotModel.insert (u_decls encouraged) 2 []) by (symmetry; exact Ei2).
  vm_compute in Eb, Ei', Ei2'. injection Eb as -> -> -> -> ->. injection Ei' as -> ->. injection Ei2' as -> ->.
  eexists encouraged, 1, 2, _, _, _, _, _. split; [exact encouraged_placed|]. split; [eexists _, _; split; [exact Ei|vm_compute; reflexivity]|].
  split; [reflexivity|]. split; [|split; [exact E|split; [reflexivity|split; [eexists; split; [vm_compute; reflexivity|reflexivity]|cbn; auto]]]].
  eexists. split; [|]. 
  - split; [cbn; auto|]. split; [reflexivity|]. split; [|split; [reflexivity|eexists _, _; split; [exact Ei2|vm_compute; reflexivity]]].
    split; [|split; [reflexivity|intros [? _]; discriminate]]. apply CollectProofs.has_annotations_marked. reflexivity.
  - reflexivity.
Qed.
Print Assumptions encourage_respects_hidden_refuted.
