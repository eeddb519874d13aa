(** * The classes and enumerations to be found in Python *)
From Coq Require Import Sorting.Permutation.
From Verif Require Import Base ParserModel StringModel AnnotModel AnnotSpec CollectModel CollectSpec GraphModel GraphSpec GraphWalk GraphPlace GraphProps
  OrderModel OrderSpec OrderProofs OrderProps InlineModel InlineSpec EmitModel EmitSpec EmitProps ModuleModel ModuleSpec ModuleProofs ModuleFinal ModuleProps ImportSpec ImportProofs ImportProps ExecSpec ExecProps AccessSpec AccessProps
  FindSpec FindProofs.

(** ** C81 *)

(** The modules generated for a translation unit register, when they are imported,
    exactly the classes and enumerations that are visible as are those they are
    nested in.  Exactly these can be accessed, under the conditions of C64. *)
Theorem visible_types_are_available_in_python : forall default_holder u w found implicit iteration n name b files rs st', setting u w iteration -> nested_blocks u -> 0 < n ->
  generate u w found implicit iteration n name = Some (RGraph b (EWritten files rs st')) ->
  exists g vis order all chunks post, exposed u found implicit name g vis b /\
    generated u w g vis (bs_annotations b) name rs st' order all post /\ layout name post all chunks files /\
    let intros := map (fun e => (ex_id e, ex_intro e)) all in
    (forall s, import default_holder intros = Some s -> forall c, tag u c -> (holding s c <> None <-> to_be_found u name c)) /\
    (NoDup (map fst intros) -> agreeing_blocks u (bs_annotations b) g -> distinct_names u (bs_annotations b) g -> usable_bases default_holder w intros ->
     exists s, import default_holder intros = Some s /\ forall c,
       (kind u c = KRecord -> ((exists l, resolve s (Mod []) l = Some (Class c)) <-> to_be_found u name c)) /\
       (kind u c = KEnum -> ((exists l, resolve s (Mod []) l = Some (Enum c)) <-> to_be_found u name c))).
Proof. exact module_types. Qed.
Print Assumptions visible_types_are_available_in_python.

(** Classes and enumerations left out are hidden, or for other modules, or the class
    they are nested in is warned about (at the alias by which it is relocated). *)
Theorem visible_types_left_out_are_warned_about : forall u found implicit name g contexts vis warned b, placed u -> process u found implicit name = Done (Pruned g contexts vis warned b) ->
  well_nested u -> no_orphans u -> forall p c, place u p c -> tag u c ->
  exists l, path (place u) (u_root u) (c :: p :: l) /\
    (In c (g_nodes g) \/ comes_out u (c :: p :: l) false \/ (exists m, In m (c :: p :: l) /\ elsewhere u name m) \/
     exists r, In r warned /\ (relocates u r p \/ (r = p /\ forall a, ~ relocates u a p))).
Proof. exact visible_or_warned. Qed.
Print Assumptions visible_types_left_out_are_warned_about.

(** The classes and enumerations in the graph are the ones to be found. *)
Theorem classes_in_the_graph_are_the_visible_ones : forall u, placed u -> forall found implicit name g vis b, exposed u found implicit name g vis b ->
  forall c, tag u c -> (In c (g_nodes g) <-> to_be_found u name c).
Proof. exact found_iff. Qed.
Print Assumptions classes_in_the_graph_are_the_visible_ones.

(** ** Example *)

(** namespace GENPYBIND(visible) a(1) {
      struct S(2) { enum E(3) {}; };
      struct H(4) GENPYBIND(hidden) { struct I(5) GENPYBIND(visible) {}; };
    }
    namespace GENPYBIND(visible, only_expose_in(other)) b(6) { struct T(7) {}; }
    struct U(8) {};
    struct V(9) {};
    using W(10) GENPYBIND(visible, expose_here) = V; *)
Definition shelf : unit :=
  mkUnit
    (fun i => match i with
              | 0 => a_decl KOther false None []
              | 1 => a_decl KNamespace false None ["visible"]%string
              | 3 => a_decl KEnum false None []
              | 4 => a_decl KRecord false None ["hidden"]%string
              | 5 => a_decl KRecord false None ["visible"]%string
              | 6 => a_decl KNamespace false None ["visible, only_expose_in(""other"")"]%string
              | 10 => a_decl KTypedef false (Some 9) ["visible, expose_here"]%string
              | _ => a_decl KRecord false None []
              end)
    [Node 1 [Node 2 [Node 3 []]; Node 4 [Node 5 []]]; Node 6 [Node 7 []]; Node 8 []; Node 9 []; Node 10 []] 0
    (fun i => match i with 0 => [] | 2 | 4 => [1; 0] | 3 => [2; 1; 0] | 5 => [4; 1; 0] | 7 => [6; 0] | _ => [0] end)
    (fun _ => true) (fun _ => false) (fun i => i) (fun _ => false)
    (fun i => match i with 1 => $"a" | 2 => $"S" | 3 => $"E" | 4 => $"H" | 5 => $"I" | 6 => $"b" | 7 => $"T" | 8 => $"U" | 9 => $"V" | _ => $"W" end) (fun _ => false) N.of_nat.
Definition shelf_facts : facts :=
  simple_facts shelf no_bases (fun c => match c with 0 => [1; 6; 8; 9; 10] | 1 => [2; 4] | 2 => [3] | 4 => [5] | 6 => [7] | _ => [] end)
    (fun i => match i with 1 => "a" | 2 => "::a::S" | 3 => "::a::S::E" | 9 => "::V" | _ => "b" end)%string.

Lemma shelf_setting : setting shelf shelf_facts (@rev nat).
Proof. constructor; [placed_unit [1; 2; 3; 4; 5; 6; 7; 8; 9; 10]|language_facts|exists N.of_nat; exact (pop_first_good shelf)|intros l; apply Permutation_rev]. Qed.

Definition shelf_files : list (list item) := Eval vm_compute in files_of shelf shelf_facts (fun _ => []).
Definition shelf_intros : list (str * introducer) := Eval vm_compute in flat_map module_intros (concat shelf_files).

Definition shelf_warned : option (list nat) := match process shelf (fun _ => []) (fun _ => false) ($"m") with Done (Pruned _ _ _ warned _) => Some warned | _ => None end.

Lemma nearest_first u c p : (forall q, u_lookup u q = true) -> nearest_context u c p -> hd_error (u_contexts u c) = Some p.
Proof. intros L ([|x l1] & l2 & -> & _ & H); [reflexivity|]. specialize (H x (or_introl eq_refl)). rewrite L in H. discriminate. Qed.

Lemma nearest_unique c p q : nearest_context shelf c p -> nearest_context shelf c q -> p = q.
Proof. intros Hp Hq. apply nearest_first in Hp, Hq; try reflexivity. congruence. Qed.

Lemma shelf_nested : well_nested shelf.
Proof.
  exists (fun c => length (u_contexts shelf c)). intros c p H. apply nearest_first in H; [|reflexivity].
  do 11 (destruct c as [|c]; [cbn in H; try discriminate H; injection H as <-; cbn; lia|]). cbn in H. injection H as <-. cbn. lia.
Qed.

Lemma shelf_enclosed : no_orphans shelf.
Proof.
  intros p c H. assert (N : exists i, nearest_context shelf i p) by (destruct H as [(a & _ & Ha)|(_ & _ & _ & _ & Hc)]; eauto). destruct N as (i & N). apply nearest_first in N; [|reflexivity].
  assert (P : p = 0 \/ p = 1 \/ p = 2 \/ p = 4 \/ p = 6).
  { do 11 (destruct i as [|i]; [cbn in N; try discriminate N; injection N as <-; auto 6|]). cbn in N. injection N as <-. auto. }
  destruct P as [->|P]; [left; reflexivity|right].
  assert (NR : forall a t, relocates shelf a t -> t = 9).
  { intros a t (x & (Hin & Hk & _ & Ht & _) & _). do 11 (destruct a as [|a]; [cbn in Hk; try discriminate Hk; cbn in Ht; congruence|]). discriminate Hk. }
  assert (Pl : forall x q l, In x [1; 2; 4; 6] -> u_contexts shelf x = q :: l -> place shelf q x).
  { intros x q l Hx E. right. split; [intros a Ha; apply NR in Ha; subst x; cbn in Hx; intuition discriminate|]. split; [cbn in Hx; vm_compute; intuition (subst; auto 12)|].
    split; [unfold context_kind; cbn in Hx; destruct Hx as [<-|[<-|[<-|[<-|[]]]]]; cbn; auto|]. split; [cbn in Hx; intuition (subst; reflexivity)|]. exists [], l. split; [exact E|]. split; [reflexivity|intros ? []]. }
  destruct P as [->|[->|[->| ->]]]; [exists 0|exists 1|exists 1|exists 0]; eapply Pl; try reflexivity; cbn; auto.
Qed.

Example visible_types_are_available_in_python_example :
  nested_blocks shelf /\
  (exists b st', generate shelf shelf_facts (fun _ => []) (fun _ => false) (@rev nat) 1 ($"m") = Some (RGraph b (EWritten shelf_files [] st')) /\ bs_reports b = []) /\
  (forall c, to_be_found shelf ($"m") c <-> In c [2; 3; 9]) /\
  well_nested shelf /\ no_orphans shelf /\ shelf_warned = Some [4] /\
  exists s, import (fun _ => true) shelf_intros = Some s /\ (forall c, holding s c <> None <-> In c [2; 3; 9]) /\
    resolve s (Mod []) [$"S"; $"E"] = Some (Enum 3) /\ resolve s (Mod []) [$"W"] = Some (Class 9).
Proof.
  split; [|split; [apply written_inv; vm_compute; reflexivity|split; [|split; [exact shelf_nested|split; [exact shelf_enclosed|split]]]]].
  - intros c d (Kc & Kd & E). cbn in E. subst d. split; [reflexivity|]. intros p q Hp Hq. left. eapply nearest_unique; eassumption.
  - assert (E : match process shelf (fun _ => []) (fun _ => false) ($"m") with
      | Done (Pruned g _ _ warned _) => forallb (fun c => Bool.eqb (mem c (g_nodes g)) (mem c [0; 1; 2; 3; 9])) (0 :: g_nodes g ++ [1; 2; 3; 4; 5; 6; 7; 8; 9; 10]) | _ => false end = true) by (vm_compute; reflexivity).
    destruct (process shelf (fun _ => []) (fun _ => false) ($"m")) as [[| |g contexts vis warned b]| |] eqn:Ep; try discriminate E.
    assert (X : exposed shelf (fun _ => []) (fun _ => false) ($"m") g vis b) by (exists contexts, warned; exact Ep). rewrite forallb_forall in E.
    assert (N : forall c, In c (g_nodes g) <-> In c [0; 1; 2; 3; 9]).
    { intros c. split; intros H.
      - assert (Hc := E c (or_intror (in_or_app _ _ _ (or_introl H)))). apply mem_iff in H. rewrite H in Hc. apply mem_iff. destruct (mem c [0; 1; 2; 3; 9]); [reflexivity|discriminate].
      - assert (Hc : In c (0 :: g_nodes g ++ [1; 2; 3; 4; 5; 6; 7; 8; 9; 10])) by (cbn in H; cbn; rewrite in_app_iff; cbn; intuition). apply E in Hc. apply mem_iff in H. rewrite H in Hc. apply mem_iff. destruct (mem c (g_nodes g)); [reflexivity|discriminate]. }
    intros c. split.
    + intros H. assert (T := proj1 H). apply (found_iff shelf (se_placed _ _ _ shelf_setting) _ _ _ _ _ _ X c T) in H. apply N in H. cbn in H. destruct H as [<-|[<-|H]]; [destruct T; discriminate|destruct T; discriminate|exact H].
    + intros H. apply (found_iff shelf (se_placed _ _ _ shelf_setting) _ _ _ _ _ _ X); [|apply N; cbn in *; intuition]. cbn in H. destruct H as [<-|[<-|[<-|[]]]]; [left|right|left]; reflexivity.
  - vm_compute. reflexivity.
  - eexists. split; [vm_compute; reflexivity|]. split; [|split; vm_compute; reflexivity].
    intros c. do 11 (destruct c as [|c]; [vm_compute; intuition congruence|]). vm_compute. intuition congruence.
Qed.
