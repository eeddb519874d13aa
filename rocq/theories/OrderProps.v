(** * Properties of the order of exposition *)
From Verif Require Import Base ParserModel AnnotModel AnnotSpec CollectModel CollectSpec GraphModel GraphSpec GraphPlace GraphFinal GraphProps OrderModel OrderSpec OrderProofs.
From Coq Require Import Sorting.Permutation.

(** ** C28, C29 *)

(** Either all contexts are listed once, after what they depend on, or there is
    a cycle.  The reported context is on a cycle or depends on one, and among
    those that something else depends on it comes first in the source. *)
Theorem order_respects_dependencies_or_cycle_is_reported :
  forall u st g, tree_like g (u_root u) -> kind u (u_root u) = KOther ->
    forall public_bases, (forall n, ~ In n (public_bases n)) ->
    forall scopes, find_enclosing_scopes u st g = Some scopes ->
    forall nodes, Permutation (g_nodes g) nodes -> forall location pop, good_queue location pop ->
    let dep := depends u public_bases g scopes in
    exists r, sort_contexts pop u public_bases nodes g scopes = Some r /\
      match r with
      | Sorted order => valid_order (g_nodes g) dep order /\ ~ cyclic dep
      | CycleAt n => cyclic dep /\ In n (g_nodes g) /\ stuck dep n /\ (exists m, dep n m) /\
          forall y m, stuck dep y -> dep y m -> (location n <= location y)%N
      end.
Proof. exact order_spec. Qed.
Print Assumptions order_respects_dependencies_or_cycle_is_reported.

Theorem earliest_first_queue_is_good : forall u, good_queue (u_location u) (pop_first u).
Proof. exact pop_first_good. Qed.
Print Assumptions earliest_first_queue_is_good.

(** The order for a translation unit, after all preceding steps. *)
Definition ordered (u : unit) (public_bases : nat -> list nat) : option (list (nat * nat) * ordering) :=
  match process u (fun _ => []) (fun _ => false) ($"m") with
  | Done (Pruned g _ _ _ b) =>
      match find_enclosing_scopes u (bs_annotations b) g with
      | Some scopes => option_map (pair (g_edges g)) (sort_contexts (pop_first u) u public_bases (g_nodes g) g scopes)
      | None => None
      end
  | _ => None
  end.

(** class 1; class 2 : 1; class 4 { using 3 GENPYBIND(expose_here) = 1; };  all visible *)
Definition moved : unit :=
  mkUnit
    (fun i => match i with
              | 0 => a_decl KOther false None []
              | 3 => a_decl KTypedef false (Some 1) ["visible"; "expose_here"]%string
              | _ => a_decl KRecord false None ["visible"]%string
              end)
    [Node 1 []; Node 2 []; Node 4 [Node 3 []]] 0
    (fun i => match i with 0 => [] | 3 => [4; 0] | _ => [0] end)
    (fun _ => true) (fun _ => false) (fun i => i) (fun _ => false) (fun _ => $"X") (fun _ => false) N.of_nat.

Example C28_example : ordered moved (fun i => match i with 2 => [1] | _ => [] end) = Some ([(0, 2); (0, 4); (4, 1)], Sorted [0; 4; 1; 2]).
Proof. vm_compute. reflexivity. Qed.

(** class 1 { class 2; }; class 3; class 4 : 3 { using 5 GENPYBIND(expose_here) = 3; using 6 GENPYBIND(expose_here) = 1; };  all visible *)
Definition downstream : unit :=
  mkUnit
    (fun i => match i with
              | 0 => a_decl KOther false None []
              | 5 => a_decl KTypedef false (Some 3) ["visible"; "expose_here"]%string
              | 6 => a_decl KTypedef false (Some 1) ["visible"; "expose_here"]%string
              | _ => a_decl KRecord false None ["visible"]%string
              end)
    [Node 1 [Node 2 []]; Node 3 []; Node 4 [Node 5 []; Node 6 []]] 0
    (fun i => match i with 0 => [] | 2 => [1; 0] | 5 | 6 => [4; 0] | _ => [0] end)
    (fun _ => true) (fun _ => false) (fun i => i) (fun _ => false) (fun _ => $"X") (fun _ => false) N.of_nat.

Definition downstream_bases (i : nat) : list nat := match i with 4 => [3] | _ => [] end.

Lemma downstream_placed : placed downstream.
Proof.
  constructor.
  - constructor.
    + change (NoDup [1; 2; 3; 4; 5; 6]). repeat constructor; cbn; intuition congruence.
    + intros n ts m (t & Ht & Hi) Hm Hn Hk. unfold downstream in *. cbn in Ht.
      destruct Ht as [<-|[<-|[<-|[]]]].
      all: repeat match goal with
        | H : inside _ (Node _ _) _ |- _ => inversion H; subst; clear H
        | H : In _ (_ :: _) |- _ => destruct H as [<-|H]
        | H : In _ [] |- _ => destruct H
        end; cbn in *; repeat match goal with H : _ \/ _ |- _ => destruct H | H : False |- _ => destruct H end; subst; cbn in *; discriminate.
    + intros i. do 8 (destruct i as [|i]; [cbn; discriminate|]). cbn. discriminate.
  - reflexivity.
  - reflexivity.
  - intros i Hi. change (In i [1; 2; 3; 4; 5; 6]) in Hi. unit_facts.
  - intros a t Ha Hk _ Ht. change (In a [1; 2; 3; 4; 5; 6]) in Ha. repeat (destruct Ha as [<-|Ha]; [try discriminate|]); try destruct Ha; cbn in Ht; injection Ht as <-; auto.
Qed.

Lemma downstream_bases_proper i : ~ In i (downstream_bases i).
Proof. intros H. do 5 (destruct i as [|i]; [cbn in H; intuition congruence|]). exact H. Qed.

(** Only 3 and 4 are on a cycle, but 1 is reported. *)
Theorem reported_context_is_on_a_cycle_refuted :
  exists u public_bases g contexts vis warned b scopes n,
    placed u /\ (forall i, ~ In i (public_bases i)) /\
    process u (fun _ => []) (fun _ => false) ($"m") = Done (Pruned g contexts vis warned b) /\
    find_enclosing_scopes u (bs_annotations b) g = Some scopes /\
    sort_contexts (pop_first u) u public_bases (g_nodes g) g scopes = Some (CycleAt n) /\
    cyclic (depends u public_bases g scopes) /\ ~ on_cycle (depends u public_bases g scopes) n.
Proof.
  destruct (process downstream (fun _ => []) (fun _ => false) ($"m")) as [[rs|l|g contexts vis w b]| |] eqn:E; try (vm_compute in E; discriminate).
  destruct (find_enclosing_scopes downstream (bs_annotations b) g) as [scopes|] eqn:Es.
  2:{ exfalso. assert (X : match process downstream (fun _ => []) (fun _ => false) ($"m") with
        | Done (Pruned g _ _ _ b) => find_enclosing_scopes downstream (bs_annotations b) g <> None | _ => True end) by (vm_compute; discriminate).
      rewrite E in X. exact (X Es). }
  exists downstream, downstream_bases, g, contexts, vis, w, b, scopes, 1.
  split; [exact downstream_placed|]. split; [exact downstream_bases_proper|].
  split; [exact E|]. split; [exact Es|].
  assert (Eb : Done (Pruned g contexts vis w b) = process downstream (fun _ => []) (fun _ => false) ($"m")) by (symmetry; exact E).
  vm_compute in Eb. injection Eb as -> -> -> -> ->.
  assert (Es' : Some scopes = Some scopes) by reflexivity. rewrite <- Es in Es' at 1. vm_compute in Es'. injection Es' as <-.
  split; [vm_compute; reflexivity|]. split.
  - exists 3, [4; 3]. eapply leads_more; [|apply leads_one]; (split; [cbn; tauto|]); (split; [cbn; tauto|]); cbn; auto.
  - intros (l & L).
    match type of L with leads ?D _ _ _ =>
      assert (Hd : forall m n, D m n -> In (m, n) [(0, 4); (4, 1); (1, 2); (4, 3); (3, 4)]);
      [|assert (H : forall a b l, leads D a b l -> a = 1 -> b = 2)] end.
    { clear. intros m n (Hn & _ & H). cbn in Hn.
      destruct Hn as [<-|[<-|[<-|[<-|[<-|[]]]]]]; cbn in H; destruct H as [H|[H H']]; try discriminate; try (injection H as <-); try (destruct H' as [<-|[]]); cbn; tauto. }
    { clear -Hd. intros a b l L. induction L as [a b H|a c b l H L IH]; intros ->; apply Hd in H; cbn in H; [intuition congruence|].
      assert (c = 2) as -> by intuition congruence. exfalso. inversion L as [x y X|x y z t X]; subst; apply Hd in X; cbn in X; intuition congruence. }
    specialize (H 1 1 l). discriminate H; auto.
Qed.
Print Assumptions reported_context_is_on_a_cycle_refuted.

(** ** C30 *)

(** Provided that no two contexts except for the translation unit share a
    location, the order is the lexicographically smallest valid one. *)
Theorem order_is_lexicographically_least :
  forall u st g, tree_like g (u_root u) -> kind u (u_root u) = KOther ->
    forall public_bases, (forall n, ~ In n (public_bases n)) ->
    forall scopes, find_enclosing_scopes u st g = Some scopes ->
    forall nodes, Permutation (g_nodes g) nodes -> forall location pop, good_queue location pop ->
    (forall n, In n (g_nodes g) -> reachable g (u_root u) n) ->
    (forall a b, In a (g_nodes g) -> In b (g_nodes g) -> a <> u_root u -> b <> u_root u -> location a = location b -> a = b) ->
    forall order, sort_contexts pop u public_bases nodes g scopes = Some (Sorted order) ->
    forall l, valid_order (g_nodes g) (depends u public_bases g scopes) l -> lex_le location order l.
Proof. exact order_least. Qed.
Print Assumptions order_is_lexicographically_least.

(** Then the result depends neither on the order of iteration nor on the
    implementation of the queue nor on the location of the translation unit. *)
Theorem order_is_deterministic :
  forall u st g, tree_like g (u_root u) -> kind u (u_root u) = KOther -> (forall n, In n (g_nodes g) -> reachable g (u_root u) n) ->
    forall public_bases, (forall n, ~ In n (public_bases n)) -> forall scopes, find_enclosing_scopes u st g = Some scopes ->
    forall location location', (forall n, n <> u_root u -> location n = location' n) ->
    (forall a b, In a (g_nodes g) -> In b (g_nodes g) -> a <> u_root u -> b <> u_root u -> location a = location b -> a = b) ->
    forall pop pop', good_queue location pop -> good_queue location' pop' ->
    forall nodes nodes', Permutation (g_nodes g) nodes -> Permutation (g_nodes g) nodes' ->
    sort_contexts pop u public_bases nodes g scopes = sort_contexts pop' u public_bases nodes' g scopes.
Proof. exact order_deterministic. Qed.
Print Assumptions order_is_deterministic.

(** For the graph of [moved]: the order in which nodes are listed is irrelevant. *)
Example C30_example :
  let g := mkGraph [0; 1; 2; 4] [(4, 1); (0, 2); (0, 4)] in
  let scopes := [(0, None); (1, Some 4); (2, Some 0); (4, Some 0)] in
  let bases i := match i with 2 => [1] | _ => [] end in
  sort_contexts (pop_first moved) moved bases [0; 1; 2; 4] g scopes = Some (Sorted [0; 4; 1; 2]) /\
  sort_contexts (pop_first moved) moved bases [2; 4; 1; 0] g scopes = Some (Sorted [0; 4; 1; 2]).
Proof. split; vm_compute; reflexivity. Qed.

(** template <class T> class X;
    using 3 GENPYBIND(visible, expose_here) = X<A>;  // 1
    using 4 GENPYBIND(visible, expose_here) = X<B>;  // 2
    Both specialisations are located at the template. *)
Definition instantiated : unit :=
  mkUnit
    (fun i => match i with
              | 0 => a_decl KOther false None []
              | 3 => a_decl KTypedef false (Some 1) ["visible"; "expose_here"]%string
              | 4 => a_decl KTypedef false (Some 2) ["visible"; "expose_here"]%string
              | _ => a_decl KRecord false None []
              end)
    [Node 1 []; Node 2 []; Node 3 []; Node 4 []] 0
    (fun i => match i with 0 => [] | _ => [0] end)
    (fun _ => true) (fun _ => false) (fun i => i) (fun _ => false) (fun _ => $"X") (fun _ => false)
    (fun i => match i with 1 | 2 => 1%N | _ => N.of_nat i end).

(** The order of iteration shows in the result. *)
Theorem order_is_deterministic_for_shared_locations_refuted :
  exists u g contexts vis warned b scopes nodes nodes' order order',
    process u (fun _ => []) (fun _ => false) ($"m") = Done (Pruned g contexts vis warned b) /\ bs_reports b = [] /\
    find_enclosing_scopes u (bs_annotations b) g = Some scopes /\
    Permutation (g_nodes g) nodes /\ Permutation (g_nodes g) nodes' /\
    sort_contexts (pop_first u) u (fun _ => []) nodes g scopes = Some (Sorted order) /\
    sort_contexts (pop_first u) u (fun _ => []) nodes' g scopes = Some (Sorted order') /\ order <> order'.
Proof.
  destruct (process instantiated (fun _ => []) (fun _ => false) ($"m")) as [[rs|l|g contexts vis w b]| |] eqn:E; try (vm_compute in E; discriminate).
  exists instantiated, g, contexts, vis, w, b. 
  assert (Eb : Done (Pruned g contexts vis w b) = process instantiated (fun _ => []) (fun _ => false) ($"m")) by (symmetry; exact E).
  vm_compute in Eb. injection Eb as -> -> -> -> ->.
  eexists _, [0; 1; 2], [0; 2; 1], [0; 1; 2], [0; 2; 1].
  split; [exact E|]. split; [reflexivity|]. split; [vm_compute; reflexivity|]. split; [apply Permutation_refl|]. split; [apply perm_skip, perm_swap|].
  split; [vm_compute; reflexivity|]. split; [vm_compute; reflexivity|]. discriminate.
Qed.
Print Assumptions order_is_deterministic_for_shared_locations_refuted.
