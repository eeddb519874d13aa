(** * Properties of what can be accessed from Python *)
From Coq Require Import Sorting.Permutation.
From Verif Require Import Base ParserModel StringModel StringSpec AnnotModel AnnotSpec CollectModel CollectSpec GraphModel GraphSpec GraphWalk GraphPlace GraphFinal GraphProps
  OrderModel OrderSpec OrderProofs OrderProps InlineModel InlineSpec InlineProofs EmitModel EmitSpec EmitProofs EmitFinal EmitProps ModuleModel ModuleSpec ModuleChunks ModuleProofs ModuleFinal ModuleProps
  ImportSpec ImportProofs ImportProps ExecSpec ExecProofs ExecProps AccessSpec AccessProofs.

(** ** C72 *)

(** Whatever can be used after import of a generated module is declared in an
    exposed context and visible there, by its own annotations or by default;
    even if names clash or import does something unexpected. *)
Theorem what_can_be_used_is_visible :
  forall default_holder mro manual fails u w found implicit iteration n name b files rs st' m s p, setting u w iteration -> 0 < n ->
  generate u w found implicit iteration n name = Some (RGraph b (EWritten files rs st')) -> adds_nothing manual ->
  run_module mro manual fails default_holder files m = Some (s, p) ->
  exists g vis, exposed u found implicit name g vis b /\
    forall i, is_tag_kind (kind u i) = false -> usable p i -> exists c, In c (g_nodes g) /\ declared_in u w b c i /\ visible_in u b name c i.
Proof. exact usable_visible. Qed.
Print Assumptions what_can_be_used_is_visible.

(** In particular nothing that is annotated with [hidden], unless a later
    annotation says otherwise. *)
Theorem hidden_declarations_cannot_be_used :
  forall default_holder mro manual fails u w found implicit iteration n name b files rs st' m s p, setting u w iteration -> 0 < n ->
  generate u w found implicit iteration n name = Some (RGraph b (EWritten files rs st')) -> adds_nothing manual ->
  run_module mro manual fails default_holder files m = Some (s, p) ->
  forall i, is_tag_kind (kind u i) = false -> says u i (Some false) -> ~ usable p i.
Proof. exact hidden_unusable. Qed.
Print Assumptions hidden_declarations_cannot_be_used.

Theorem annotations_say_one_thing : forall u i v v', says u i v -> says u i v' -> v = v'.
Proof. exact says_unique. Qed.
Print Assumptions annotations_say_one_thing.

(** ** C73 *)

(** Conversely, what is declared in an exposed context and visible there can be
    used, as attribute of the object for the context, by its name.
    Missing: as for C65, the code does not make sure that there are no clashes. *)
Theorem what_is_visible_can_be_used_partial :
  forall default_holder mro manual fails u w found implicit iteration n name b files rs st', setting u w iteration -> nested_blocks u -> 0 < n ->
  generate u w found implicit iteration n name = Some (RGraph b (EWritten files rs st')) ->
  exists g vis order all chunks post, exposed u found implicit name g vis b /\
    generated u w g vis (bs_annotations b) name rs st' order all post /\ layout name post all chunks files /\
    let intros := map (fun e => (ex_id e, ex_intro e)) all in
    let m := IModule name intros (map (fun e => (ex_id e, ex_id e)) all) post in
    filter is_module (concat files) = [m] /\
    (NoDup (map fst intros) -> agreeing_blocks u (bs_annotations b) g -> distinct_names u (bs_annotations b) g -> usable_bases default_holder w intros ->
     exists cs, contributions u (bs_annotations b) g all cs /\
       (no_clashes mro u (bs_annotations b) g cs -> executable manual fails all post ->
        exists s p, run_module mro manual fails default_holder files m = Some (s, p) /\
          forall c o x i a k, In c (map ex_context all) -> located u (bs_annotations b) g c o -> create u (bs_annotations b) (w_hierarchy w) c = Some x ->
            In i (flat_map (expand (w_extra w)) (looked_up u w c x)) -> is_tag_kind (kind u i) = false -> own_attributes u i a -> visible_in u b name c i ->
            (ordinary u (w_extra w) x i a k -> exists v t, own p o k = Some v /\ reaches v t /\ mentions t i) /\
            forall t, EmitSpec.bound u (w_extra w) x i a t -> named_as t k -> exists v, own p o k = Some v /\ reaches v t)).
Proof. exact visible_usable. Qed.
Print Assumptions what_is_visible_can_be_used_partial.

(** ** Examples *)

(** namespace GENPYBIND(visible) a(1) {
      void f(2)();  void g(3)() GENPYBIND(hidden);
      struct S(4) { int x(5);  int y(6) GENPYBIND(readonly, hidden); };
    }
    namespace b(7) { void h(8)();  void k(9)() GENPYBIND(hidden, visible); } *)
Definition vault : unit :=
  mkUnit
    (fun i => match i with
              | 0 => a_decl KOther false None []
              | 1 => a_decl KNamespace false None ["visible"]%string
              | 2 | 8 => a_decl (KFunction NoOperator) false None []
              | 3 => a_decl (KFunction NoOperator) false None ["hidden"]%string
              | 4 => a_decl KRecord false None []
              | 5 => a_decl KField false None []
              | 6 => a_decl KField false None ["readonly, hidden"]%string
              | 7 => a_decl KNamespace false None []
              | _ => a_decl (KFunction NoOperator) false None ["hidden, visible"]%string
              end)
    [Node 1 [Node 2 []; Node 3 []; Node 4 [Node 5 []; Node 6 []]]; Node 7 [Node 8 []; Node 9 []]] 0
    (fun i => match i with 0 => [] | 1 | 7 => [0] | 2 | 3 | 4 => [1; 0] | 5 | 6 => [4; 1; 0] | _ => [7; 0] end)
    (fun _ => true) (fun _ => false) (fun i => i) (fun _ => false)
    (fun i => match i with 1 => $"a" | 2 => $"f" | 3 => $"g" | 4 => $"S" | 5 => $"x" | 6 => $"y" | 7 => $"b" | 8 => $"h" | _ => $"k" end) (fun _ => false) N.of_nat.
Definition vault_found (c : nat) : list nat := match c with 1 => [2; 3] | 4 => [5; 6] | 7 => [8; 9] | _ => [] end.
Definition vault_facts : facts :=
  simple_facts vault no_bases (fun c => match c with 0 => [1; 7] | 1 => [2; 3; 4] | c => vault_found c end)
    (fun i => match i with 1 => "a" | 4 => "::a::S" | _ => "b" end)%string.

Lemma vault_setting : setting vault vault_facts (@rev nat).
Proof. constructor; [placed_unit [1; 2; 3; 4; 5; 6; 7; 8; 9]|language_facts|exists N.of_nat; exact (pop_first_good vault)|intros l; apply Permutation_rev]. Qed.

Definition vault_files : list (list item) := Eval vm_compute in files_of vault vault_facts vault_found.

Definition attributes_of (u : unit) (i : nat) : option attrs := match insert (u_decls u) i [] with Some (st, _) => lookup_attrs st i | None => None end.
Lemma attributes_own u i a : attributes_of u i = Some a -> own_attributes u i a.
Proof. unfold attributes_of, own_attributes. destruct (insert (u_decls u) i []) as [[st ds]|] eqn:E; [|discriminate]. intro H. exists st, ds. auto. Qed.
Lemma attributes_say u i v : option_map (fun a => n_visible (at_named a)) (attributes_of u i) = Some v -> says u i v.
Proof. destruct (attributes_of u i) as [a|] eqn:E; [|discriminate]. intros [= <-]. apply own_says, attributes_own, E. Qed.

(** f, x and k can be used; g and y are hidden, h is so by default. *)
Example what_can_be_used_is_visible_example :
  (exists b st', generate vault vault_facts vault_found (fun _ => false) (@rev nat) 1 ($"m") = Some (RGraph b (EWritten vault_files [] st')) /\ bs_reports b = []) /\
  adds_nothing (fun _ _ p => Some p) /\
  (says vault 2 None /\ says vault 3 (Some false) /\ says vault 6 (Some false) /\ says vault 8 None /\ says vault 9 (Some true)) /\
  exists s p, imported (fun _ => []) vault_files = Some (s, p) /\ forall i, usable p i <-> In i [2; 5; 9].
Proof.
  split; [apply written_inv; vm_compute; reflexivity|]. split; [intros l o p p' [= <-] t H; exact H|].
  split; [repeat split; try reflexivity; apply attributes_say; vm_compute; reflexivity|].
  do 2 eexists. split; [vm_compute; reflexivity|]. intro i. split.
  - intros (t & [(o & n & m & Ho & Hr)|(e & n & He)] & Ht); [|cbn in He; contradiction]. unfold own in Ho. cbn [p_members find fst snd] in Ho.
    repeat match type of Ho with option_map _ (if ?c then _ else _) = _ => destruct c; [injection Ho as <-; cbn in Hr; intuition (subst; cbn in *; auto)|] end. discriminate Ho.
  - intros Hi. unfold usable, accessible. cbn in Hi. repeat destruct Hi as [<-|Hi]; try contradiction.
    + eexists. split; [left; exists (Mod []), ($"f"); eexists; split; [vm_compute; reflexivity|left; reflexivity]|reflexivity].
    + eexists. split; [left; exists (Class 4), ($"x"); eexists; split; [vm_compute; reflexivity|reflexivity]|reflexivity].
    + eexists. split; [left; exists (Mod []), ($"k"); eexists; split; [vm_compute; reflexivity|left; reflexivity]|reflexivity].
Qed.

(** The member function g(5) of the class in the example of C65, whose other
    conditions are met there. *)
Example what_is_visible_can_be_used_example :
  exists g vis b, exposed toys (fun _ => []) (fun _ => false) ($"m") g vis b /\ In 3 (map ex_context toys_entries) /\
    located toys (bs_annotations b) g 3 (Class 3) /\
    exists x a, create toys (bs_annotations b) (w_hierarchy toys_facts) 3 = Some x /\ In 5 (flat_map (expand (w_extra toys_facts)) (looked_up toys toys_facts 3 x)) /\
      is_tag_kind (kind toys 5) = false /\ own_attributes toys 5 a /\ visible_in toys b ($"m") 3 5 /\ ordinary toys (w_extra toys_facts) x 5 a ($"g") /\
      exists s p, imported (derived 12 3) toys_files = Some (s, p) /\ exists v t, own p (Class 3) ($"g") = Some v /\ reaches v t /\ mentions t 5.
Proof.
  assert (E : match process toys (fun _ => []) (fun _ => false) ($"m") with
    | Done (Pruned g _ vis _ b) => existsb (Nat.eqb 3) (g_nodes g) && lookup_vis vis 3 &&
        match create toys (bs_annotations b) (w_hierarchy toys_facts) 3 with
        | Some (XRecord r p) => existsb (Nat.eqb 5) (flat_map (expand (w_extra toys_facts)) (looked_up toys toys_facts 3 (XRecord r p)))
        | _ => false
        end
    | _ => false
    end = true) by (vm_compute; reflexivity).
  destruct (process toys (fun _ => []) (fun _ => false) ($"m")) as [[| |g contexts vis warned b]| |] eqn:Ep; try discriminate E.
  apply andb_true_iff in E as (E & Ei). apply andb_true_iff in E as (H3 & Hv).
  destruct (create toys (bs_annotations b) (w_hierarchy toys_facts) 3) as [[| | |r q]|] eqn:Hx; try discriminate Ei.
  assert (In5 : forall l k, existsb (Nat.eqb k) l = true -> In k l) by (intros l k H; apply existsb_exists in H as (y & Hy & Hk); apply Nat.eqb_eq in Hk as ->; exact Hy).
  apply In5 in H3, Ei.
  assert (X : exposed toys (fun _ => []) (fun _ => false) ($"m") g vis b) by (exists contexts, warned; exact Ep).
  exists g, vis, b. split; [exact X|]. split; [vm_compute; auto|]. split; [apply located_class; reflexivity|].
  assert (A : exists a, attributes_of toys 5 = Some a /\ m_getter_for (at_method a) = [] /\ m_setter_for (at_method a) = [] /\ n_spelling (at_named a) = []).
  { eexists. split; [vm_compute; reflexivity|]. repeat split. }
  destruct A as (a & Ha & Hg & Hs & Hsp).
  exists (XRecord r q), a. split; [exact Hx|]. split; [exact Ei|]. split; [reflexivity|]. split; [apply attributes_own, Ha|].
  split; [right; split; [apply attributes_say; vm_compute; reflexivity|]|].
  - exact (proj1 (lookup_visible _ _ _ _ _ _ _ _ _ toys_setting X 3 H3) Hv).
  - split.
    + apply or_function.
      * discriminate.
      * reflexivity.
      * discriminate.
      * reflexivity.
      * intros _ [H|H]; [exact (H Hg)|exact (H Hs)].
      * intros r' p' _. reflexivity.
      * right. right. split; [exact Hsp|]. split; reflexivity.
    + do 2 eexists. split; [vm_compute; reflexivity|]. do 2 eexists. split; [vm_compute; reflexivity|]. split; [left; reflexivity|reflexivity].
Qed.
