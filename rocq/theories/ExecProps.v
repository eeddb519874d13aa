(** * Properties of the generated module after import *)
From Coq Require Import Sorting.Permutation.
From Verif Require Import Base ParserModel StringModel StringSpec AnnotModel AnnotSpec CollectModel CollectSpec GraphModel GraphSpec GraphWalk GraphPlace GraphFinal GraphProps
  OrderModel OrderSpec OrderProofs OrderProps InlineModel InlineSpec InlineProofs EmitModel EmitSpec EmitProofs EmitFinal EmitProps ModuleModel ModuleSpec ModuleChunks ModuleProofs ModuleFinal ModuleProps
  ImportSpec ImportProofs ImportProps ExecSpec ExecProofs.

(** ** C65 *)

(** After import, attributes are exactly classes, enumerations and modules, and
    what statements define, functions with all their overloads in order.
    Missing: the code does not make sure that there are no clashes. *)
Theorem attributes_are_as_defined_partial :
  forall default_holder mro manual fails u w found implicit iteration n name b files rs st', setting u w iteration -> nested_blocks u -> 0 < n ->
  generate u w found implicit iteration n name = Some (RGraph b (EWritten files rs st')) ->
  exists g vis order all chunks post, exposed u found implicit name g vis b /\
    generated u w g vis (bs_annotations b) name rs st' order all post /\ layout name post all chunks files /\
    let intros := map (fun e => (ex_id e, ex_intro e)) all in
    let m := IModule name intros (map (fun e => (ex_id e, ex_id e)) all) post in
    filter is_module (concat files) = [m] /\
    (NoDup (map fst intros) -> agreeing_blocks u (bs_annotations b) g -> distinct_names u (bs_annotations b) g -> usable_bases default_holder w intros ->
     exists cs, contributions u (bs_annotations b) g all cs /\
       (no_clashes mro u (bs_annotations b) g cs -> executable manual fails all post ->
        exists s p, run_module mro manual fails default_holder files m = Some (s, p) /\
          (forall o k v, attribute s o k = Some v <-> exists c, found_in u (bs_annotations b) g c o k /\ located u (bs_annotations b) g c v) /\
          (forall o k, consists (attribute s o k) (given cs o k) (own p o k)) /\
          forall e o t k, In e all -> located u (bs_annotations b) g (ex_context e) o -> In t (ex_body e) -> defines t = Some k -> exists x, own p o k = Some x /\ reaches x t)).
Proof. exact run_members. Qed.
Print Assumptions attributes_are_as_defined_partial.

(** ** Example *)

(** Decides [no_clashes]. *)
Fixpoint overloads_only (cs : list (object * str * stmt)) : bool :=
  match cs with
  | [] => true
  | c :: r => forallb (fun d => negb (at_place (fst (fst c)) (snd (fst c)) d) ||
      match overload (snd c), overload (snd d) with Some a, Some b => Bool.eqb a b | _, _ => false end) r && overloads_only r
  end.
Definition other_names (u : unit) (nodes : list (nat * option attrs)) (n : str) : bool := forallb (fun x => negb (has_object u (fst x) && str_eqb (name_given u x) n)) nodes.
Definition is_overload (s : stmt) : bool := match overload s with Some _ => true | None => false end.
Definition is_static_member (s : stmt) : bool := match s with SMember true _ _ _ => true | _ => false end.
Definition clash_free (mro : nat -> list nat) (u : unit) (nodes : list (nat * option attrs)) (cs : list (object * str * stmt)) : bool :=
  overloads_only cs && forallb (fun c => other_names u nodes (snd (fst c)) &&
    match fst (fst c) with
    | Class r => forallb (fun b => forallb (fun d => negb (at_place (Class b) (snd (fst c)) d) ||
        ((negb (is_overload (snd c)) || is_overload (snd d)) && (negb (is_static_member (snd d)) || is_static_member (snd c)))) cs) (mro r)
    | _ => true
    end) cs.

Lemma at_place_refl o n s : at_place o n (o, n, s) = true.
Proof. unfold at_place. cbn [fst snd]. rewrite (proj2 (same_object_spec o o) eq_refl), (proj2 (str_eqb_eq n n) eq_refl). reflexivity. Qed.

Lemma overloads_only_sound cs : overloads_only cs = true -> forall l1 l2 l3 o n s s', cs = l1 ++ (o, n, s) :: l2 ++ (o, n, s') :: l3 -> overload s <> None /\ overload s = overload s'.
Proof.
  induction cs as [|c cs IH]; intros H l1 l2 l3 o n s s' E; [destruct l1; discriminate E|]. cbn in H. apply andb_true_iff in H as (H1 & H2).
  destruct l1 as [|x l1]; [|injection E as _ E; exact (IH H2 _ _ _ _ _ _ _ E)]. injection E as -> ->.
  rewrite forallb_forall in H1. assert (Hi : In (o, n, s') (l2 ++ (o, n, s') :: l3)) by (apply in_or_app; right; left; reflexivity). specialize (H1 _ Hi). cbn [fst snd] in H1. rewrite at_place_refl in H1. cbn in H1.
  destruct (overload s) as [a|]; [|discriminate H1]. destruct (overload s') as [b|]; [|discriminate H1]. apply eqb_prop in H1 as ->. split; [discriminate|reflexivity].
Qed.

Lemma no_clashes_given mro u found g vis b cs : exposed u found (fun _ => false) ($"m") g vis b -> clash_free mro u (node_attributes u found) cs = true ->
  no_clashes mro u (bs_annotations b) g cs.
Proof.
  intros X H. apply andb_true_iff in H as (H1 & H2). rewrite forallb_forall in H2.
  assert (O : forall n c o, other_names u (node_attributes u found) n = true -> ~ found_in u (bs_annotations b) g c o n).
  { intros n c o Hn (Hc & Oc & _ & Nc). unfold other_names in Hn. rewrite forallb_forall in Hn. specialize (Hn _ (node_given _ _ _ _ _ _ X Hc)). cbn [fst] in Hn.
    rewrite (own_given _ _ _ Oc), <- (named_given _ _ _ _ Nc), (proj2 (str_eqb_eq n n) eq_refl) in Hn. discriminate Hn. }
  constructor.
  - exact (overloads_only_sound _ H1).
  - intros o n s Hs c. apply H2 in Hs. apply andb_true_iff in Hs as (Hs & _). exact (O _ _ _ Hs).
  - intros r n s base Hs Ho _ Hb. apply H2 in Hs. cbn [fst snd] in Hs. apply andb_true_iff in Hs as (Hn & Hs). split; [|intros c; exact (O _ _ _ Hn)].
    rewrite forallb_forall in Hs. specialize (Hs _ Hb). rewrite forallb_forall in Hs. intros s' Hs'. specialize (Hs _ Hs'). rewrite at_place_refl in Hs. cbn in Hs.
    apply andb_true_iff in Hs as (Hs & _). unfold is_overload in Hs. destruct (overload s); [|contradiction]. destruct (overload s'); [discriminate|discriminate Hs].
  - intros r n s base readonly m i Hs Hb Hm. apply H2 in Hs. cbn [fst snd] in Hs. apply andb_true_iff in Hs as (_ & Hs).
    rewrite forallb_forall in Hs. specialize (Hs _ Hb). rewrite forallb_forall in Hs. specialize (Hs _ Hm). rewrite at_place_refl in Hs. cbn in Hs.
    apply andb_true_iff in Hs as (_ & Hs). destruct s; try discriminate Hs. destruct static; [eauto|discriminate Hs].
Qed.

Lemma edges_given u found g vis b : exposed u found (fun _ => false) ($"m") g vis b ->
  g_edges g = match process u found (fun _ => false) ($"m") with Done (Pruned g _ _ _ _) => g_edges g | _ => [] end.
Proof. intros (contexts & warned & H). rewrite H. reflexivity. Qed.

(** namespace GENPYBIND(visible) a(1) {
      void f(2)();  struct S(3) { S(4)();  void g(5)();  void g(6)(int n);  int x(7); };  enum GENPYBIND(visible) E(8) { One(9) };
    }
    namespace GENPYBIND(visible) b(10) { void f(11)();  struct D(12) : a::S { void g(13)(); }; } *)
Definition a_class (base : nat) (name : string) : decl := mkDecl KRecord [lozenge ++ $"visible"] false [] 0 false false false [mkBase base [$name]] [mkBase base [$name]] None true None.
Definition of_int (k : dkind) (static : bool) : decl := mkDecl k [] false [$"n"] 0 true static false [] [] None false None.

Definition toys : unit :=
  mkUnit
    (fun i => match i with
              | 0 | 9 => a_decl KOther false None []
              | 1 | 10 => a_decl KNamespace false None ["visible"]%string
              | 2 | 11 => a_decl (KFunction NoOperator) false None []
              | 4 => a_decl KConstructor false None []
              | 5 | 13 => a_decl (KMethod NoOperator) false None []
              | 6 => of_int (KMethod NoOperator) false
              | 7 => a_decl KField false None []
              | 8 => a_decl KEnum false None ["visible"]%string
              | 12 => a_class 3 "S"
              | _ => a_decl KRecord false None []
              end)
    [Node 1 [Node 2 []; Node 3 [Node 4 []; Node 5 []; Node 6 []; Node 7 []]; Node 8 [Node 9 []]]; Node 10 [Node 11 []; Node 12 [Node 13 []]]] 0
    (fun i => match i with 0 => [] | 1 | 10 => [0] | 2 | 3 | 8 => [1; 0] | 9 => [8; 1; 0] | 11 | 12 => [10; 0] | 13 => [12; 10; 0] | _ => [3; 1; 0] end)
    (fun _ => true) (fun _ => false) (fun i => i) (fun _ => false)
    (fun i => match i with 1 => $"a" | 2 | 11 => $"f" | 3 | 4 => $"S" | 7 => $"x" | 8 => $"E" | 9 => $"One" | 10 => $"b" | 12 => $"D" | _ => $"g" end) (fun _ => false) N.of_nat.

Definition simple_facts (u : unit) (h : hierarchy) (results : nat -> list nat) (qualified : nat -> string) : facts :=
  mkFacts (mkExtra (fun i => a_fn (map (fun n => mkParam n (plain_type 0) None None) (d_params (u_decls u i))) None) (fun _ => false) (fun _ => None)
      (fun i => match kind u i with KOther => true | _ => false end) (fun _ => false) (fun _ => false) (fun _ => None) (fun _ _ => []))
    h (fun i => a_member (is_tag_kind (kind u i))) (fun c => map (fun i => mkFound i None false) (results c)) (fun i => $(qualified i)) [] (pop_first u).
Definition derives (d b : nat) : hierarchy := mkHierarchy (fun i => if Nat.eqb i d then [mkSpec b true false] else []) (fun i => if Nat.eqb i d then 1 else 0).

Definition toys_facts : facts :=
  simple_facts toys (derives 12 3)
    (fun c => match c with 1 => [2; 3; 8] | 3 => [4; 5; 6; 7] | 8 => [9] | 10 => [11; 12] | 12 => [13] | _ => [1; 10] end)
    (fun i => match i with 1 => "a" | 3 => "::a::S" | 8 => "::a::E" | 10 => "b" | _ => "::b::D" end)%string.

Lemma toys_setting : setting toys toys_facts (@rev nat).
Proof.
  constructor; [placed_unit [1; 2; 3; 4; 5; 6; 7; 8; 9; 10; 11; 12; 13]|language_facts|exists N.of_nat; exact (pop_first_good toys)|intros l; apply Permutation_rev].
Qed.

Definition toys_files : list (list item) := Eval vm_compute in files_of toys toys_facts (fun _ => []).

Definition module_of (files : list (list item)) : item := match filter is_module (concat files) with m :: _ => m | [] => IDeclare [] PModule end.
Definition definitions_of (files : list (list item)) : list item := filter (fun i => match i with IDefine _ _ _ => true | _ => false end) (concat files).

Definition toys_entries : list entry := Eval vm_compute in
  map (fun x => match x with
                | (c, (i, IDefine id p body)) => mkEntry c id p (snd i) body
                | (c, _) => mkEntry c [] PModule (NAlias []) []
                end)
    (combine [0; 1; 3; 8; 10; 12] (combine (module_intros (module_of toys_files)) (definitions_of toys_files))).

Definition with_args (n : string) (i : nat) (args : list arg) : stmt := SFunction false ($n) i args (mkFunction [] [] [] []).
Definition toys_statements : list (object * str * stmt) :=
  [(Mod [], $"f", with_args "f" 2 []); (Class 3, $"__init__", SInit 4 [] [] (mkFunction [] [] [] [])); (Class 3, $"g", with_args "g" 5 []);
   (Class 3, $"g", with_args "g" 6 [mkArg ($"n") false false None]); (Class 3, $"x", SMember false false ($"x") 7); (Enum 8, $"One", SValue ($"One") 9);
   (Mod [], $"One", SValue ($"One") 9); (Mod [], $"f", with_args "f" 11 []); (Class 12, $"g", with_args "g" 13 [])].
Definition derived (d b : nat) (r : nat) : list nat := if Nat.eqb r d then [b] else [].

Definition outcome (mro : nat -> list nat) (files : list (list item)) (places : list (object * str)) : option (list (option member)) :=
  option_map (fun x => map (fun p => own (snd x) (fst p) (snd p)) places) (run_module mro (fun _ _ p => Some p) (fun _ => false) held_by_default files (module_of files)).

Definition toys_nodes : list (nat * option attrs) := Eval vm_compute in node_attributes toys (fun _ => []).

(** m.f has both overloads, D.g hides S.g, m.One is E.One. *)
Example attributes_are_as_defined_example :
  setting toys toys_facts (@rev nat) /\ nested_blocks toys /\
  (exists b st', generate toys toys_facts (fun _ => []) (fun _ => false) (@rev nat) 1 ($"m") = Some (RGraph b (EWritten toys_files [] st')) /\ bs_reports b = []) /\
  map (fun e => (ex_id e, ex_intro e)) toys_entries = module_intros (module_of toys_files) /\ map definition toys_entries = definitions_of toys_files /\
  NoDup (map fst (module_intros (module_of toys_files))) /\ usable_bases held_by_default toys_facts (module_intros (module_of toys_files)) /\
  (forall g vis b, exposed toys (fun _ => []) (fun _ => false) ($"m") g vis b -> agreeing_blocks toys (bs_annotations b) g /\ distinct_names toys (bs_annotations b) g /\
    contributions toys (bs_annotations b) g toys_entries toys_statements /\ no_clashes (derived 12 3) toys (bs_annotations b) g toys_statements) /\
  executable (fun _ _ p => Some p) (fun _ => false) toys_entries [] /\
  outcome (derived 12 3) toys_files [(Mod [], $"f"); (Mod [], $"S"); (Class 3, $"g"); (Class 12, $"g"); (Mod [], $"One"); (Enum 8, $"One"); (Class 3, $"x"); (Mod [], $"g")] =
    Some [Some (MFunction false [with_args "f" 2 []; with_args "f" 11 []]); Some (MObject (Class 3));
      Some (MFunction false [with_args "g" 5 []; with_args "g" 6 [mkArg ($"n") false false None]]); Some (MFunction false [with_args "g" 13 []]);
      Some (MValue (SValue ($"One") 9)); Some (MValue (SValue ($"One") 9)); Some (MValue (SMember false false ($"x") 7)); None].
Proof.
  split; [exact toys_setting|]. split; [|split; [|split; [|split; [|split; [|split; [|split; [|split]]]]]]].
  - intros c d (Kc & Kd & E). cbn in E. subst d. split; [reflexivity|]. intros p q (l1 & l2 & Hl & Lp & H1) (l3 & l4 & Hl' & Lq & H2). left.
    assert (Hc : u_contexts toys c = [0]) by (do 14 (destruct c as [|c]; [reflexivity || discriminate Kc|]); discriminate Kc). rewrite Hc in Hl, Hl'.
    destruct l1 as [|? [|? ?]], l3 as [|? [|? ?]]; try discriminate Hl; try discriminate Hl'. injection Hl as <- _. injection Hl' as <- _. reflexivity.
  - apply written_inv. vm_compute. reflexivity.
  - reflexivity.
  - reflexivity.
  - vm_compute. repeat constructor; cbn; intuition congruence.
  - intros id t parent n d Ht base Hb. cbn in Ht. repeat destruct Ht as [Ht|Ht]; try contradiction; try discriminate Ht; injection Ht as <- <- <- <- <-; cbn in Hb; try contradiction.
    destruct Hb as [<-|[]]. split; [apply (via_direct _ _ 12 (mkSpec 3 true false)); [left; reflexivity|reflexivity]|].
    intros id' t' parent' n' d' Ht' _. cbn in Ht'. repeat destruct Ht' as [Ht'|Ht']; try contradiction; try discriminate Ht'; injection Ht' as <- <- <- <- <-; reflexivity.
  - intros g vis b X. split; [|split; [apply (distinct_given _ _ _ _ _ X); vm_compute; reflexivity|split; [|apply (no_clashes_given _ _ _ _ _ _ _ X); vm_compute; reflexivity]]].
    + intros c d _ _ (_ & _ & E). cbn in E. subst d. reflexivity.
    + pose proof (edges_given _ _ _ _ _ X) as Eg.
      assert (E : forall p c, In (p, c) [(0, 1); (1, 3); (1, 8); (0, 10); (10, 12)] -> edge g p c) by (unfold edge; rewrite Eg; vm_compute; intuition).
      assert (E0 : forall p, ~ edge g p 0) by (unfold edge; rewrite Eg; vm_compute; intuition congruence). clear Eg.
      assert (P1 : path (edge g) 0 [1; 0]) by (apply path_step; [apply path_root|apply E; cbn; auto]).
      assert (P10 : path (edge g) 0 [10; 0]) by (apply path_step; [apply path_root|apply E; cbn; auto 6]).
      assert (T : forall c, c = 1 \/ c = 10 -> transparent toys (bs_annotations b) c).
      { intros c Hc. split; [destruct Hc as [->| ->]; reflexivity|].
        pose proof (nodes_given _ _ _ _ _ X) as N. assert (N' : node_attributes toys (fun _ => []) = toys_nodes) by (vm_compute; reflexivity). rewrite N' in N. clear N'.
        assert (In c (g_nodes g)).
        { assert (In c (map fst toys_nodes)) by (destruct Hc as [->| ->]; cbn; auto 6). rewrite <- N, map_map in H. cbn [fst] in H. rewrite map_id in H. exact H. }
        apply (node_given _ _ _ _ _ _ X) in H. rewrite <- (nodes_given _ _ _ _ _ X), N in H. cbv [toys_nodes In] in H.
        repeat match type of H with _ \/ _ => destruct H as [H|H] end; try contradiction; injection H as <- H; try (destruct Hc; discriminate); rewrite <- H; eexists; split; reflexivity. }
      assert (Tn : ~ transparent toys (bs_annotations b) 0) by (intros (K & _); discriminate K).
      assert (S1 : forall c, c = 1 \/ c = 10 -> scope_of toys (bs_annotations b) g c 0).
      { intros c Hc. exists [], []. split; [destruct Hc as [->| ->]; assumption|]. split; [exact Tn|intros ? []]. }
      assert (S2 : forall c p, In (p, c) [(1, 3); (1, 8); (10, 12)] -> scope_of toys (bs_annotations b) g c 0).
      { intros c p H. exists [p], []. cbn in H. split; [|split; [exact Tn|]].
        - repeat destruct H as [H|H]; try contradiction; injection H as <- <-; apply path_step; auto; apply E; cbn; auto 6.
        - intros q [<-|[]]. apply T. repeat destruct H as [H|H]; try contradiction; injection H as <- <-; auto. }
      assert (L1 : forall c, c = 1 \/ c = 10 -> located toys (bs_annotations b) g c (Mod [])).
      { intros c Hc. apply (located_namespace _ _ _ _ 0); [destruct Hc as [->| ->]; reflexivity| |apply S1; exact Hc|exact (located_root toys _ g)].
        intros (_ & a & Ha & Hm). destruct (T c Hc) as (_ & a' & Ha' & Hm'). congruence. }
      assert (Q : forall c, scope_of toys (bs_annotations b) g c 0 -> scope_object toys (bs_annotations b) g c (Some (Mod []))).
      { intros c H. exists 0. split; [exact H|exact (located_root toys _ g)]. }
      change toys_statements with ([] ++ firstn 1 toys_statements ++ firstn 4 (skipn 1 toys_statements) ++ firstn 2 (skipn 5 toys_statements) ++
        firstn 1 (skipn 7 toys_statements) ++ skipn 8 toys_statements ++ []).
      unfold toys_entries. apply (contributions_cons _ _ _ _ _ (Mod []) None); [exact (located_root toys _ g)| | |].
      { intros p (l1 & l2 & Hp & _). inversion Hp as [Hp'|q c l Hp' Hq Hl]; [destruct l1; discriminate|exact (E0 _ Hq)]. }
      { repeat constructor; discriminate. }
      apply (contributions_cons _ _ _ _ _ (Mod []) (Some (Mod []))); [apply L1; auto|apply Q, S1; auto|apply con_named; [reflexivity|]; repeat constructor; discriminate|].
      apply (contributions_cons _ _ _ _ _ (Class 3) (Some (Mod []))); [apply located_class; reflexivity|apply Q, (S2 _ 1); cbn; auto| |].
      { do 4 (apply con_named; [reflexivity|]). apply con_nil. }
      apply (contributions_cons _ _ _ _ _ (Enum 8) (Some (Mod []))); [apply located_enum; reflexivity|apply Q, (S2 _ 1); cbn; auto| |].
      { apply con_value. refine (con_export _ _ _ (Mod []) [] [] eq_refl (con_nil _ _ _)). }
      apply (contributions_cons _ _ _ _ _ (Mod []) (Some (Mod []))); [apply L1; auto|apply Q, S1; auto|apply con_named; [reflexivity|]; repeat constructor; discriminate|].
      apply (contributions_cons _ _ _ _ _ (Class 12) (Some (Mod []))); [apply located_class; reflexivity|apply Q, (S2 _ 10); cbn; auto| |apply contributions_nil].
      apply con_named; [reflexivity|apply con_nil].
  - split; [intros; reflexivity|intros; reflexivity].
  - vm_compute. reflexivity.
Qed.

(** ** What can go wrong *)

(** struct GENPYBIND(visible) stat(1);  void stat(2)() GENPYBIND(visible); *)
Definition stat : unit :=
  mkUnit
    (fun i => match i with
              | 0 => a_decl KOther false None []
              | 1 => a_decl KRecord false None ["visible"]%string
              | _ => a_decl (KFunction NoOperator) false None ["visible"]%string
              end)
    [Node 1 []; Node 2 []] 0 (fun i => match i with 0 => [] | _ => [0] end)
    (fun _ => true) (fun _ => false) (fun i => i) (fun _ => false) (fun _ => $"stat") (fun _ => false) N.of_nat.
Definition stat_facts : facts := simple_facts stat no_bases (fun c => match c with 0 => [1; 2] | _ => [] end) (fun _ => "::stat"%string).

(** struct GENPYBIND(visible) A(1) { int x(2); };  struct GENPYBIND(visible) B(3) : A { void x(4)(); }; *)
Definition shadowed : unit :=
  mkUnit
    (fun i => match i with
              | 0 => a_decl KOther false None []
              | 1 => a_decl KRecord false None ["visible"]%string
              | 2 => a_decl KField false None []
              | 3 => a_class 1 "A"
              | _ => a_decl (KMethod NoOperator) false None []
              end)
    [Node 1 [Node 2 []]; Node 3 [Node 4 []]] 0 (fun i => match i with 0 => [] | 2 => [1; 0] | 4 => [3; 0] | _ => [0] end)
    (fun _ => true) (fun _ => false) (fun i => i) (fun _ => false) (fun i => match i with 1 => $"A" | 3 => $"B" | _ => $"x" end) (fun _ => false) N.of_nat.
Definition shadowed_facts : facts :=
  simple_facts shadowed (derives 3 1) (fun c => match c with 0 => [1; 3] | 1 => [2] | 3 => [4] | _ => [] end) (fun i => match i with 1 => "::A" | _ => "::B" end)%string.

(** struct GENPYBIND(visible) A(1) { static void f(2)(int n);  void f(3)(); }; *)
Definition mixed : unit :=
  mkUnit
    (fun i => match i with
              | 0 => a_decl KOther false None []
              | 1 => a_decl KRecord false None ["visible"]%string
              | 2 => of_int (KMethod NoOperator) true
              | _ => a_decl (KMethod NoOperator) false None []
              end)
    [Node 1 [Node 2 []; Node 3 []]] 0 (fun i => match i with 0 => [] | 1 => [0] | _ => [1; 0] end)
    (fun _ => true) (fun _ => false) (fun i => i) (fun _ => false) (fun i => match i with 1 => $"A" | _ => $"f" end) (fun _ => false) N.of_nat.
Definition mixed_facts : facts := simple_facts mixed no_bases (fun c => match c with 0 => [1] | 1 => [2; 3] | _ => [] end) (fun _ => "::A"%string).

(** namespace GENPYBIND(visible) a(1) { int v(2); }  namespace GENPYBIND(visible) b(3) { int v(4); } *)
Definition variables : unit :=
  mkUnit
    (fun i => match i with
              | 0 => a_decl KOther false None []
              | 1 | 3 => a_decl KNamespace false None ["visible"]%string
              | _ => a_decl KVar false None []
              end)
    [Node 1 [Node 2 []]; Node 3 [Node 4 []]] 0 (fun i => match i with 0 => [] | 2 => [1; 0] | 4 => [3; 0] | _ => [0] end)
    (fun _ => true) (fun _ => false) (fun i => i) (fun _ => false) (fun i => match i with 1 => $"a" | 3 => $"b" | _ => $"v" end) (fun _ => false) N.of_nat.
Definition variables_facts : facts :=
  simple_facts variables no_bases (fun c => match c with 0 => [1; 3] | 1 => [2] | 3 => [4] | _ => [] end) (fun i => match i with 1 => "a" | _ => "b" end)%string.

Definition variables_found (c : nat) : list nat := match c with 1 => [2] | 3 => [4] | _ => [] end.

Lemma stat_setting : setting stat stat_facts (@rev nat).
Proof. constructor; [placed_unit [1; 2]|language_facts|exists N.of_nat; exact (pop_first_good stat)|intros l; apply Permutation_rev]. Qed.
Lemma shadowed_setting : setting shadowed shadowed_facts (@rev nat).
Proof. constructor; [placed_unit [1; 2; 3; 4]|language_facts|exists N.of_nat; exact (pop_first_good shadowed)|intros l; apply Permutation_rev]. Qed.
Lemma mixed_setting : setting mixed mixed_facts (@rev nat).
Proof. constructor; [placed_unit [1; 2; 3]|language_facts|exists N.of_nat; exact (pop_first_good mixed)|intros l; apply Permutation_rev]. Qed.
Lemma variables_setting : setting variables variables_facts (@rev nat).
Proof. constructor; [placed_unit [1; 2; 3; 4]|language_facts|exists N.of_nat; exact (pop_first_good variables)|intros l; apply Permutation_rev]. Qed.

Definition stat_files : list (list item) := Eval vm_compute in files_of stat stat_facts (fun _ => []).
Definition shadowed_files : list (list item) := Eval vm_compute in files_of shadowed shadowed_facts (fun _ => []).
Definition mixed_files : list (list item) := Eval vm_compute in files_of mixed mixed_facts (fun _ => []).
Definition variables_files : list (list item) := Eval vm_compute in files_of variables variables_facts variables_found.

(** No reports, and the classes as such can be imported (C64). *)
Definition importable (u : unit) (w : facts) (found : nat -> list nat) (files : list (list item)) : Prop :=
  setting u w (@rev nat) /\ nested_blocks u /\
  (exists b st', generate u w found (fun _ => false) (@rev nat) 1 ($"m") = Some (RGraph b (EWritten files [] st')) /\ bs_reports b = []) /\
  exists intros calls post, filter is_module (concat files) = [IModule ($"m") intros calls post] /\ exists s, import held_by_default intros = Some s.
Definition imported (mro : nat -> list nat) (files : list (list item)) : option (state * pystate) :=
  run_module mro (fun _ _ p => Some p) (fun _ => false) held_by_default files (module_of files).

(** A class and a function of the same name: import fails. *)
Theorem functions_named_like_classes_can_be_imported_refuted :
  exists u w files, importable u w (fun _ => []) files /\
    (exists r f, kind u r = KRecord /\ kind u f = KFunction NoOperator /\ u_name u r = u_name u f) /\ forall mro, imported mro files = None.
Proof.
  exists stat, stat_facts, stat_files. split; [|split].
  - split; [exact stat_setting|]. split; [|split; [apply written_inv; vm_compute; reflexivity|]].
    + intros c d (Kc & _). do 3 (destruct c as [|c]; [discriminate Kc|]). discriminate Kc.
    + do 3 eexists. split; [reflexivity|]. eexists. vm_compute. reflexivity.
  - exists 1, 2. repeat split.
  - intro mro. vm_compute. reflexivity.
Qed.
Print Assumptions functions_named_like_classes_can_be_imported_refuted.

(** A member function hiding a data member of a base class: import fails. *)
Theorem functions_hiding_data_members_can_be_imported_refuted :
  exists u w files, importable u w (fun _ => []) files /\
    (exists b d x f, h_direct (w_hierarchy w) d = [mkSpec b true false] /\ hd_error (u_contexts u x) = Some b /\ hd_error (u_contexts u f) = Some d /\ kind u x = KField /\ kind u f = KMethod NoOperator /\ u_name u x = u_name u f /\
      imported (derived d b) files = None).
Proof.
  exists shadowed, shadowed_facts, shadowed_files. split.
  - split; [exact shadowed_setting|]. split; [|split; [apply written_inv; vm_compute; reflexivity|]].
    + intros c d (Kc & _). do 5 (destruct c as [|c]; [discriminate Kc|]). discriminate Kc.
    + do 3 eexists. split; [reflexivity|]. eexists. vm_compute. reflexivity.
  - exists 1, 3, 2, 4. repeat split.
Qed.
Print Assumptions functions_hiding_data_members_can_be_imported_refuted.

(** Static and other member functions of the same name: import fails. *)
Theorem static_overloads_can_be_imported_refuted :
  exists u w files, importable u w (fun _ => []) files /\
    (exists f g, kind u f = KMethod NoOperator /\ kind u g = KMethod NoOperator /\ u_name u f = u_name u g /\ d_static (u_decls u f) = true /\ d_static (u_decls u g) = false) /\
    imported (fun _ => []) files = None.
Proof.
  exists mixed, mixed_facts, mixed_files. split; [|split].
  - split; [exact mixed_setting|]. split; [|split; [apply written_inv; vm_compute; reflexivity|]].
    + intros c d (Kc & _). do 4 (destruct c as [|c]; [discriminate Kc|]). discriminate Kc.
    + do 3 eexists. split; [reflexivity|]. eexists. vm_compute. reflexivity.
  - exists 2, 3. repeat split.
  - vm_compute. reflexivity.
Qed.
Print Assumptions static_overloads_can_be_imported_refuted.

(** Variables of the same name in namespaces that are not modules: the module can
    be imported, but the first one is lost. *)
Theorem variables_can_be_accessed_refuted :
  exists u w found files v v', importable u w found files /\ v <> v' /\
    (exists body body' id id', In (IDefine id PModule body) (concat files) /\ In (IDefine id' PModule body') (concat files) /\ In (SVariable ($"v") v) body /\ In (SVariable ($"v") v') body') /\
    forall mro, exists s p, imported mro files = Some (s, p) /\ own p (Mod []) ($"v") = Some (MValue (SVariable ($"v") v')) /\
      forall o n m, own p o n = Some m -> ~ reaches m (SVariable ($"v") v).
Proof.
  exists variables, variables_facts, variables_found, variables_files, 2, 4. split; [|split; [discriminate|split]].
  - split; [exact variables_setting|]. split; [|split; [apply written_inv; vm_compute; reflexivity|]].
    + intros c d (Kc & Kd & E). cbn in E. subst d. split; [reflexivity|]. intros p q (l1 & l2 & Hl & Lp & H1) (l3 & l4 & Hl' & Lq & H2). left.
      assert (Hc : u_contexts variables c = [0]) by (do 5 (destruct c as [|c]; [reflexivity || discriminate Kc|]); reflexivity). rewrite Hc in Hl, Hl'.
      destruct l1 as [|? [|? ?]], l3 as [|? [|? ?]]; try discriminate Hl; try discriminate Hl'. injection Hl as <- _. injection Hl' as <- _. reflexivity.
    + do 3 eexists. split; [reflexivity|]. eexists. vm_compute. reflexivity.
  - do 4 eexists. split; [do 5 right; left; reflexivity|]. split; [do 6 right; left; reflexivity|]. split; left; reflexivity.
  - intro mro. do 2 eexists. split; [vm_compute; reflexivity|]. split; [vm_compute; reflexivity|].
    intros o n m H. cbn in H. unfold own in H. cbn [p_members find fst snd] in H.
    repeat match type of H with option_map _ (if ?c then _ else _) = _ => destruct c; [injection H as <-; discriminate|] end. discriminate H.
Qed.
Print Assumptions variables_can_be_accessed_refuted.
