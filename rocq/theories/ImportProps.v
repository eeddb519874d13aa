(** * Properties of importing the generated module *)
From Coq Require Import Sorting.Permutation.
From Verif Require Import Base ParserModel StringModel StringSpec AnnotModel AnnotSpec CollectModel CollectSpec GraphModel GraphSpec GraphWalk GraphPlace GraphFinal GraphProps
  OrderModel OrderSpec OrderProofs OrderProps InlineModel InlineSpec InlineProofs EmitModel EmitSpec EmitProofs EmitFinal EmitProps ModuleModel ModuleSpec ModuleChunks ModuleProofs ModuleFinal ModuleProps
  ImportSpec ImportProofs.

(** ** C64 *)

(** Import succeeds and each class, enumeration and module is found under its
    Python path.  Missing: that identifiers are distinct (see C34), blocks of
    namespaces agree (C50), names are distinct, and bases come first (C31) and are
    held alike is not ensured. *)
Theorem classes_are_found_under_their_python_path_partial :
  forall default_holder u w found implicit iteration n name b files rs st', setting u w iteration -> nested_blocks u -> 0 < n ->
  generate u w found implicit iteration n name = Some (RGraph b (EWritten files rs st')) ->
  exists g vis order all chunks post, exposed u found implicit name g vis b /\
    generated u w g vis (bs_annotations b) name rs st' order all post /\ layout name post all chunks files /\
    let intros := map (fun e => (ex_id e, ex_intro e)) all in
    (NoDup (map fst intros) -> agreeing_blocks u (bs_annotations b) g -> distinct_names u (bs_annotations b) g -> usable_bases default_holder w intros ->
     exists s, import default_holder intros = Some s /\
       (forall e, In e all -> exists o, value s (ex_id e) = Some o /\ located u (bs_annotations b) g (ex_context e) o) /\
       (forall o m v, attribute s o m = Some v <-> exists c, found_in u (bs_annotations b) g c o m /\ located u (bs_annotations b) g c v) /\
       (forall c, In c (g_nodes g) -> exists l, python_path u (bs_annotations b) g c l) /\
       forall c l, python_path u (bs_annotations b) g c l -> exists o, located u (bs_annotations b) g c o /\ resolve s (Mod []) l = Some o).
Proof. exact run_imports. Qed.
Print Assumptions classes_are_found_under_their_python_path_partial.

(** ** Example *)

Definition module_intros (i : item) : list (str * introducer) := match i with IModule _ intros _ _ => intros | _ => [] end.

Definition node_attributes (u : unit) (found : nat -> list nat) : list (nat * option attrs) :=
  match process u found (fun _ => false) ($"m") with Done (Pruned g _ _ _ b) => map (fun c => (c, lookup_attrs (bs_annotations b) c)) (g_nodes g) | _ => [] end.

Lemma nodes_given u found g vis b : exposed u found (fun _ => false) ($"m") g vis b ->
  map (fun c => (c, lookup_attrs (bs_annotations b) c)) (g_nodes g) = node_attributes u found.
Proof. intros (contexts & warned & H). unfold node_attributes. rewrite H. reflexivity. Qed.

Lemma node_given u found g vis b c : exposed u found (fun _ => false) ($"m") g vis b -> In c (g_nodes g) ->
  In (c, lookup_attrs (bs_annotations b) c) (node_attributes u found).
Proof. intros X H. rewrite <- (nodes_given _ _ _ _ _ X). apply in_map_iff. exists c. auto. Qed.

(** Decides [distinct_names] by comparing names regardless of scopes. *)
Definition name_given (u : unit) (x : nat * option attrs) : str :=
  match snd x with Some a => if is_empty (n_spelling (at_named a)) then u_name u (fst x) else n_spelling (at_named a) | None => u_name u (fst x) end.
Definition is_namespace (u : unit) (c : nat) : bool := match kind u c with KNamespace => true | _ => false end.
Definition has_object (u : unit) (c : nat) : bool := match kind u c with KRecord | KEnum | KNamespace => true | _ => false end.
Definition all_distinct (u : unit) (l : list (nat * option attrs)) : bool :=
  forallb (fun x => forallb (fun y => Nat.eqb (fst x) (fst y) || (is_namespace u (fst x) && is_namespace u (fst y)) ||
    negb (has_object u (fst x) && has_object u (fst y) && str_eqb (name_given u x) (name_given u y))) l) l.

Lemma named_given u st c n : named u st c n -> n = name_given u (c, lookup_attrs st c).
Proof.
  unfold named, name_given. cbn [fst snd]. destruct (lookup_attrs st c) as [a|]; [|auto].
  intros [(H & ->)|[(_ & [] & _)|(H & _ & ->)]]; [|reflexivity|rewrite H; reflexivity]. destruct (n_spelling (at_named a)); [contradiction|reflexivity].
Qed.

Lemma own_given u st c : own_object u st c -> has_object u c = true.
Proof. unfold has_object. intros [-> |[-> |(-> & _)]]; reflexivity. Qed.

Lemma distinct_given u found g vis b : exposed u found (fun _ => false) ($"m") g vis b -> all_distinct u (node_attributes u found) = true -> distinct_names u (bs_annotations b) g.
Proof.
  intros X H c d o n (Hc & Oc & _ & Nc) (Hd & Od & _ & Nd). unfold all_distinct in H. rewrite forallb_forall in H.
  specialize (H _ (node_given _ _ _ _ _ _ X Hc)). rewrite forallb_forall in H. specialize (H _ (node_given _ _ _ _ _ _ X Hd)). cbn [fst] in H.
  rewrite (own_given _ _ _ Oc), (own_given _ _ _ Od), <- (named_given _ _ _ _ Nc), <- (named_given _ _ _ _ Nd) in H.
  destruct (Nat.eqb_spec c d) as [->|_]; [left; reflexivity|]. right. rewrite (proj2 (str_eqb_eq n n) eq_refl) in H. cbn in H. rewrite orb_false_r in H.
  unfold is_namespace in H. destruct (kind u c), (kind u d); try discriminate H; auto.
Qed.

Definition shapes_nodes : list (nat * option attrs) := Eval vm_compute in node_attributes shapes (fun _ => []).

Definition held_by_default (holder : str) : bool := is_empty holder.

(** m.geo.Round etc., with both blocks of geo. *)
Example classes_are_found_under_their_python_path_example :
  setting shapes shapes_facts (@rev nat) /\ nested_blocks shapes /\ NoDup (map fst (module_intros shapes_module)) /\
  (forall g vis b, exposed shapes (fun _ => []) (fun _ => false) ($"m") g vis b -> agreeing_blocks shapes (bs_annotations b) g /\ distinct_names shapes (bs_annotations b) g) /\
  usable_bases held_by_default shapes_facts (module_intros shapes_module) /\
  option_map (fun s => map (resolve s (Mod [])) [[$"geo"]; [$"geo"; $"Color"]; [$"geo"; $"Round"]; [$"geo"; $"Late"]; [$"Round"]; [$"geo"; $"area"]])
    (import held_by_default (module_intros shapes_module)) = Some [Some (Mod [$"geo"]); Some (Enum 2); Some (Class 4); Some (Class 8); None; None].
Proof.
  split; [exact shapes_setting|]. split; [|split; [|split; [|split]]].
  - intros c d (Kc & Kd & E). assert (Hc : c = 1 \/ c = 7) by (do 9 (destruct c as [|c]; [auto; discriminate Kc|]); discriminate Kc).
    assert (Hd : d = 1 \/ d = 7) by (do 9 (destruct d as [|d]; [auto; discriminate Kd|]); discriminate Kd).
    split; [destruct Hc as [->| ->], Hd as [->| ->]; reflexivity|].
    assert (R : forall c p, c = 1 \/ c = 7 -> nearest_context shapes c p -> p = 0).
    { intros x p Hx (l1 & l2 & Hl & _). assert (Hx' : u_contexts shapes x = [0]) by (destruct Hx as [->| ->]; reflexivity). rewrite Hx' in Hl.
      destruct l1 as [|? [|? ?]]; [now injection Hl|discriminate Hl|discriminate Hl]. }
    intros p q Hp Hq. left. rewrite (R c p Hc Hp), (R d q Hd Hq). reflexivity.
  - vm_compute. repeat constructor; cbn; intuition congruence.
  - intros g vis b X. split; [|apply (distinct_given _ _ _ _ _ X); vm_compute; reflexivity].
    intros c d Hc Hd (Kc & Kd & _).
    apply (node_given _ _ _ _ _ _ X) in Hc. apply (node_given _ _ _ _ _ _ X) in Hd.
    assert (N : node_attributes shapes (fun _ => []) = shapes_nodes) by (vm_compute; reflexivity). rewrite N in Hc, Hd. cbv [shapes_nodes In] in Hc, Hd.
    repeat match type of Hc with _ \/ _ => destruct Hc as [Hc|Hc] end; try contradiction; injection Hc as <- Ec; try discriminate Kc;
    repeat match type of Hd with _ \/ _ => destruct Hd as [Hd|Hd] end; try contradiction; injection Hd as <- Ed; try discriminate Kd; congruence.
  - intros id t parent n d Ht base Hb. cbn in Ht. repeat destruct Ht as [Ht|Ht]; try contradiction; try discriminate Ht; injection Ht as <- <- <- <- <-; cbn in Hb; try contradiction.
    destruct Hb as [<-|[]]. split; [apply (via_direct _ _ 4 (mkSpec 3 true false)); [left; reflexivity|reflexivity]|].
    intros id' t' parent' n' d' Ht' _. cbn in Ht'. repeat destruct Ht' as [Ht'|Ht']; try contradiction; try discriminate Ht'; injection Ht' as <- <- <- <- <-; reflexivity.
  - vm_compute. reflexivity.
Qed.

(** ** What can go wrong *)

(** namespace GENPYBIND(visible) a(1) { struct X(2); }  namespace GENPYBIND(visible) b(3) { struct X(4); } *)
Definition twice : unit :=
  mkUnit
    (fun i => match i with
              | 0 => a_decl KOther false None []
              | 1 | 3 => a_decl KNamespace false None ["visible"]%string
              | _ => a_decl KRecord false None []
              end)
    [Node 1 [Node 2 []]; Node 3 [Node 4 []]] 0
    (fun i => match i with 0 => [] | 2 => [1; 0] | 4 => [3; 0] | _ => [0] end)
    (fun _ => true) (fun _ => false) (fun i => i) (fun _ => false)
    (fun i => match i with 1 => $"a" | 3 => $"b" | _ => $"X" end) (fun _ => false) N.of_nat.

Definition twice_facts : facts :=
  facts_of twice no_bases (fun c => match c with 1 => [2] | 3 => [4] | _ => [1; 3] end)
    (fun i => match i with 1 => "a" | 2 => "::a::X" | 3 => "b" | _ => "::b::X" end)%string [].

Lemma twice_setting : setting twice twice_facts (@rev nat).
Proof.
  constructor; [placed_unit [1; 2; 3; 4]|language_facts|exists N.of_nat; exact (pop_first_good twice)|intros l; apply Permutation_rev].
Qed.

Definition twice_files : list (list item) := Eval vm_compute in files_of twice twice_facts (fun _ => []).

(** struct GENPYBIND(visible) A(1);  struct GENPYBIND(visible, holder_type("std::shared_ptr<B>")) B(2) : A; *)
Definition held : unit :=
  mkUnit
    (fun i => match i with
              | 0 => a_decl KOther false None []
              | 2 => mkDecl KRecord [lozenge ++ $"visible, holder_type(""std::shared_ptr<B>"")"] false [] 0 false false false [mkBase 1 [$"A"]] [mkBase 1 [$"A"]] None true None
              | _ => a_decl KRecord false None ["visible"]%string
              end)
    [Node 1 []; Node 2 []] 0
    (fun i => match i with 0 => [] | _ => [0] end)
    (fun _ => true) (fun _ => false) (fun i => i) (fun _ => false)
    (fun i => match i with 1 => $"A" | _ => $"B" end) (fun _ => false) N.of_nat.

Definition held_facts : facts :=
  facts_of held (mkHierarchy (fun i => match i with 2 => [mkSpec 1 true false] | _ => [] end) (fun i => match i with 2 => 1 | _ => 0 end))
    (fun c => match c with 0 => [1; 2] | _ => [] end) (fun i => match i with 1 => "::A" | _ => "::B" end)%string [].

Lemma held_setting : setting held held_facts (@rev nat).
Proof.
  constructor; [placed_unit [1; 2]|language_facts|exists N.of_nat; exact (pop_first_good held)|intros l; apply Permutation_rev].
Qed.

Definition held_files : list (list item) := Eval vm_compute in files_of held held_facts (fun _ => []).

(** Classes of the same name in different namespaces that are not modules: import
    fails, without any reports. *)
Theorem classes_of_the_same_name_can_be_imported_refuted :
  exists u w b files st' intros calls post, setting u w (@rev nat) /\ nested_blocks u /\
    generate u w (fun _ => []) (fun _ => false) (@rev nat) 1 ($"m") = Some (RGraph b (EWritten files [] st')) /\ bs_reports b = [] /\
    In (IModule ($"m") intros calls post) (concat files) /\ NoDup (map fst intros) /\ (forall holder, usable_bases holder w intros) /\
    (exists c d, kind u c = KRecord /\ kind u d = KRecord /\ c <> d /\ u_name u c = u_name u d) /\ forall holder, import holder intros = None.
Proof.
  destruct (written_inv (generate twice twice_facts (fun _ => []) (fun _ => false) (@rev nat) 1 ($"m")) twice_files) as (b & st' & E & Er); [vm_compute; reflexivity|].
  exists twice, twice_facts, b, twice_files, st'. do 3 eexists. split; [exact twice_setting|]. split; [|split; [exact E|]; split; [exact Er|]].
  - intros c d (Kc & Kd & Hcd). cbn in Hcd. subst d. split; [reflexivity|]. intros p q (l1 & l2 & Hl & Lp & H1) (l3 & l4 & Hl' & Lq & H2). left.
    assert (Hc : u_contexts twice c = [0]) by (do 5 (destruct c as [|c]; [reflexivity || discriminate Kc|]); reflexivity). rewrite Hc in Hl, Hl'.
    destruct l1 as [|? [|? ?]], l3 as [|? [|? ?]]; try discriminate Hl; try discriminate Hl'. injection Hl as <- _. injection Hl' as <- _. reflexivity.
  - split; [do 5 right; left; reflexivity|]. split; [vm_compute; repeat constructor; cbn; intuition congruence|]. split; [|split].
    + intros holder id t parent n d Ht base Hb. cbn in Ht. repeat destruct Ht as [Ht|Ht]; try contradiction; try discriminate Ht; injection Ht as <- <- <- <- <-; destruct Hb.
    + exists 2, 4. repeat split; discriminate.
    + intro holder. vm_compute. reflexivity.
Qed.
Print Assumptions classes_of_the_same_name_can_be_imported_refuted.

(** A class with a holder type and a base without: import fails, without any reports. *)
Theorem classes_with_a_holder_type_can_be_imported_refuted :
  exists u w b files st' intros calls post, setting u w (@rev nat) /\ nested_blocks u /\
    generate u w (fun _ => []) (fun _ => false) (@rev nat) 1 ($"m") = Some (RGraph b (EWritten files [] st')) /\ bs_reports b = [] /\
    In (IModule ($"m") intros calls post) (concat files) /\ NoDup (map fst intros) /\
    (forall g vis, exposed u (fun _ => []) (fun _ => false) ($"m") g vis b -> agreeing_blocks u (bs_annotations b) g /\ distinct_names u (bs_annotations b) g) /\
    (forall id t parent n d, In (id, NClass t parent n d) intros -> forall base, In base (ct_bases t) -> base_via (w_hierarchy w) (introduced_class intros) (ct_record t) base) /\
    import held_by_default intros = None.
Proof.
  destruct (written_inv (generate held held_facts (fun _ => []) (fun _ => false) (@rev nat) 1 ($"m")) held_files) as (b & st' & E & Er); [vm_compute; reflexivity|].
  exists held, held_facts, b, held_files, st'. do 3 eexists. split; [exact held_setting|]. split; [|split; [exact E|]; split; [exact Er|]].
  - intros c d (Kc & _). do 3 (destruct c as [|c]; [discriminate Kc|]). discriminate Kc.
  - split; [do 3 right; left; reflexivity|]. split; [vm_compute; repeat constructor; cbn; intuition congruence|]. split; [|split].
    + intros g vis X. split; [|apply (distinct_given _ _ _ _ _ X); vm_compute; reflexivity].
      intros c d _ _ (Kc & _). do 3 (destruct c as [|c]; [discriminate Kc|]). discriminate Kc.
    + intros id t parent n d Ht base Hb. cbn in Ht. repeat destruct Ht as [Ht|Ht]; try contradiction; try discriminate Ht; injection Ht as <- <- <- <- <-; [destruct Hb|destruct Hb as [<-|[]]].
      apply (via_direct _ _ 2 (mkSpec 1 true false)); [left; reflexivity|reflexivity].
    + vm_compute. reflexivity.
Qed.
Print Assumptions classes_with_a_holder_type_can_be_imported_refuted.
