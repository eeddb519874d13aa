(** * Creation of objects in Python *)
From Coq Require Import Sorting.Permutation.
From Verif Require Import Base ParserModel StringModel AnnotModel AnnotSpec AnnotProofs CollectModel CollectSpec GraphModel GraphSpec GraphWalk GraphPlace GraphProps
  OrderModel OrderSpec OrderProofs OrderProps InlineModel InlineSpec EmitModel EmitSpec EmitProps ModuleModel ModuleSpec ModuleProofs ModuleFinal ModuleProps ImportSpec ImportProofs ImportProps ExecSpec ExecProofs ExecProps AccessSpec AccessProofs AccessProps
  InvalidSpec InvalidProofs DispatchSpec DispatchProofs DocSpec FindSpec FindProofs CreateSpec CreateProofs.

(** ** C100 *)

(** Objects of a class that can be found are created exactly by its visible
    constructors, by the first one in the source that takes the arguments (without
    conversions, if there is such a one); not by those of its bases.
    Missing: the code does not make sure that nothing else is called __init__, see
    below. *)
Theorem objects_are_created_by_constructors_partial :
  forall default_holder mro manual fails u w found implicit iteration n name b files rs st', setting u w iteration -> 0 < n ->
  generate u w found implicit iteration n name = Some (RGraph b (EWritten files rs st')) ->
  forall m s p, In m (concat files) -> run_module mro manual fails default_holder files m = Some (s, p) ->
  leaves_constructors manual -> leaves_values manual -> only_constructors files ->
  forall r, kind u r = KRecord -> to_be_found u name r ->
  exists l ts, constructors u w b name r l /\ Forall2 (fun t i => function_of t = Some i) ts l /\
    forall V is_none default accepts (self : V) pos kw,
      (forall t bi, creates is_none default accepts (w_extra w) self p r pos kw = Some (t, bi) -> exists i, function_of t = Some i /\ constructor_of u w b name r i) /\
      (proper_keywords kw -> (forall t, In t ts -> distinct_formals (formals default (Class r) t)) -> sensible accepts (Class r) ts ->
        (forall t bi, creates is_none default accepts (w_extra w) self p r pos kw = Some (t, bi) <-> chosen is_none default accepts (w_extra w) (Class r) ts (self :: pos) kw t bi) /\
        (creates is_none default accepts (w_extra w) self p r pos kw = None <-> forall t bi, In t ts -> ~ suits is_none default accepts (w_extra w) (Class r) true (self :: pos) kw t bi)).
Proof. exact objects_created. Qed.
Print Assumptions objects_are_created_by_constructors_partial.

(** Classes without any, such as abstract ones, can not be instantiated. *)
Theorem classes_without_constructors_have_no_objects :
  forall default_holder mro manual fails u w found implicit iteration n name b files rs st', setting u w iteration -> 0 < n ->
  generate u w found implicit iteration n name = Some (RGraph b (EWritten files rs st')) ->
  forall m s p, In m (concat files) -> run_module mro manual fails default_holder files m = Some (s, p) ->
  leaves_constructors manual -> leaves_values manual -> only_constructors files ->
  forall r, kind u r = KRecord -> to_be_found u name r -> (forall i, ~ constructor_of u w b name r i) ->
  forall V is_none default accepts (self : V) pos kw, creates is_none default accepts (w_extra w) self p r pos kw = None.
Proof. exact nothing_created. Qed.
Print Assumptions classes_without_constructors_have_no_objects.

(** Constructors get the arguments of the call by their position, by the name of
    the parameter, or the default argument. *)
Theorem constructors_get_the_arguments :
  forall default_holder mro manual fails u w found implicit iteration n name b files rs st', setting u w iteration -> 0 < n ->
  generate u w found implicit iteration n name = Some (RGraph b (EWritten files rs st')) ->
  forall m s p, In m (concat files) -> run_module mro manual fails default_holder files m = Some (s, p) ->
  leaves_constructors manual -> leaves_values manual -> only_constructors files ->
  forall r, adds_nothing manual -> kind u r = KRecord -> to_be_found u name r ->
  exists l ts, constructors u w b name r l /\ Forall2 (fun t i => function_of t = Some i) ts l /\
    forall V is_none default accepts (self : V) pos kw t bi i ans,
      proper_keywords kw -> (forall t, In t ts -> distinct_formals (formals default (Class r) t)) -> sensible accepts (Class r) ts ->
      creates is_none default accepts (w_extra w) self p r pos kw = Some (t, bi) -> function_of t = Some i ->
      consistent u (w_extra w) i -> valid_annotations (u_decls u i) -> carried (d_attrs (u_decls u i)) ans false -> variadic_last (fi_params (x_fn (w_extra w) i)) ->
      forall j q, nth_error (filter is_ordinary (fi_params (x_fn (w_extra w) i))) j = Some q ->
        exists v, nth_error (bi_values bi) (S j) = Some v /\ source pos kw j q (default i j) v /\
          (own_name (fi_params (x_fn (w_extra w) i)) j q ->
            (named_by Required ans (pm_name q) -> is_none v = false) /\ (named_by Noconvert ans (pm_name q) -> accepts t (S j) false v = true)).
Proof. exact arguments_of_constructors. Qed.
Print Assumptions constructors_get_the_arguments.

(** *** Examples *)

(** struct GENPYBIND(visible) Box(1) {
      Box(2)(Text label, int size = 3);  Box(3)(int size) GENPYBIND(hidden);  Box(4)(Box &&other);  Box(5)(bool lid);
    };
    struct GENPYBIND(visible) Crate(6) : Box {};
    struct GENPYBIND(visible) Shape(7) { Shape(8)();  virtual void draw() GENPYBIND(hidden) = 0; }; *)
Definition making (a ps : list string) (required : nat) : decl := mkDecl KConstructor (map (fun t => lozenge ++ $t) a) false (map (fun p => $p) ps) required true false true [] [] None false None.
Definition depot : unit :=
  mkUnit
    (fun i => match i with
              | 0 => a_decl KOther false None []
              | 1 | 7 => a_decl KRecord false None ["visible"]%string
              | 2 => making [] ["label"; "size"]%string 1
              | 3 => making ["hidden"]%string ["size"]%string 1
              | 4 => making [] ["other"]%string 1
              | 5 => making [] ["lid"]%string 1
              | 6 => a_class 1 "Box"
              | _ => making [] [] 0
              end)
    [Node 1 [Node 2 []; Node 3 []; Node 4 []; Node 5 []]; Node 6 []; Node 7 [Node 8 []]] 0
    (fun i => match i with 0 => [] | 2 | 3 | 4 | 5 => [1; 0] | 8 => [7; 0] | _ => [0] end)
    (fun _ => true) (fun _ => false) (fun i => i) (fun _ => false)
    (fun i => match i with 1 => $"Box" | 6 => $"Crate" | 7 => $"Shape" | _ => $"" end) (fun _ => false) N.of_nat.
Definition depot_fn (i : nat) : fn :=
  match i with
  | 2 => a_fn [a_param "label" (plain_type 2); mkParam ($"size") (plain_type 1) None (Some ($"3"))] None
  | 3 => a_fn [a_param "size" (plain_type 1)] None
  | 4 => mkFn [a_param "other" (class_type 1)] None false false true NoClass (plain_type 0)
  | 5 => a_fn [a_param "lid" (plain_type 3)] None
  | _ => a_fn [] None
  end.
Definition depot_facts : facts :=
  mkFacts (mkExtra depot_fn (fun _ => false) (fun _ => None) (fun _ => false) (fun _ => false) (Nat.eqb 7) (fun _ => None) (fun _ _ => []))
    (derives 6 1) (fun i => a_member (is_tag_kind (kind depot i))) (fun c => map (fun i => mkFound i None false) (match c with 0 => [1; 6; 7] | 1 => [2; 3; 4; 5] | 7 => [8] | _ => [] end))
    (fun i => match i with 1 => $"::Box" | 6 => $"::Crate" | _ => $"::Shape" end) [] (pop_first depot).

Lemma depot_setting : setting depot depot_facts (@rev nat).
Proof. constructor; [placed_unit [1; 2; 3; 4; 5; 6; 7; 8]|language_facts|exists N.of_nat; exact (pop_first_good depot)|intros l; apply Permutation_rev]. Qed.

Definition depot_files : list (list item) := Eval vm_compute in files_of depot depot_facts (fun _ => []).
Definition depot_module : pystate := Eval vm_compute in match imported (derived 6 1) depot_files with Some (_, p) => p | None => mkPy [] [] end.

(** Objects in Python; integers are converted to bool where this is allowed. *)
Inductive thing := Empty | ABox | ALabel | ANumber (n : Z) | AFlag.
Definition is_empty_thing (v : thing) : bool := match v with Empty => true | _ => false end.
Definition three (_ _ : nat) : thing := ANumber 3.
Definition fitting (s : stmt) (k : nat) (convert : bool) (v : thing) : bool :=
  match function_of s, k, v with
  | _, 0, ABox | Some 2, 1, ALabel | Some 2, 2, ANumber _ | Some 5, 1, AFlag => true
  | Some 5, 1, ANumber _ => convert
  | _, _, _ => false
  end.
Definition depot_creates (r : nat) (pos : list thing) (kw : keywords thing) : option (stmt * binding thing) :=
  creates is_empty_thing three fitting (w_extra depot_facts) ABox depot_module r pos kw.

Lemma depot_imports : setting depot depot_facts (@rev nat) /\
  (exists b st', generate depot depot_facts (fun _ => []) (fun _ => false) (@rev nat) 1 ($"m") = Some (RGraph b (EWritten depot_files [] st')) /\ bs_reports b = []) /\
  In (module_of depot_files) (concat depot_files) /\
  exists s, run_module (derived 6 1) (fun _ _ p => Some p) (fun _ => false) held_by_default depot_files (module_of depot_files) = Some (s, depot_module).
Proof. split; [exact depot_setting|]. split; [apply written_inv; vm_compute; reflexivity|]. split; [|eexists; vm_compute; reflexivity]. vm_compute. intuition. Qed.

(** Nothing but constructors is called __init__. *)
Definition other_init (t : stmt) : bool :=
  match t with SInit _ _ _ _ => false | SValue n _ => str_eqb n init_name | _ => match defines t with Some n => str_eqb n init_name | None => false end end.
Definition constructors_only (files : list (list item)) : bool :=
  forallb (fun i => match i with
                    | IDefine _ _ body => negb (existsb other_init body)
                    | IModule _ intros _ _ => forallb (fun k => match intro_name (snd k) with Some n => negb (str_eqb n init_name) | None => true end) intros
                    | _ => true
                    end) (concat files).

Lemma constructors_only_iff files : constructors_only files = true -> only_constructors files.
Proof.
  unfold constructors_only. rewrite forallb_forall. intros H. split.
  - intros id q body t Hi Ht Hn. specialize (H _ Hi). cbn in H. apply negb_true_iff in H. assert (N : other_init t = false).
    { destruct (other_init t) eqn:E; [|reflexivity]. rewrite <- H. symmetry. apply existsb_exists. eauto. }
    destruct Hn as [Hn|(i & ->)]; [|cbn in N; assert (E := proj2 (str_eqb_eq init_name init_name) eq_refl); congruence].
    destruct t; try (exfalso; revert N; unfold other_init; rewrite Hn; rewrite (proj2 (str_eqb_eq init_name init_name) eq_refl); discriminate); [eauto|discriminate Hn].
  - intros n intros calls post id k Hi Hk E. specialize (H _ Hi). cbv beta iota in H. rewrite forallb_forall in H. specialize (H _ Hk). cbn [snd] in H. rewrite E in H.
    rewrite (proj2 (str_eqb_eq init_name init_name) eq_refl) in H. discriminate H.
Qed.

Lemma nodes_found u found implicit name l : placed u ->
  match process u found implicit name with Done (Pruned g _ _ _ _) => forallb (fun c => mem c (g_nodes g)) l | _ => false end = true ->
  forall c, In c l -> tag u c -> to_be_found u name c.
Proof.
  intros P E c Hc T. destruct (process u found implicit name) as [[| |g contexts vis warned b]| |] eqn:Ep; try discriminate E.
  assert (X : exposed u found implicit name g vis b) by (exists contexts, warned; exact Ep). rewrite forallb_forall in E. apply (found_iff u P found implicit name g vis b X c T). apply mem_iff, E, Hc.
Qed.

Lemma depot_found r : In r [1; 6; 7] -> kind depot r = KRecord /\ to_be_found depot ($"m") r.
Proof.
  intros Hr. assert (K : kind depot r = KRecord) by (cbn in Hr; intuition (subst; reflexivity)). split; [exact K|].
  apply (nodes_found depot (fun _ => []) (fun _ => false) ($"m") [1; 6; 7] (se_placed _ _ _ depot_setting)); [vm_compute; reflexivity|exact Hr|left; exact K].
Qed.

Lemma depot_distinct t : In t (match own depot_module (Class 1) init_name with Some (MFunction _ l) => l | _ => [] end) -> distinct_formals (formals three (Class 1) t).
Proof.
  intros Ht i j f h nm Hi Hj Hf Hh Hn.
  assert (D : forall fs : list (formal thing), NoDup (map fo_name fs) -> nth_error fs i = Some f -> nth_error fs j = Some h -> i = j).
  { intros fs Nd E1 E2. apply (proj1 (NoDup_nth_error (map fo_name fs)) Nd); [rewrite map_length; apply nth_error_Some; congruence|]. rewrite !nth_error_map, E1, E2. cbn. congruence. }
  vm_compute in Ht. destruct Ht as [<-|[<-|[]]]; refine (D _ _ Hi Hj); vm_compute; repeat constructor; cbn; intuition congruence.
Qed.

(** Boxes are created by two constructors, the hidden one and the move constructor are
    not called; there are no crates and no shapes. *)
Example objects_are_created_by_constructors_example :
  (leaves_constructors (fun _ _ p => Some p) /\ leaves_values (fun _ _ p => Some p) /\ adds_nothing (fun _ _ p => Some p) /\ only_constructors depot_files) /\
  (forall r, In r [1; 6; 7] -> kind depot r = KRecord /\ to_be_found depot ($"m") r) /\
  (forall b st', generate depot depot_facts (fun _ => []) (fun _ => false) (@rev nat) 1 ($"m") = Some (RGraph b (EWritten depot_files [] st')) ->
    (forall i, constructor_of depot depot_facts b ($"m") 1 i <-> i = 2 \/ i = 5) /\ forall r i, r = 6 \/ r = 7 -> ~ constructor_of depot depot_facts b ($"m") r i) /\
  (exists ts, own depot_module (Class 1) init_name = Some (MFunction false ts) /\ map function_of ts = [Some 2; Some 5] /\
    (forall t, In t ts -> distinct_formals (formals three (Class 1) t)) /\ sensible fitting (Class 1) ts) /\
  map (fun c => option_map (fun r => (function_of (fst r), tl (bi_values (snd r)))) (depot_creates 1 (fst c) (snd c)))
    [([ALabel], []); ([ALabel; ANumber 7], []); ([], [($"size", ANumber 1); ($"label", ALabel)]); ([AFlag], []); ([ANumber 7], []); ([ABox], []); ([], []); ([ALabel], [($"lid", AFlag)])] =
    [Some (Some 2, [ALabel; ANumber 3]); Some (Some 2, [ALabel; ANumber 7]); Some (Some 2, [ALabel; ANumber 1]); Some (Some 5, [AFlag]); Some (Some 5, [ANumber 7]); None; None; None] /\
  map (fun c => depot_creates (fst c) (snd c) []) [(6, [ALabel]); (6, []); (7, [])] = [None; None; None].
Proof.
  split; [split; [intros l o p p' [= <-]; reflexivity|split; [intros l o p p' [= <-]; reflexivity|split; [intros l o p p' E t' Ht'; injection E as <-; exact Ht'|apply constructors_only_iff; vm_compute; reflexivity]]]|].
  split; [exact depot_found|]. split.
  - intros b st' G. destruct depot_imports as (Se & _ & Hm & s & R).
    assert (A : forall r, In r [1; 6; 7] -> exists l ts, constructors depot depot_facts b ($"m") r l /\ Forall2 (fun t i => function_of t = Some i) ts l /\
      own depot_module (Class r) init_name = match ts with [] => None | _ => Some (MFunction false ts) end).
    { intros r Hr. destruct (depot_found r Hr) as [K T].
      destruct (constructors_defined held_by_default (derived 6 1) (fun _ _ p => Some p) (fun _ => false) depot depot_facts (fun _ => []) (fun _ => false) (@rev nat) 1 ($"m") b depot_files [] st' Se Nat.lt_0_1 G
        (module_of depot_files) s depot_module Hm R) as (g & vis & X & H); [intros l o p p' [= <-]; reflexivity|intros l o p p' [= <-]; reflexivity|apply constructors_only_iff; vm_compute; reflexivity|].
      apply H; [|exact K]. apply (found_iff depot (se_placed _ _ _ Se) _ _ _ _ _ _ X); [left; exact K|exact T]. }
    split.
    + destruct (A 1 ltac:(cbn; auto)) as (l & ts & [Hl _] & F & O). intros i. rewrite <- (Hl i).
      assert (E : l = [2; 5]).
      { vm_compute in O. destruct ts as [|t0 ts]; [discriminate O|]. injection O as <- <-.
        inversion F as [|a1 i1 r1 l1 E1 F1]; subst. inversion F1 as [|a2 i2 r2 l2 E2 F2]; subst. inversion F2; subst. cbn in E1, E2. congruence. }
      rewrite E. cbn. intuition.
    + intros r i Hr. destruct (A r) as (l & ts & [Hl _] & F & O); [cbn; intuition|]. rewrite <- (Hl i).
      assert (E : ts = []) by (destruct Hr as [-> | ->]; vm_compute in O; destruct ts; [reflexivity|discriminate O|reflexivity|discriminate O]). subst ts. inversion F. intros [].
  - split; [|split; vm_compute; reflexivity]. exists (match own depot_module (Class 1) init_name with Some (MFunction _ l) => l | _ => [] end). split; [vm_compute; reflexivity|]. split; [vm_compute; reflexivity|]. split; [exact depot_distinct|].
    split.
    + intros t k v _ H. unfold fitting in *. destruct (function_of t) as [[|[|[|[|[|[|f]]]]]]|], k as [|[|[|k]]], v; auto.
    + intros t v _ _ H. unfold fitting in *. destruct (function_of t) as [[|[|[|[|[|[|f]]]]]]|], v; auto.
Qed.

(** *** Refuted *)

(** struct GENPYBIND(visible) Odd(1) { void reset(2)() GENPYBIND(expose_as(__init__)); };
    Calling Odd() calls the method, for an object that has not been constructed. *)
Definition odd : unit :=
  mkUnit
    (fun i => match i with
              | 0 => a_decl KOther false None []
              | 1 => a_decl KRecord false None ["visible"]%string
              | _ => mkDecl (KMethod NoOperator) [lozenge ++ $"expose_as(__init__)"] false [] 0 true false false [] [] None false None
              end)
    [Node 1 [Node 2 []]] 0
    (fun i => match i with 0 => [] | 2 => [1; 0] | _ => [0] end)
    (fun _ => true) (fun _ => false) (fun i => i) (fun _ => false)
    (fun i => match i with 1 => $"Odd" | _ => $"reset" end) (fun _ => false) N.of_nat.
Definition odd_facts : facts :=
  mkFacts (mkExtra (fun _ => a_fn [] None) (fun _ => false) (fun _ => None) (fun _ => false) (fun _ => false) (fun _ => false) (fun _ => None) (fun _ _ => []))
    no_bases (fun i => a_member (is_tag_kind (kind odd i))) (fun c => map (fun i => mkFound i None false) (match c with 0 => [1] | 1 => [2] | _ => [] end))
    (fun _ => $"::Odd") [] (pop_first odd).
Definition odd_files : list (list item) := Eval vm_compute in files_of odd odd_facts (fun _ => []).
Definition odd_module : pystate := Eval vm_compute in match imported (fun _ => []) odd_files with Some (_, p) => p | None => mkPy [] [] end.

Lemma odd_setting : setting odd odd_facts (@rev nat).
Proof. constructor; [placed_unit [1; 2]|language_facts|exists N.of_nat; exact (pop_first_good odd)|intros l; apply Permutation_rev]. Qed.

Theorem creation_calls_constructors_refuted :
  exists u w b files st' s p r, setting u w (@rev nat) /\
    generate u w (fun _ => []) (fun _ => false) (@rev nat) 1 ($"m") = Some (RGraph b (EWritten files [] st')) /\ bs_reports b = [] /\
    run_module (fun _ => []) (fun _ _ p => Some p) (fun _ => false) held_by_default files (module_of files) = Some (s, p) /\
    kind u r = KRecord /\ to_be_found u ($"m") r /\
    exists t bi i, (forall V is_none default (self : V), is_none self = false -> exists bi', creates is_none default (fun _ _ _ _ => true) (w_extra w) self p r [] [] = Some (t, bi')) /\
      creates (fun _ : nat => false) (fun _ _ => 0) (fun _ _ _ _ => true) (w_extra w) 0 p r [] [] = Some (t, bi) /\ function_of t = Some i /\ kind u i = KMethod NoOperator /\ ~ constructor_of u w b ($"m") r i.
Proof.
  assert (G : exists b st', generate odd odd_facts (fun _ => []) (fun _ => false) (@rev nat) 1 ($"m") = Some (RGraph b (EWritten odd_files [] st')) /\ bs_reports b = []) by (apply written_inv; vm_compute; reflexivity).
  destruct G as (b & st' & G & B).
  assert (R : exists s, run_module (fun _ => []) (fun _ _ p => Some p) (fun _ => false) held_by_default odd_files (module_of odd_files) = Some (s, odd_module)) by (eexists; vm_compute; reflexivity).
  destruct R as (s & R). exists odd, odd_facts, b, odd_files, st', s, odd_module, 1.
  split; [exact odd_setting|]. split; [exact G|]. split; [exact B|]. split; [exact R|]. split; [reflexivity|].
  split; [apply (nodes_found odd (fun _ => []) (fun _ => false) ($"m") [1] (se_placed _ _ _ odd_setting)); [vm_compute; reflexivity|now left|left; reflexivity]|].
  do 2 eexists. exists 2. split; [|split; [vm_compute; reflexivity|]].
  - intros V is_none default self Hs. unfold creates, dispatch, try, bind_for, bind. cbn. unfold refused. cbn. rewrite andb_false_r. eexists. reflexivity.
  - split; [reflexivity|]. split; [reflexivity|]. intros [K _ _ _ _ _]. discriminate K.
Qed.
Print Assumptions creation_calls_constructors_refuted.
