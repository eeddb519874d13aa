(** * Properties of the generated module *)
From Coq Require Import Sorting.Permutation.
From Verif Require Import Base ParserModel StringModel StringSpec AnnotModel AnnotSpec CollectModel CollectSpec GraphModel GraphSpec GraphWalk GraphPlace GraphFinal GraphProps
  OrderModel OrderSpec OrderProofs OrderProps InlineModel InlineSpec InlineProofs EmitModel EmitSpec EmitProofs EmitFinal EmitProps ModuleModel ModuleSpec ModuleChunks ModuleProofs ModuleFinal.

(** ** Examples *)

(** namespace GENPYBIND(visible, module) geo(1) { enum GENPYBIND(arithmetic) Color(2) {};  struct Shape(3) {};  struct Round(4) : Shape {}; void area(5)(); }
    auto GENPYBIND(manual, postamble) late(6) = [] {};
    namespace GENPYBIND(visible, module) geo(7) { struct Late(8) {}; } *)
Definition shapes : unit :=
  mkUnit
    (fun i => match i with
              | 0 => a_decl KOther false None []
              | 1 | 7 => a_decl KNamespace false None ["visible, module"]%string
              | 2 => a_decl KEnum false None ["arithmetic"]%string
              | 5 => a_decl (KFunction NoOperator) false None []
              | 6 => mkDecl KVar [lozenge ++ $"manual, postamble"] false [] 0 false false false [] [] (Some 66) true None
              | _ => a_decl KRecord false None []
              end)
    [Node 1 [Node 2 []; Node 3 []; Node 4 []; Node 5 []]; Node 6 []; Node 7 [Node 8 []]] 0
    (fun i => match i with 0 => [] | 2 | 3 | 4 | 5 => [1; 0] | 8 => [7; 0] | _ => [0] end)
    (fun _ => true) (fun _ => false) (fun i => match i with 7 => 1 | _ => i end) (fun _ => false)
    (fun i => match i with 1 | 7 => $"geo" | 2 => $"Color" | 3 => $"Shape" | 4 => $"Round" | 5 => $"area" | 6 => $"late" | _ => $"Late" end) (fun _ => false) N.of_nat.

Definition a_member (context : bool) : member := mkMember true false false None None context true.

Definition facts_of (u : unit) (h : hierarchy) (results : nat -> list nat) (qualified : nat -> string) (variables : list nat) : facts :=
  mkFacts (extra_of (fun _ => a_fn [] None)) h (fun i => a_member (is_tag_kind (kind u i))) (fun c => map (fun i => mkFound i None false) (results c))
    (fun i => $(qualified i)) variables (pop_first u).

Definition shapes_facts : facts :=
  facts_of shapes (mkHierarchy (fun i => match i with 4 => [mkSpec 3 true false] | _ => [] end) (fun i => match i with 4 => 1 | _ => 0 end))
    (fun c => match c with 1 | 7 => [2; 3; 4; 5; 8] | _ => [] end)
    (fun i => match i with 1 | 7 => "geo" | 2 => "::geo::Color" | 3 => "::geo::Shape" | 4 => "::geo::Round" | _ => "::geo::Late" end)%string [6].

Definition shapes_run (n : nat) := 
  match generate shapes shapes_facts (fun _ => []) (fun _ => false) (@rev nat) n ($"m") with Some (RGraph _ (EWritten files rs _)) => Some (files, rs) | _ => None end.
(** Decides [placed] for a given translation unit; [l]: its declarations. *)
Ltac placed_unit l :=
  constructor;
  [constructor;
   [change (NoDup l); repeat constructor; cbn; intuition congruence
   |let n := fresh "n" in let ts := fresh "ts" in let m := fresh "m" in
    intros n ts m (t & Ht & Hi) Hm Hn Hk; cbn in Ht;
    repeat (destruct Ht as [<-|Ht]; [
     repeat match goal with
        | H : inside _ (Node _ _) _ |- _ => inversion H; subst; clear H
        | H : In _ (_ :: _) |- _ => destruct H as [<-|H]
        | H : In _ [] |- _ => destruct H
        end; cbn in *; repeat match goal with H : _ \/ _ |- _ => destruct H | H : False |- _ => destruct H end; subst; cbn in *; discriminate|]); destruct Ht
   |let i := fresh "i" in intros i; do 14 (destruct i as [|i]; [cbn; discriminate|]); cbn; discriminate]
  |reflexivity
  |reflexivity
  |let i := fresh "i" in intros i Hi; change (In i l) in Hi; unit_facts
  |intros a t Ha Hk _ Ht; change (In a l) in Ha; repeat (destruct Ha as [<-|Ha]; [try discriminate|]); try destruct Ha; cbn in Ht; injection Ht as <-; auto].

Lemma shapes_placed : placed shapes.
Proof. placed_unit [1; 2; 3; 4; 5; 6; 7; 8]. Qed.

Ltac language_facts :=
  constructor;
  [let r := fresh "r" in let s := fresh "s" in intros r s; do 14 (destruct r as [|r]; [cbn; intuition (subst; cbn; lia)|]); intros []
  |intros i H; exact H
  |intros r k i []
  |discriminate
  |let r := fresh "r" in let s := fresh "s" in intros r s; do 14 (destruct r as [|r]; [cbn; intuition (subst; reflexivity)|]); intros []
  |let c := fresh "c" in intros c p Hc (before & after & H & _);
   do 14 (destruct c as [|c]; [try discriminate; assert (Hp : In p (before ++ p :: after)) by (apply in_or_app; right; left; reflexivity);
     rewrite <- H in Hp; cbn in Hp; intuition (subst; reflexivity)|]); try discriminate].

Lemma shapes_language : language shapes shapes_facts.
Proof. language_facts. Qed.

Lemma shapes_setting : setting shapes shapes_facts (@rev nat).
Proof.
  constructor; [exact shapes_placed|exact shapes_language|exists N.of_nat; exact (pop_first_good shapes)|intros l; apply Permutation_rev].
Qed.

(** Files written without any reports. *)
Definition written (r : option run_result) : option (list (list item)) :=
  match r with Some (RGraph b (EWritten files [] _)) => if is_empty (bs_reports b) then Some files else None | _ => None end.

Lemma written_inv r files : written r = Some files -> exists b st, r = Some (RGraph b (EWritten files [] st)) /\ bs_reports b = [].
Proof.
  unfold written. destruct r as [[|b [c|fs [|? ?] st]]|]; try discriminate. destruct (bs_reports b) eqn:E; cbn [is_empty]; [|discriminate].
  intros [= <-]. exists b, st. split; [reflexivity|exact E].
Qed.

Definition files_of (u : unit) (w : facts) (found : nat -> list nat) : list (list item) :=
  match written (generate u w found (fun _ => false) (@rev nat) 1 ($"m")) with Some files => files | None => [] end.

(** namespace a(1) { struct b(2); }; namespace a_b(3) { struct c(5); } struct a_b_2(4);  all visible *)
Definition clashing : unit :=
  mkUnit
    (fun i => match i with
              | 0 => a_decl KOther false None []
              | 1 | 3 => a_decl KNamespace false None ["visible"]%string
              | _ => a_decl KRecord false None ["visible"]%string
              end)
    [Node 1 [Node 2 []]; Node 3 [Node 5 []]; Node 4 []] 0
    (fun i => match i with 0 => [] | 2 => [1; 0] | 5 => [3; 0] | _ => [0] end)
    (fun _ => true) (fun _ => false) (fun i => i) (fun _ => false)
    (fun i => match i with 1 => $"a" | 2 => $"b" | 3 => $"a_b" | 4 => $"a_b_2" | _ => $"c" end) (fun _ => false) N.of_nat.

Definition no_bases : hierarchy := mkHierarchy (fun _ => []) (fun _ => 0).

Definition clashing_facts : facts :=
  facts_of clashing no_bases (fun c => match c with 1 => [2] | 3 => [5] | _ => [1; 3; 4] end)
    (fun i => match i with 1 => "a" | 2 => "::a::b" | 3 => "a_b" | 4 => "::a_b_2" | _ => "::a_b::c" end)%string [].

Lemma clashing_setting : setting clashing clashing_facts (@rev nat).
Proof.
  constructor; [placed_unit [1; 2; 3; 5; 4]|language_facts|exists N.of_nat; exact (pop_first_good clashing)|intros l; apply Permutation_rev].
Qed.

(** struct GENPYBIND(visible) A(1);  struct B(2) : A;  struct GENPYBIND(visible, inline_base(B)) C(3) : B;
    struct GENPYBIND(visible) Z(4) { using A_(5) GENPYBIND(visible, expose_here) = A; }; *)
Definition late_base : unit :=
  mkUnit
    (fun i => match i with
              | 0 => a_decl KOther false None []
              | 2 => mkDecl KRecord [] false [] 0 false false false [mkBase 1 [$"A"]] [mkBase 1 [$"A"]] None true None
              | 3 => mkDecl KRecord [lozenge ++ $"visible, inline_base(""B"")"] false [] 0 false false false [mkBase 2 [$"B"]] [mkBase 2 [$"B"]; mkBase 1 [$"A"]] None true None
              | 5 => a_decl KTypedef false (Some 1) ["visible, expose_here"]%string
              | _ => a_decl KRecord false None ["visible"]%string
              end)
    [Node 1 []; Node 2 []; Node 3 []; Node 4 [Node 5 []]] 0
    (fun i => match i with 0 => [] | 5 => [4; 0] | _ => [0] end)
    (fun _ => true) (fun _ => false) (fun i => i) (fun _ => false)
    (fun i => match i with 1 => $"A" | 2 => $"B" | 3 => $"C" | 4 => $"Z" | _ => $"A_" end) (fun _ => false) N.of_nat.

Definition late_base_facts : facts :=
  facts_of late_base (mkHierarchy (fun i => match i with 2 => [mkSpec 1 true false] | 3 => [mkSpec 2 true false] | _ => [] end) (fun i => match i with 2 => 1 | 3 => 2 | _ => 0 end))
    (fun c => match c with 4 => [5] | 0 => [1; 2; 3; 4] | _ => [] end)
    (fun i => match i with 1 => "::A" | 2 => "::B" | 3 => "::C" | _ => "::Z" end)%string [].

Lemma late_base_setting : setting late_base late_base_facts (@rev nat).
Proof.
  constructor; [placed_unit [1; 2; 3; 4; 5]|language_facts|exists N.of_nat; exact (pop_first_good late_base)|intros l; apply Permutation_rev].
Qed.

(** namespace N(1) {}  namespace GENPYBIND(module) N(2) { void GENPYBIND(visible) f(3)(); } *)
Definition reopened (first : list tree) : unit :=
  mkUnit
    (fun i => match i with
              | 0 => a_decl KOther false None []
              | 1 => a_decl KNamespace false None []
              | 2 => a_decl KNamespace false None ["module"]%string
              | _ => a_decl (KFunction NoOperator) false None ["visible"]%string
              end)
    (first ++ [Node 2 [Node 3 []]]) 0
    (fun i => match i with 0 => [] | 3 => [2; 0] | _ => [0] end)
    (fun _ => true) (fun _ => false) (fun i => match i with 2 => 1 | _ => i end) (fun _ => false)
    (fun i => match i with 3 => $"f" | _ => $"N" end) (fun _ => false) N.of_nat.

Definition reopened_facts : facts :=
  facts_of (reopened []) no_bases (fun c => match c with 1 | 2 => [3] | _ => [] end) (fun i => "N")%string [].
Definition reopened_found (i : nat) : list nat := match i with 1 | 2 => [3] | _ => [] end.

Lemma reopened_setting first : first = [] \/ first = [Node 1 []] -> setting (reopened first) reopened_facts (@rev nat).
Proof.
  intros [->| ->];
    (constructor; [first [placed_unit [2; 3]|placed_unit [1; 2; 3]]|language_facts|exists N.of_nat; exact (pop_first_good _)|intros l; apply Permutation_rev]).
Qed.

(** ** C29, C30: the whole output *)

(** Nothing is written exactly if there is a cyclic dependency. *)
Theorem cycles_prevent_output :
  forall u w found implicit iteration, setting u w iteration -> forall n name b, 0 < n -> forall g vis, exposed u found implicit name g vis b ->
    (OrderSpec.cyclic (needed u w (bs_annotations b) g) <-> exists c, generate u w found implicit iteration n name = Some (RGraph b (ECycle c))).
Proof. exact run_cycle. Qed.
Print Assumptions cycles_prevent_output.

(** The output does not depend on the iteration order of sets or on ties of the
    priority queue if locations are distinct. *)
Theorem output_is_deterministic :
  forall u w found implicit n name, placed u -> language u w ->
    forall location location', (forall i, i <> u_root u -> location i = location' i) ->
    (forall g vis b, exposed u found implicit name g vis b -> forall i j, In i (g_nodes g) -> In j (g_nodes g) -> i <> u_root u -> j <> u_root u -> location i = location j -> i = j) ->
    forall pop pop', good_queue location pop -> good_queue location' pop' ->
    forall iteration iteration', (forall l, Permutation l (iteration l)) -> (forall l, Permutation l (iteration' l)) ->
    generate u (with_pop w pop) found implicit iteration n name = generate u (with_pop w pop') found implicit iteration' n name.
Proof. exact run_deterministic. Qed.
Print Assumptions output_is_deterministic.

Example C30_example_output : 
  written (generate shapes shapes_facts (fun _ => []) (fun _ => false) (@rev nat) 2 ($"m")) = written (generate shapes shapes_facts (fun _ => []) (fun _ => false) (fun l => l) 2 ($"m")) /\
  written (generate shapes shapes_facts (fun _ => []) (fun _ => false) (@rev nat) 2 ($"m")) <> None.
Proof. split; [vm_compute; reflexivity|vm_compute; discriminate]. Qed.

(** Class 3 is a base of 4 which encloses it due to an alias, see C29. *)
Definition downstream_facts : facts :=
  facts_of downstream (mkHierarchy (fun i => match i with 4 => [mkSpec 3 true false] | _ => [] end) (fun i => match i with 4 => 1 | _ => 0 end))
    (fun _ => []) (fun _ => "X"%string) [].

Example C29_example_output : setting downstream downstream_facts (@rev nat) /\
  match generate downstream downstream_facts (fun _ => []) (fun _ => false) (@rev nat) 2 ($"m") with Some (RGraph _ (ECycle c)) => c = 1 | _ => False end.
Proof.
  split; [|vm_compute; reflexivity].
  constructor; [exact downstream_placed|language_facts|exists N.of_nat; exact (pop_first_good downstream)|intros l; apply Permutation_rev].
Qed.

(** ** C32 *)

(** All contexts are introduced once (blocks of a namespace together), in an
    order respecting dependencies, in the object of the enclosing scope that has
    been introduced before; bodies are as given by C35-C38, C45-C47. *)
Theorem module_is_complete_and_ordered :
  forall u w found implicit iteration, setting u w iteration -> forall n name b files rs st', 0 < n ->
    generate u w found implicit iteration n name = Some (RGraph b (EWritten files rs st')) ->
    exists g vis order all chunks post, exposed u found implicit name g vis b /\
      generated u w g vis (bs_annotations b) name rs st' order all post /\ layout name post all chunks files /\ length files = n /\
      (forall c, In c chunks -> length c = length all / n \/ length c = length all / n + 1).
Proof. exact run_written. Qed.
Print Assumptions module_is_complete_and_ordered.

(** Each function that is called by the module is declared before and defined
    with the same parameter, once, and if identifiers are distinct the module
    block is well-formed, with objects of the type of the parameter. *)
Theorem functions_are_declared_called_and_defined :
  forall u w found implicit iteration, setting u w iteration -> forall n name b files rs st', 0 < n ->
    generate u w found implicit iteration n name = Some (RGraph b (EWritten files rs st')) ->
    exists intros calls post defs file rest,
      files = file :: rest /\ filter is_module (concat files) = [IModule name intros calls post] /\ filter is_definition (concat files) = defs /\
      map name_of defs = map fst intros /\ calls = map (fun i => (fst i, fst i)) intros /\
      (forall i, In i (map fst intros) -> identifier i /\ i <> $"root") /\
      (forall id p body, In (IDefine id p body) defs -> exists before after, file = before ++ IModule name intros calls post :: after /\ In (IDeclare id p) before) /\
      (NoDup (map fst intros) -> exists vs, run_block intros = Some vs /\ forall id p body, In (IDefine id p body) defs -> variable id vs = Some p).
Proof. exact run_structure. Qed.
Print Assumptions functions_are_declared_called_and_defined.

(** No assertion fails, except as in C13 (reports about annotations being nested). *)
Theorem generation_never_hits_an_assertion :
  forall u w found implicit iteration, setting u w iteration -> forall n name, 0 < n -> proper_declarations u w ->
    generate u w found implicit iteration n name = None -> collect u = None.
Proof. exact run_total. Qed.
Print Assumptions generation_never_hits_an_assertion.

Definition shape_class : pyclass := mkClass 3 [] [].
Definition round_class : pyclass := mkClass 4 [3] [].
Definition late_class : pyclass := mkClass 8 [] [].

Definition shapes_module : item :=
  IModule ($"m")
    [($"context", NAlias ($"root")); ($"context_geo", NSubmodule ($"context") ($"geo"));
     ($"context_geo_Color", NEnum 2 ($"context_geo") ($"Color") true);
     ($"context_geo_Shape", NClass shape_class ($"context_geo") ($"Shape") false);
     ($"context_geo_Round", NClass round_class ($"context_geo") ($"Round") false);
     ($"context_geo_Late", NClass late_class ($"context_geo") ($"Late") false)]
    [($"context", $"context"); ($"context_geo", $"context_geo"); ($"context_geo_Color", $"context_geo_Color"); ($"context_geo_Shape", $"context_geo_Shape");
     ($"context_geo_Round", $"context_geo_Round"); ($"context_geo_Late", $"context_geo_Late")]
    [66].

Example C32_example : setting shapes shapes_facts (@rev nat) /\
  written (generate shapes shapes_facts (fun _ => []) (fun _ => false) (@rev nat) 2 ($"m")) = Some
    [[IDeclare ($"context") PModule; IDeclare ($"context_geo") PModule; IDeclare ($"context_geo_Color") (PEnum 2); IDeclare ($"context_geo_Shape") (PClass shape_class);
      IDeclare ($"context_geo_Round") (PClass round_class); IDeclare ($"context_geo_Late") (PClass late_class);
      shapes_module;
      IDefine ($"context") PModule [SUnused]; IDefine ($"context_geo") PModule [SFunction false ($"area") 5 [] (mkFunction [] [] [] []); SUnused]; IDefine ($"context_geo_Color") (PEnum 2) [SExportValues]];
     [IDeclare ($"context_geo_Shape") (PClass shape_class); IDefine ($"context_geo_Shape") (PClass shape_class) [];
      IDeclare ($"context_geo_Round") (PClass round_class); IDefine ($"context_geo_Round") (PClass round_class) [];
      IDeclare ($"context_geo_Late") (PClass late_class); IDefine ($"context_geo_Late") (PClass late_class) []]].
Proof. split; [exact shapes_setting|vm_compute; reflexivity]. Qed.

Lemma shapes_proper : proper_declarations shapes shapes_facts.
Proof.
  intros st c x Hx i Hi.
  assert (Hc : consistent shapes (w_extra shapes_facts) i) by (constructor; do 9 (destruct i as [|i]; [first [reflexivity|discriminate]|]); first [reflexivity|discriminate]).
  assert (Hn : insert (u_decls shapes) i [] <> None).
  { do 9 (destruct i as [|i]; [destruct (insert _ _ _) eqn:E; [discriminate|vm_compute in E; discriminate E]|]). destruct (insert _ _ _) eqn:E; [discriminate|vm_compute in E; discriminate E]. }
  split; [exact Hc|]. split; [|split; [discriminate|exact Hn]].
  assert (H : (c = 1 \/ c = 7) \/ w_results shapes_facts c = []) by (do 8 (destruct c as [|c]; [auto|]); right; reflexivity).
  destruct H as [H|H].
  - assert (E : x = XNamespace c) by (destruct H as [-> | ->]; injection Hx as <-; reflexivity). subst x.
    do 9 (destruct i as [|i]; [split; discriminate|]). split; discriminate.
  - exfalso. unfold looked_up in Hi. rewrite H in Hi. apply in_flat_map in Hi as (j & Hj & _). unfold declarations in Hj. apply in_app_or in Hj as [Hj|Hj].
    + vm_compute in Hj. exact Hj.
    + destruct (kind shapes c); destruct Hj.
Qed.

Example C32_example_assertions : proper_declarations shapes shapes_facts /\ exists s, collect shapes = Some s /\ cs_reports s = [].
Proof.
  split; [exact shapes_proper|]. destruct (collect shapes) as [s|] eqn:E; [|vm_compute in E; discriminate]. exists s. split; [reflexivity|].
  assert (H : option_map cs_reports (collect shapes) = Some (cs_reports s)) by (rewrite E; reflexivity). vm_compute in H. injection H as H. symmetry. exact H.
Qed.

(** ** C33 *)

Theorem definitions_are_distributed_evenly :
  forall u w found implicit iteration, setting u w iteration -> forall n name b files rs st', 0 < n ->
    generate u w found implicit iteration n name = Some (RGraph b (EWritten files rs st')) ->
    length files = n /\
    (forall file file', In file files -> In file' files -> length (filter is_definition file) <= length (filter is_definition file') + 1) /\
    forall m, 0 < m -> exists files', generate u w found implicit iteration m name = Some (RGraph b (EWritten files' rs st')) /\
      filter is_definition (concat files') = filter is_definition (concat files) /\ filter is_module (concat files') = filter is_module (concat files).
Proof. exact run_distribution. Qed.
Print Assumptions definitions_are_distributed_evenly.

(** Six definitions in four or eight files. *)
Example C33_example :
  option_map (map (fun file => length (filter is_definition file))) (written (generate shapes shapes_facts (fun _ => []) (fun _ => false) (@rev nat) 4 ($"m"))) = Some [2; 1; 2; 1] /\
  option_map (map (fun file => length (filter is_definition file))) (written (generate shapes shapes_facts (fun _ => []) (fun _ => false) (@rev nat) 8 ($"m"))) = Some [1; 1; 1; 0; 1; 1; 1; 0].
Proof. split; vm_compute; reflexivity. Qed.

(** ** C34 *)

(** Identifiers are distinct exactly if no name of a context is a numbered
    variant that is in use. *)
Theorem identifiers_are_distinct_partial :
  forall u w found implicit iteration, setting u w iteration -> forall n name b files rs st', 0 < n ->
    generate u w found implicit iteration n name = Some (RGraph b (EWritten files rs st')) ->
    exists contexts, map name_of (filter is_definition (concat files)) = numbered_names [] (map (context_name u w) contexts) /\ NoDup contexts /\
      (NoDup (map name_of (filter is_definition (concat files))) <->
         ~ exists m k, (2 <= k)%N /\ (k <= N.of_nat (occurrences (map (context_name u w) contexts) m))%N /\ In (m ++ $"_" ++ decimal k) (map (context_name u w) contexts)) /\
      ((forall c, In c contexts -> ~ ends_in_number (context_name u w c)) -> NoDup (map name_of (filter is_definition (concat files)))).
Proof. exact run_identifiers. Qed.
Print Assumptions identifiers_are_distinct_partial.

Definition clashing_files : list (list item) := Eval vm_compute in files_of clashing clashing_facts (fun _ => []).

(** Valid input without any reports for which the output is not well-formed. *)
Theorem identifiers_are_distinct_refuted :
  exists u w b files st' intros calls post, setting u w (@rev nat) /\
    generate u w (fun _ => []) (fun _ => false) (@rev nat) 1 ($"m") = Some (RGraph b (EWritten files [] st')) /\ bs_reports b = [] /\
    In (IModule ($"m") intros calls post) (concat files) /\ ~ NoDup (map fst intros) /\ run_block intros = None.
Proof.
  destruct (written_inv (generate clashing clashing_facts (fun _ => []) (fun _ => false) (@rev nat) 1 ($"m")) clashing_files) as (b & st' & E & Er); [vm_compute; reflexivity|].
  exists clashing, clashing_facts, b, clashing_files, st'. do 3 eexists. split; [exact clashing_setting|]. split; [exact E|]. split; [exact Er|].
  split; [do 6 right; left; reflexivity|]. split; [|vm_compute; reflexivity].
  cbn [map fst]. intros H. do 3 (apply NoDup_cons_iff in H as [_ H]). apply NoDup_cons_iff in H as [H _]. apply H. left. reflexivity.
Qed.
Print Assumptions identifiers_are_distinct_refuted.

Example C34_example : numbered_names [] [$"context_a_b"; $"context_a"; $"context_a_b"] = [$"context_a_b"; $"context_a"; $"context_a_b_2"].
Proof. vm_compute. reflexivity. Qed.

(** ** C31 *)

(** Bases listed are registered as classes, and before the class if they are
    public bases, direct or via classes that are exposed. *)
Theorem bases_are_registered_before_partial :
  forall u w found implicit iteration, setting u w iteration -> forall n name b files rs st', 0 < n ->
    generate u w found implicit iteration n name = Some (RGraph b (EWritten files rs st')) ->
    forall before id t parent nm d after calls post, In (IModule name (before ++ (id, NClass t parent nm d) :: after) calls post) (concat files) ->
    forall base, In base (ct_bases t) ->
      let intros := before ++ (id, NClass t parent nm d) :: after in
      introduced_class intros base /\
      (base_via (w_hierarchy w) (introduced_class intros) (ct_record t) base -> introduced_class before base).
Proof. exact run_bases. Qed.
Print Assumptions bases_are_registered_before_partial.

Definition late_base_files : list (list item) := Eval vm_compute in files_of late_base late_base_facts (fun _ => []).

(** Not so for bases of inlined bases. *)
Theorem bases_are_registered_before_refuted :
  exists u w b files st' before id t parent nm d after calls post base, setting u w (@rev nat) /\
    generate u w (fun _ => []) (fun _ => false) (@rev nat) 1 ($"m") = Some (RGraph b (EWritten files [] st')) /\ bs_reports b = [] /\
    In (IModule ($"m") (before ++ (id, NClass t parent nm d) :: after) calls post) (concat files) /\
    In base (ct_bases t) /\ ~ introduced_class before base.
Proof.
  destruct (written_inv (generate late_base late_base_facts (fun _ => []) (fun _ => false) (@rev nat) 1 ($"m")) late_base_files) as (b & st' & E & Er); [vm_compute; reflexivity|].
  exists late_base, late_base_facts, b, late_base_files, st', [($"context", NAlias ($"root"))]. do 9 eexists.
  split; [exact late_base_setting|]. split; [exact E|]. split; [exact Er|].
  split; [do 4 right; left; reflexivity|]. split; [left; reflexivity|].
  intros (i & t & p & n & d & [H|[]] & _). discriminate.
Qed.
Print Assumptions bases_are_registered_before_refuted.

Example C31_example : exists before id parent nm d after, shapes_module = IModule ($"m") (before ++ (id, NClass round_class parent nm d) :: after)
      (map (fun i => (fst i, fst i)) (before ++ (id, NClass round_class parent nm d) :: after)) [66] /\
    base_via (w_hierarchy shapes_facts) (introduced_class (before ++ (id, NClass round_class parent nm d) :: after)) 4 3 /\ introduced_class before 3.
Proof.
  exists [($"context", NAlias ($"root")); ($"context_geo", NSubmodule ($"context") ($"geo")); ($"context_geo_Color", NEnum 2 ($"context_geo") ($"Color") true);
     ($"context_geo_Shape", NClass shape_class ($"context_geo") ($"Shape") false)],
     ($"context_geo_Round"), ($"context_geo"), ($"Round"), false, [($"context_geo_Late", NClass late_class ($"context_geo") ($"Late") false)]. split; [reflexivity|].
  split; [apply (via_direct _ _ 4 (mkSpec 3 true false)); [left; reflexivity|reflexivity]|]. do 5 eexists. split; [do 3 right; left; reflexivity|reflexivity].
Qed.

(** ** C50 *)

(** Contexts in a namespace are placed in the object that annotations of the
    block ask for if other blocks have the same attributes. *)
Theorem namespaces_are_introduced_as_annotated_partial :
  forall u w found implicit iteration, setting u w iteration -> (forall c d, same_namespace u c d -> u_name u c = u_name u d) -> forall n name b files rs st',
  0 < n -> generate u w found implicit iteration n name = Some (RGraph b (EWritten files rs st')) ->
  exists g vis order all chunks post, exposed u found implicit name g vis b /\
    generated u w g vis (bs_annotations b) name rs st' order all post /\ layout name post all chunks files /\
    forall before e after p, all = before ++ e :: after -> ex_context e <> u_root u -> scope_of u (bs_annotations b) g (ex_context e) p -> kind u p = KNamespace ->
      (forall f, In f all -> same_namespace u (ex_context f) p -> lookup_attrs (bs_annotations b) (ex_context f) = lookup_attrs (bs_annotations b) p) ->
      exists f, In f before /\ intro_parent (ex_intro e) = ex_id f /\ same_namespace u (ex_context f) p /\ introduces u w g (bs_annotations b) p (ex_intro f).
Proof. exact run_namespaces. Qed.
Print Assumptions namespaces_are_introduced_as_annotated_partial.

Definition reopened_files : list (list item) := Eval vm_compute in files_of (reopened [Node 1 []]) reopened_facts reopened_found.
Definition opened_files : list (list item) := Eval vm_compute in files_of (reopened []) reopened_facts reopened_found.

(** An empty block without annotations in front of the others moves the
    functions of the namespace to another module. *)
Theorem unannotated_reopening_is_harmless_refuted :
  exists u u' r w found f b b' files files' st st',
    setting u w (@rev nat) /\ setting u' w (@rev nat) /\
    u_top u = Node r [] :: u_top u' /\ u_decls u = u_decls u' /\ u_canonical u = u_canonical u' /\ u_contexts u = u_contexts u' /\ u_name u = u_name u' /\
    kind u r = KNamespace /\ d_attrs (u_decls u r) = [] /\
    generate u w found (fun _ => false) (@rev nat) 1 ($"m") = Some (RGraph b (EWritten files [] st)) /\ bs_reports b = [] /\
    generate u' w found (fun _ => false) (@rev nat) 1 ($"m") = Some (RGraph b' (EWritten files' [] st')) /\ bs_reports b' = [] /\
    bound_on files f (NAlias ($"context")) /\ bound_on files' f (NSubmodule ($"context") ($"N")).
Proof.
  destruct (written_inv (generate (reopened [Node 1 []]) reopened_facts reopened_found (fun _ => false) (@rev nat) 1 ($"m")) reopened_files) as (b & st & E & Er); [vm_compute; reflexivity|].
  destruct (written_inv (generate (reopened []) reopened_facts reopened_found (fun _ => false) (@rev nat) 1 ($"m")) opened_files) as (b' & st' & F & Fr); [vm_compute; reflexivity|].
  exists (reopened [Node 1 []]), (reopened []), 1, reopened_facts, reopened_found, 3, b, b', reopened_files, opened_files, st, st'.
  split; [apply reopened_setting; right; reflexivity|]. split; [apply reopened_setting; left; reflexivity|].
  do 7 (split; [reflexivity|]). split; [exact E|]. split; [exact Er|]. split; [exact F|]. split; [exact Fr|].
  split; do 8 eexists; (split; [do 2 right; left; reflexivity|]); (split; [do 4 right; left; reflexivity|]);
    (split; [eexists; split; [left; reflexivity|reflexivity]|]); (split; [right; left; reflexivity|right; left; reflexivity]).
Qed.
Print Assumptions unannotated_reopening_is_harmless_refuted.
