(** * Properties of the names used in Python *)
From Coq Require Import Sorting.Permutation.
From Verif Require Import Base ParserModel StringModel StringSpec StringProofs AnnotModel AnnotSpec CollectModel CollectSpec GraphModel GraphSpec GraphWalk GraphPlace GraphProps
  OrderModel OrderSpec OrderProofs OrderProps InlineModel InlineSpec EmitModel EmitSpec EmitProps ModuleModel ModuleSpec ModuleProofs ModuleFinal ModuleProps ImportSpec ImportProofs ImportProps
  InvalidSpec InvalidProofs NameModel NameSpec NameProofs.

(** ** C87 *)

(** Everything but operators without a counterpart is given an identifier as its
    name in Python, if no errors are reported.  Missing: classes, enumerations and
    modules for declarations without a name, see the refutation below. *)
Theorem python_names_are_identifiers_partial :
  forall u w found implicit iteration n name b files rs st' split_closers names, setting u w iteration -> 0 < n ->
  generate u w found implicit iteration n name = Some (RGraph b (EWritten files rs st')) ->
  (forall i, u_name u i = get_spelling split_closers (names i)) -> properly_named u (w_extra w) names ->
  (forall r, In r rs -> is_error_ereport r = false) ->
  exists g vis order all chunks post, exposed u found implicit name g vis b /\ generated u w g vis (bs_annotations b) name rs st' order all post /\ layout name post all chunks files /\
  forall e, In e all ->
    (forall m, introduced_name (ex_intro e) = Some m -> identifier m \/ (m = u_name u (ex_context e) /\ ~ proper_name (names (ex_context e)))) /\
    (forall t m, In t (ex_body e) -> name_in t = Some m -> identifier m \/ nameless_operator t).
Proof. intros. eapply python_names; eassumption. Qed.
Print Assumptions python_names_are_identifiers_partial.

(** Specialisations are named after the template and the words of all arguments. *)
Theorem specializations_are_named_after_their_arguments : forall split_closers template args, identifier template ->
  specialization_name template args (get_spelling split_closers (mkNaming (NIdentifier template) (Some args))) /\
  forall name, specialization_name template args name -> name = get_spelling split_closers (mkNaming (NIdentifier template) (Some args)).
Proof.
  intros sc t args Ht. split.
  - destruct (all_words args) as (wss & H). exists wss. split; [exact H|]. apply specialization_spelled; assumption.
  - intros name (wss & H & ->). symmetry. apply specialization_spelled; assumption.
Qed.
Print Assumptions specializations_are_named_after_their_arguments.

(** Specialisations of a template are told apart by the words of their arguments,
    if these contain no underscores.  Missing: anything else in the arguments, and
    words with underscores, see the refutations below. *)
Theorem specializations_have_distinct_names_partial : forall split_closers template args args' wss wss', identifier template -> Forall2 words args wss -> Forall2 words args' wss' ->
  Forall without_underscore (concat wss) -> Forall without_underscore (concat wss') ->
  (get_spelling split_closers (mkNaming (NIdentifier template) (Some args)) = get_spelling split_closers (mkNaming (NIdentifier template) (Some args')) <-> concat wss = concat wss').
Proof. exact specializations_distinct. Qed.
Print Assumptions specializations_have_distinct_names_partial.

(** ** Examples *)

(** As in tests/integration/spelling-includes-template-arguments.cpp. *)
Example names_of_specializations_example :
  map (fun a => get_spelling false (mkNaming (NIdentifier ($"Foo")) (Some a)))
    [[$"int"]; [$"int *"]; [$"true"; $"-1"]; []; [$"::ns::Bar<int>"]; [$"unsigned int"]; [$"unsigned"; $"int"]] =
    [$"Foo_int_"; $"Foo_int_"; $"Foo_true_1_"; $"Foo_"; $"Foo_ns_Bar_int_"; $"Foo_unsigned_int_"; $"Foo_unsigned_int_"] /\
  get_spelling false (mkNaming (NSpecial ($"operator bool")) None) = $"operator_bool" /\
  specialization_name ($"Foo") [$"true"; $"-1"] ($"Foo_true_1_") /\ without_underscore ($"true").
Proof.
  split; [vm_compute; reflexivity|]. split; [vm_compute; reflexivity|]. split.
  - exists [[$"true"]; [$"1"]]. split; [|reflexivity]. constructor; [|constructor; [|constructor]].
    + apply (words_word ($"true") [] []); [discriminate|reflexivity|exact I|constructor].
    + apply (words_other "-"%char ($"1") [$"1"]); [reflexivity|]. apply (words_word ($"1") [] []); [discriminate|reflexivity|exact I|constructor].
  - vm_compute. intuition discriminate.
Qed.

(** namespace GENPYBIND(module, visible) geo(1) { template struct Foo<int>(2) { int x(3); void f(4) GENPYBIND(expose_as(g)); operator bool(5); }; } *)
Definition labelled_names (i : nat) : naming :=
  match i with
  | 0 => mkNaming (NIdentifier []) None
  | 1 => mkNaming (NIdentifier ($"geo")) None
  | 2 => mkNaming (NIdentifier ($"Foo")) (Some [$"int"])
  | 3 => mkNaming (NIdentifier ($"x")) None
  | 4 => mkNaming (NIdentifier ($"f")) None
  | _ => mkNaming (NSpecial ($"operator bool")) None
  end.
Definition labelled : unit :=
  mkUnit
    (fun i => match i with
              | 0 => a_decl KOther false None []
              | 1 => a_decl KNamespace false None ["module"; "visible"]%string
              | 2 => a_decl KRecord false None []
              | 3 => a_decl KField false None []
              | 4 => a_decl (KMethod NoOperator) false None ["expose_as(g)"]%string
              | _ => a_decl KConversion false None []
              end)
    [Node 1 [Node 2 [Node 3 []; Node 4 []; Node 5 []]]] 0
    (fun i => match i with 0 => [] | 1 => [0] | 2 => [1; 0] | _ => [2; 1; 0] end)
    (fun _ => true) (fun _ => false) (fun i => i) (fun _ => false)
    (fun i => get_spelling false (labelled_names i)) (fun _ => false) N.of_nat.
Definition labelled_facts : facts :=
  facts_of labelled no_bases (fun c => match c with 0 => [1] | 1 => [2] | 2 => [3; 4; 5] | _ => [] end) (fun i => match i with 1 => "geo" | _ => "::geo::Foo<int>" end)%string [].

Lemma labelled_setting : setting labelled labelled_facts (@rev nat).
Proof. constructor; [placed_unit [1; 2; 3; 4; 5]|language_facts|exists N.of_nat; exact (pop_first_good labelled)|intros l; apply Permutation_rev]. Qed.

Definition labelled_files : list (list item) := Eval vm_compute in files_of labelled labelled_facts (fun _ => []).

Definition names_in (f : list (list item)) : list str :=
  flat_map (fun i => match i with
                     | IModule _ intros _ _ => flat_map (fun e => match introduced_name (snd e) with Some m => [m] | None => [] end) intros
                     | IDefine _ _ body => flat_map (fun t => match name_in t with Some m => [m] | None => [] end) body
                     | _ => [] end) (concat f).

Lemma proper_identifier s a : is_valid_identifier s = true -> proper_name (mkNaming (NIdentifier s) a).
Proof. intros H. apply is_valid_identifier_iff, H. Qed.

Example python_names_are_identifiers_example :
  setting labelled labelled_facts (@rev nat) /\
  (exists b st', generate labelled labelled_facts (fun _ => []) (fun _ => false) (@rev nat) 1 ($"m") = Some (RGraph b (EWritten labelled_files [] st')) /\ bs_reports b = []) /\
  (forall i, u_name labelled i = get_spelling false (labelled_names i)) /\ properly_named labelled (w_extra labelled_facts) labelled_names /\
  names_in labelled_files = [$"geo"; $"Foo_int_"; $"x"; $"g"; $"operator_bool"].
Proof.
  split; [exact labelled_setting|]. split; [apply written_inv; vm_compute; reflexivity|]. split; [reflexivity|]. split; [|vm_compute; reflexivity].
  constructor; [|discriminate]. intros i K1 K2 K3. do 5 (destruct i as [|i]; [first [destruct (K1 eq_refl)|destruct (K2 eq_refl)|discriminate K3|apply proper_identifier; reflexivity]|]). discriminate.
Qed.

(** ** What can go wrong *)

(** template <typename T> struct GENPYBIND(visible) Foo;  template struct Foo<int>(1);  template struct Foo<int *>(2); *)
Definition pointers_names (i : nat) : naming :=
  match i with
  | 0 => mkNaming (NIdentifier []) None
  | 1 => mkNaming (NIdentifier ($"Foo")) (Some [$"int"])
  | _ => mkNaming (NIdentifier ($"Foo")) (Some [$"int *"])
  end.
Definition pointers : unit :=
  mkUnit
    (fun i => match i with 0 => a_decl KOther false None [] | _ => a_decl KRecord false None ["visible"]%string end)
    [Node 1 []; Node 2 []] 0
    (fun i => match i with 0 => [] | _ => [0] end)
    (fun _ => true) (fun _ => false) (fun i => i) (fun _ => false)
    (fun i => get_spelling false (pointers_names i)) (fun _ => false) N.of_nat.
Definition pointers_facts : facts :=
  facts_of pointers no_bases (fun c => match c with 0 => [1; 2] | _ => [] end) (fun i => match i with 1 => "::Foo<int>" | _ => "::Foo<int *>" end)%string [].

Lemma pointers_setting : setting pointers pointers_facts (@rev nat).
Proof. constructor; [placed_unit [1; 2]|language_facts|exists N.of_nat; exact (pop_first_good pointers)|intros l; apply Permutation_rev]. Qed.

Definition pointers_files : list (list item) := Eval vm_compute in files_of pointers pointers_facts (fun _ => []).

(** Distinct specialisations of a template can have the same name: import fails,
    without any reports. *)
Theorem specializations_have_distinct_names_refuted :
  exists u w names b files st' intros calls post, setting u w (@rev nat) /\ (forall i, u_name u i = get_spelling false (names i)) /\ properly_named u (w_extra w) names /\
    generate u w (fun _ => []) (fun _ => false) (@rev nat) 1 ($"m") = Some (RGraph b (EWritten files [] st')) /\ bs_reports b = [] /\
    In (IModule ($"m") intros calls post) (concat files) /\ NoDup (map fst intros) /\
    (exists t a a', names 1 = mkNaming (NIdentifier t) (Some a) /\ names 2 = mkNaming (NIdentifier t) (Some a') /\ a <> a' /\ kind u 1 = KRecord /\ kind u 2 = KRecord) /\
    forall holder, import holder intros = None.
Proof.
  destruct (written_inv (generate pointers pointers_facts (fun _ => []) (fun _ => false) (@rev nat) 1 ($"m")) pointers_files) as (b & st' & E & Er); [vm_compute; reflexivity|].
  exists pointers, pointers_facts, pointers_names, b, pointers_files, st'. do 3 eexists. split; [exact pointers_setting|]. split; [reflexivity|].
  split; [|split; [exact E|]; split; [exact Er|]; split; [do 3 right; left; reflexivity|]; split; [vm_compute; repeat constructor; cbn; intuition congruence|]; split].
  - constructor; [|discriminate]. intros [|i] K1 K2 K3; [destruct (K1 eq_refl)|discriminate K3].
  - exists ($"Foo"), [$"int"], [$"int *"]. repeat split. discriminate.
  - intros holder. vm_compute. reflexivity.
Qed.
Print Assumptions specializations_have_distinct_names_refuted.

(** Words with underscores are not told apart, nor is the number of arguments. *)
Theorem arguments_are_told_apart_refuted : exists template a1 a2 a3 wss1 wss2 wss3, identifier template /\
  Forall2 words a1 wss1 /\ Forall2 words a2 wss2 /\ Forall2 words a3 wss3 /\ concat wss1 = concat wss2 /\ a1 <> a2 /\ concat wss1 <> concat wss3 /\
  forall split_closers, get_spelling split_closers (mkNaming (NIdentifier template) (Some a1)) = get_spelling split_closers (mkNaming (NIdentifier template) (Some a2)) /\
    get_spelling split_closers (mkNaming (NIdentifier template) (Some a1)) = get_spelling split_closers (mkNaming (NIdentifier template) (Some a3)).
Proof.
  exists ($"Foo"), [$"a"; $"b"], [$"a::b"], [$"a_b"], [[$"a"]; [$"b"]], [[$"a"; $"b"]], [[$"a_b"]].
  assert (A : forall s, s <> [] -> forallb is_ident_continue s = true -> words s [s]).
  { intros s H1 H2. rewrite <- (app_nil_r s) at 1. apply words_word; [exact H1|exact H2|exact I|constructor]. }
  assert (A1 : words ($"a") [$"a"]) by (apply A; [discriminate|reflexivity]). assert (A2 : words ($"b") [$"b"]) by (apply A; [discriminate|reflexivity]).
  assert (A3 : words ($"a_b") [$"a_b"]) by (apply A; [discriminate|reflexivity]).
  assert (A4 : words ($"a::b") [$"a"; $"b"]) by (apply (words_word ($"a") ($"::b")); [discriminate|reflexivity|reflexivity|]; apply words_other; [reflexivity|]; apply words_other; [reflexivity|exact A2]).
  split; [apply is_valid_identifier_iff; reflexivity|].
  split; [exact (Forall2_cons _ _ A1 (Forall2_cons _ _ A2 (Forall2_nil _)))|]. split; [exact (Forall2_cons _ _ A4 (Forall2_nil _))|]. split; [exact (Forall2_cons _ _ A3 (Forall2_nil _))|].
  split; [reflexivity|]. split; [discriminate|]. split; [discriminate|]. intros []; split; vm_compute; reflexivity.
Qed.
Print Assumptions arguments_are_told_apart_refuted.

(** namespace GENPYBIND(module, visible) (1) { int from(2)(); } *)
Definition unnamed_names (i : nat) : naming :=
  match i with 2 => mkNaming (NIdentifier ($"from")) None | _ => mkNaming (NIdentifier []) None end.
Definition unnamed : unit :=
  mkUnit
    (fun i => match i with 1 => a_decl KNamespace false None ["module"; "visible"]%string | 2 => a_decl (KFunction NoOperator) false None [] | _ => a_decl KOther false None [] end)
    [Node 1 [Node 2 []]] 0
    (fun i => match i with 0 => [] | 1 => [0] | _ => [1; 0] end)
    (fun _ => true) (fun _ => false) (fun i => i) (fun _ => false)
    (fun i => get_spelling false (unnamed_names i)) (fun _ => false) N.of_nat.
Definition unnamed_facts : facts :=
  facts_of unnamed no_bases (fun c => match c with 0 => [1] | 1 => [2] | _ => [] end) (fun i => "")%string [].

Lemma unnamed_setting : setting unnamed unnamed_facts (@rev nat).
Proof. constructor; [placed_unit [1; 2]|language_facts|exists N.of_nat; exact (pop_first_good unnamed)|intros l; apply Permutation_rev]. Qed.

Definition unnamed_files : list (list item) := Eval vm_compute in files_of unnamed unnamed_facts (fun c => match c with 1 => [2] | _ => [] end).

(** Keywords of Python cannot be used as the name of an attribute in [m.name]. *)
Definition python_keywords : list str :=
  [$"False"; $"None"; $"True"; $"and"; $"as"; $"assert"; $"async"; $"await"; $"break"; $"class"; $"continue"; $"def"; $"del"; $"elif"; $"else"; $"except"; $"finally"; $"for";
   $"from"; $"global"; $"if"; $"import"; $"in"; $"is"; $"lambda"; $"nonlocal"; $"not"; $"or"; $"pass"; $"raise"; $"return"; $"try"; $"while"; $"with"; $"yield"].

(** Namespaces without a name are made modules without a name, and names can be
    keywords of Python, without any reports. *)
Theorem python_names_are_identifiers_refuted :
  exists u w found names b files st' intros calls post e p id q body, setting u w (@rev nat) /\ (forall i, u_name u i = get_spelling false (names i)) /\ properly_named u (w_extra w) names /\
    generate u w found (fun _ => false) (@rev nat) 1 ($"m") = Some (RGraph b (EWritten files [] st')) /\ bs_reports b = [] /\
    In (IModule ($"m") intros calls post) (concat files) /\ In (e, NSubmodule p []) intros /\
    In (IDefine id q body) (concat files) /\ (exists k f l d, In (SFunction false k f l d) body /\ In k python_keywords).
Proof.
  destruct (written_inv (generate unnamed unnamed_facts (fun c => match c with 1 => [2] | _ => [] end) (fun _ => false) (@rev nat) 1 ($"m")) unnamed_files) as (b & st' & E & Er); [vm_compute; reflexivity|].
  exists unnamed, unnamed_facts, (fun c => match c with 1 => [2] | _ => [] end), unnamed_names, b, unnamed_files, st'. do 8 eexists. split; [exact unnamed_setting|]. split; [reflexivity|].
  split; [|split; [exact E|]; split; [exact Er|]].
  - constructor; [|discriminate]. intros [|[|[|i]]] K1 K2 K3; [destruct (K1 eq_refl)|destruct (K2 eq_refl)|apply proper_identifier; reflexivity|destruct (K1 eq_refl)].
  - split; [do 2 right; left; reflexivity|]. split; [right; left; reflexivity|]. split; [do 4 right; left; reflexivity|]. exists ($"from"). do 3 eexists. split; [left; reflexivity|]. do 18 right. left. reflexivity.
Qed.
Print Assumptions python_names_are_identifiers_refuted.
