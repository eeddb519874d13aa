(** * Stream operators in Python *)
From Coq Require Import Sorting.Permutation.
From Verif Require Import Base ParserModel StringModel AnnotModel AnnotSpec AnnotProofs AnnotProps CollectModel CollectSpec GraphModel GraphSpec GraphWalk GraphPlace GraphProps
  OrderModel OrderSpec OrderProofs OrderProps InlineModel InlineSpec EmitModel EmitSpec EmitProps ModuleModel ModuleSpec ModuleProofs ModuleFinal ModuleProps ImportSpec ImportProofs ImportProps ExecSpec ExecProofs ExecProps AccessSpec AccessProofs AccessProps
  DispatchSpec DispatchProofs OperSpec StreamSpec StreamProofs.

(** ** C94 *)

(** If a method returns what a C++ stream operator writes, then there is a visible
    stream operator for the class that is annotated to be exposed under that name,
    and the text is what is written for the object itself. *)
Theorem texts_are_written_by_stream_operators :
  forall default_holder mro manual fails u w found implicit iteration n name b files rs st' m s p, setting u w iteration -> 0 < n ->
  generate u w found implicit iteration n name = Some (RGraph b (EWritten files rs st')) ->
  defines_nothing manual -> run_module mro manual fails default_holder files m = Some (s, p) ->
  forall V (is_none : V -> bool) default class_of cast rest insert k a t,
  text is_none default (w_extra w) mro p class_of cast rest insert k a = Some t ->
  exists r i, stream_operator u w b name r i k /\ (exists convert, cast r convert a = true) /\ t = insert r a.
Proof. exact texts_sound. Qed.
Print Assumptions texts_are_written_by_stream_operators.

(** Conversely, the method of an object with that name returns what the stream
    operator writes for it, also for objects of derived classes if these do not have
    an attribute of that name; the operator is for a class of the object.
    Missing: as for C65, the code does not make sure that there are no clashes, or
    that no other functions of the class are given the same name. *)
Theorem stream_operators_are_reached_partial :
  forall default_holder mro manual fails u w found implicit iteration n name b files rs st', setting u w iteration -> nested_blocks u -> 0 < n ->
  generate u w found implicit iteration n name = Some (RGraph b (EWritten files rs st')) ->
  exists g vis order all chunks post, exposed u found implicit name g vis b /\
    generated u w g vis (bs_annotations b) name rs st' order all post /\ layout name post all chunks files /\
    let intros := map (fun e => (ex_id e, ex_intro e)) all in
    let m := IModule name intros (map (fun e => (ex_id e, ex_id e)) all) post in
    filter is_module (concat files) = [m] /\
    (NoDup (map fst intros) -> agreeing_blocks u (bs_annotations b) g -> distinct_names u (bs_annotations b) g -> usable_bases default_holder w intros ->
     exists cs, contributions u (bs_annotations b) g all cs /\
       (no_clashes mro u (bs_annotations b) g cs -> executable manual fails all post ->
        exists s p, run_module mro manual fails default_holder files m = Some (s, p) /\
          forall V is_none default class_of cast rest insert k (a : V) c, class_of a = Some c ->
            let told := text is_none default (w_extra w) mro p class_of cast rest insert k a in
            (forall t, told = Some t -> exists r i, stream_operator u w b name r i k /\ In r (c :: mro c) /\ t = insert r a) /\
            (forall r i, In r (map ex_context all) -> stream_operator u w b name r i k -> first_named mro u (bs_annotations b) g cs c r k ->
               (forall t, In (Class r, k, t) cs -> exists k' r', t = SPrint k' r') -> (forall convert, cast r convert a = true) -> told = Some (insert r a)))).
Proof. exact streams_reached. Qed.
Print Assumptions stream_operators_are_reached_partial.

(** ** Example *)

(** struct GENPYBIND(visible) Coin { friend std::ostream &operator<<(std::ostream &, const Coin &) GENPYBIND(expose_as(__str__)); };
    struct GENPYBIND(visible) Gold : Coin {};
    struct GENPYBIND(visible) Note { friend std::ostream &operator<<(std::ostream &, const Note &) GENPYBIND(visible); }; *)
Definition purse : unit :=
  mkUnit
    (fun i => match i with
              | 0 => a_decl KOther false None []
              | 1 => a_decl KRecord false None ["visible"]%string
              | 2 => a_class 1 "Coin"
              | 3 => a_decl KRecord false None ["visible"]%string
              | 4 => mkDecl (KFunction OtherOperator) [lozenge ++ $"expose_as(__str__)"] false [$"os"; $"c"] 2 false false false [] [] None false None
              | _ => mkDecl (KFunction OtherOperator) [lozenge ++ $"visible"] false [$"os"; $"n"] 2 false false false [] [] None false None
              end)
    [Node 1 []; Node 2 []; Node 3 []; Node 4 []; Node 5 []] 0
    (fun i => match i with 0 => [] | _ => [0] end)
    (fun _ => true) (fun _ => false) (fun i => i) (fun _ => false)
    (fun i => match i with 1 => $"Coin" | 2 => $"Gold" | 3 => $"Note" | _ => $"op" end) (fun _ => false) N.of_nat.
Definition purse_fn (i : nat) : fn :=
  mkFn [a_param "os" (plain_type 1); a_param "v" (class_type match i with 4 => 1 | _ => 3 end)] (Some OLessLess) false false false (Named true) (plain_type 1).
Definition purse_facts : facts :=
  mkFacts (mkExtra purse_fn (fun _ => false) (fun _ => None) (fun _ => false) (fun _ => false) (fun _ => false) (fun _ => None)
      (fun r k => match k with OLessLess => match r with 3 => [5] | _ => [4] end | _ => [] end))
    (derives 2 1) (fun i => a_member (is_tag_kind (kind purse i))) (fun c => map (fun i => mkFound i None false) (match c with 0 => [1; 2; 3] | _ => [] end))
    (fun i => match i with 1 => $"::Coin" | 2 => $"::Gold" | _ => $"::Note" end) [] (pop_first purse).

Lemma purse_language : language purse purse_facts.
Proof.
  constructor.
  - intros r s. do 14 (destruct r as [|r]; [cbn; intuition (subst; cbn; lia)|]); intros [].
  - intros i H; exact H.
  - intros r k i H. destruct k; cbn in H; try destruct H. do 4 (destruct r as [|r]; [repeat destruct H as [<-|H]; try destruct H; reflexivity|]). repeat destruct H as [<-|H]; try destruct H; reflexivity.
  - discriminate.
  - intros r s. do 14 (destruct r as [|r]; [cbn; intuition (subst; reflexivity)|]); intros [].
  - intros c p Hc. do 6 (destruct c as [|c]; [discriminate Hc|]). discriminate Hc.
Qed.
Lemma purse_setting : setting purse purse_facts (@rev nat).
Proof. constructor; [placed_unit [1; 2; 3; 4; 5]|exact purse_language|exists N.of_nat; exact (pop_first_good purse)|intros l; apply Permutation_rev]. Qed.

Definition purse_files : list (list item) := Eval vm_compute in files_of purse purse_facts (fun _ => []).
Definition purse_module : pystate := Eval vm_compute in match imported (derived 2 1) purse_files with Some (_, p) => p | None => mkPy [] [] end.
Definition purse_entries : list entry := Eval vm_compute in
  map (fun x => match x with
                | (c, (i, IDefine id p body)) => mkEntry c id p (snd i) body
                | (c, _) => mkEntry c [] PModule (NAlias []) []
                end)
    (combine [0; 1; 2; 3] (combine (module_intros (module_of purse_files)) (definitions_of purse_files))).
Definition purse_statements : list (object * str * stmt) :=
  Eval vm_compute in flat_map (fun e => flat_map (fun s => match defines s with Some k => [(match ex_context e with 0 => Mod [] | r => Class r end, k, s)] | None => [] end) (ex_body e)) purse_entries.

Lemma purse_imports : setting purse purse_facts (@rev nat) /\
  (exists b st', generate purse purse_facts (fun _ => []) (fun _ => false) (@rev nat) 1 ($"m") = Some (RGraph b (EWritten purse_files [] st')) /\ bs_reports b = []) /\
  exists s, run_module (derived 2 1) (fun _ _ p => Some p) (fun _ => false) held_by_default purse_files (module_of purse_files) = Some (s, purse_module).
Proof. split; [exact purse_setting|]. split; [apply written_inv; vm_compute; reflexivity|]. eexists. vm_compute. reflexivity. Qed.

(** Objects in Python are known by their class here; the text is the number of the
    class the operator is for and that of the object. *)
Definition passed_as (r : nat) (convert : bool) (v : nat) : bool := existsb (Nat.eqb r) (v :: derived 2 1 v).
Definition told (k : string) (v : nat) : option str :=
  text (fun _ => false) (fun _ _ => 0) (w_extra purse_facts) (derived 2 1) purse_module (fun v => Some v) passed_as (fun _ _ _ _ => true) (fun r v => map ascii_of_nat [48 + r; 48 + v]) ($k) v.

(** [str(coin)] and [str(gold)] are written by the operator for coins, there is no
    such method for notes, and only this method. *)
Example texts_are_written_by_stream_operators_example :
  told "__str__" 1 = Some ($"11") /\ told "__str__" 2 = Some ($"12") /\ told "__str__" 3 = None /\ told "__repr__" 1 = None /\ told "__rlshift__" 3 = None /\
  defines_nothing (fun _ _ p => Some p).
Proof. do 5 (split; [vm_compute; reflexivity|]). intros l o p p' [= <-] o' n m H. exact H. Qed.

(** The premises are met. *)
Example stream_operators_are_reached_example :
  nested_blocks purse /\
  map (fun e => (ex_id e, ex_intro e)) purse_entries = module_intros (module_of purse_files) /\ map definition purse_entries = definitions_of purse_files /\
  NoDup (map fst (module_intros (module_of purse_files))) /\ usable_bases held_by_default purse_facts (module_intros (module_of purse_files)) /\
  (forall g vis b, exposed purse (fun _ => []) (fun _ => false) ($"m") g vis b -> agreeing_blocks purse (bs_annotations b) g /\ distinct_names purse (bs_annotations b) g /\
    contributions purse (bs_annotations b) g purse_entries purse_statements /\ no_clashes (derived 2 1) purse (bs_annotations b) g purse_statements /\
    first_named (derived 2 1) purse (bs_annotations b) g purse_statements 2 1 ($"__str__")) /\
  (forall t, In (Class 1, $"__str__", t) purse_statements -> exists k r, t = SPrint k r) /\
  executable (fun _ _ p => Some p) (fun _ => false) purse_entries [] /\
  exists b st', generate purse purse_facts (fun _ => []) (fun _ => false) (@rev nat) 1 ($"m") = Some (RGraph b (EWritten purse_files [] st')) /\
    stream_operator purse purse_facts b ($"m") 1 4 ($"__str__").
Proof.
  split; [|split; [reflexivity|split; [reflexivity|split; [|split; [|split; [|split; [|split]]]]]]].
  - intros c d (Kc & _). exfalso. do 6 (destruct c as [|c]; [discriminate Kc|]). discriminate Kc.
  - vm_compute. repeat constructor; cbn; intuition congruence.
  - intros id t parent n d Ht base Hb. cbn in Ht. repeat destruct Ht as [Ht|Ht]; try contradiction; try discriminate Ht; injection Ht as <- <- <- <- <-; cbn in Hb; try contradiction.
    destruct Hb as [<-|[]]. split; [apply (via_direct _ _ 2 (mkSpec 1 true false)); [left; reflexivity|reflexivity]|].
    intros id' t' parent' n' d' Ht' _. cbn in Ht'. repeat destruct Ht' as [Ht'|Ht']; try contradiction; try discriminate Ht'; injection Ht' as <- <- <- <- <-; reflexivity.
  - intros g vis b X. split; [|split; [apply (distinct_given _ _ _ _ _ X); vm_compute; reflexivity|split; [|split; [apply (no_clashes_given _ _ _ _ _ _ _ X); vm_compute; reflexivity|]]]].
    + intros c d _ _ (Kc & _). exfalso. do 6 (destruct c as [|c]; [discriminate Kc|]). discriminate Kc.
    + pose proof (edges_given _ _ _ _ _ X) as Eg. assert (E : forall c, In c [1; 2; 3] -> edge g 0 c) by (unfold edge; rewrite Eg; vm_compute; intuition congruence).
      assert (E0 : forall p, ~ edge g p 0) by (unfold edge; rewrite Eg; vm_compute; intuition congruence). clear Eg.
      assert (Q : forall c, In c [1; 2; 3] -> scope_object purse (bs_annotations b) g c (Some (Mod []))).
      { intros c Hc. exists 0. split; [|exact (located_root purse _ g)]. exists [], []. split; [apply path_step; [apply path_root|apply E, Hc]|]. split; [intros (K & _); discriminate K|intros ? []]. }
      change purse_statements with ([] ++ purse_statements ++ [] ++ [] ++ []). unfold purse_entries.
      apply (contributions_cons _ _ _ _ _ (Mod []) None); [exact (located_root purse _ g)| | |].
      { intros p (l1 & l2 & Hp & _). inversion Hp as [Hp'|q c l Hp' Hq Hl]; [destruct l1; discriminate|exact (E0 _ Hq)]. }
      { repeat constructor; discriminate. }
      apply (contributions_cons _ _ _ _ _ (Class 1) (Some (Mod []))); [apply located_class; reflexivity|apply Q; cbn; auto|apply con_named; [reflexivity|apply con_nil]|].
      apply (contributions_cons _ _ _ _ _ (Class 2) (Some (Mod []))); [apply located_class; reflexivity|apply Q; cbn; auto|apply con_nil|].
      apply (contributions_cons _ _ _ _ _ (Class 3) (Some (Mod []))); [apply located_class; reflexivity|apply Q; cbn; auto|apply con_nil|apply contributions_nil].
    + exists [2], []. split; [reflexivity|]. intros d [<-|[]]. split; [intros t [H|[]]; discriminate H|]. intros y (Hc & Oc & _ & Nc).
      assert (Hn : other_names purse (node_attributes purse (fun _ => [])) ($"__str__") = true) by (vm_compute; reflexivity). unfold other_names in Hn.
      rewrite forallb_forall in Hn. specialize (Hn _ (node_given _ _ _ _ _ _ X Hc)). cbn [fst] in Hn.
      rewrite (own_given _ _ _ Oc), <- (named_given _ _ _ _ Nc), (proj2 (str_eqb_eq ($"__str__") ($"__str__")) eq_refl) in Hn. discriminate Hn.
  - intros t [H|[]]. injection H as <-. eauto.
  - split; [intros; reflexivity|intros; reflexivity].
  - destruct purse_imports as (Se & (b & st' & G & _) & s & R). exists b, st'. split; [exact G|].
    destruct (texts_are_written_by_stream_operators _ _ _ _ _ _ _ _ _ _ _ _ _ _ _ _ _ _ Se Nat.lt_0_1 G (fun l o p p' (H : Some p = Some p') => match H in _ = y return match y with Some q => forall o' n m, own q o' n = Some m -> own p o' n = Some m | None => True end with eq_refl => fun o' n m H => H end) R
      _ _ _ _ _ _ _ _ _ _ (proj1 texts_are_written_by_stream_operators_example)) as (r & i & So & _ & E).
    assert (Hr : r = 1).
    { destruct r as [|[|[|[|r]]]]; try discriminate E; [reflexivity|]. assert (K := so_class _ _ _ _ _ _ _ So). destruct r as [|[|r]]; discriminate K. }
    subst r. destruct (so_declared _ _ _ _ _ _ _ So) as (x & _ & Hin). vm_compute in Hin. repeat destruct Hin as [<-|Hin]; try destruct Hin. exact So.
Qed.

(** struct GENPYBIND(visible) Coin(1) {
      std::string mint(2)() const GENPYBIND(expose_as(__str__));
      friend std::ostream &operator<<(3)(std::ostream &, const Coin &) GENPYBIND(expose_as(__str__));
    }; *)
Definition minted : unit :=
  mkUnit
    (fun i => match i with
              | 0 => a_decl KOther false None []
              | 1 => a_decl KRecord false None ["visible"]%string
              | 2 => a_decl (KMethod NoOperator) false None ["expose_as(__str__)"]%string
              | _ => mkDecl (KFunction OtherOperator) [lozenge ++ $"expose_as(__str__)"] false [$"os"; $"c"] 2 false false false [] [] None false None
              end)
    [Node 1 [Node 2 []]; Node 3 []] 0
    (fun i => match i with 0 => [] | 2 => [1; 0] | _ => [0] end)
    (fun _ => true) (fun _ => false) (fun i => i) (fun _ => false)
    (fun i => match i with 1 => $"Coin" | 2 => $"mint" | _ => $"op" end) (fun _ => false) N.of_nat.
Definition minted_fn (i : nat) : fn :=
  match i with 2 => a_fn [] None | _ => mkFn [a_param "os" (plain_type 1); a_param "v" (class_type 1)] (Some OLessLess) false false false (Named true) (plain_type 1) end.
Definition minted_facts : facts :=
  mkFacts (mkExtra minted_fn (fun _ => false) (fun _ => None) (fun _ => false) (fun _ => false) (fun _ => false) (fun _ => None)
      (fun r k => match k with OLessLess => [3] | _ => [] end))
    no_bases (fun i => a_member (is_tag_kind (kind minted i))) (fun c => map (fun i => mkFound i None false) (match c with 0 => [1] | 1 => [2] | _ => [] end))
    (fun _ => $"::Coin") [] (pop_first minted).

Lemma minted_setting : setting minted minted_facts (@rev nat).
Proof.
  constructor; [placed_unit [1; 2; 3]| |exists N.of_nat; exact (pop_first_good minted)|intros l; apply Permutation_rev]. constructor.
  - intros r s [].
  - intros i H; exact H.
  - intros r k i H. destruct k; cbn in H; try destruct H as [<-|[]]; try destruct H. reflexivity.
  - discriminate.
  - intros r s [].
  - intros c p Hc. do 4 (destruct c as [|c]; [discriminate Hc|]). discriminate Hc.
Qed.

Definition minted_files : list (list item) := Eval vm_compute in files_of minted minted_facts (fun _ => []).
Definition minted_module : pystate := Eval vm_compute in match imported (fun _ => []) minted_files with Some (_, p) => p | None => mkPy [] [] end.
(** With [other], objects can be passed to the other function. *)
Definition told_minted (other : bool) : option str :=
  text (fun _ => false) (fun _ _ => 0) (w_extra minted_facts) (fun _ => []) minted_module (fun v => Some v) (fun r _ v => Nat.eqb r v) (fun _ _ _ _ => other) (fun _ _ => $"coin") ($"__str__") 1.

(** The condition on other functions is needed: [str(coin)] is not what is written by
    the stream operator, although it is annotated to be exposed as __str__, if another
    function has been given this name. *)
Theorem stream_operators_are_reached_refuted :
  exists default_holder mro manual fails u w found implicit iteration n name b files rs st' m s p, setting u w iteration /\ 0 < n /\
  generate u w found implicit iteration n name = Some (RGraph b (EWritten files rs st')) /\ bs_reports b = [] /\ defines_nothing manual /\ In m (concat files) /\
  run_module mro manual fails default_holder files m = Some (s, p) /\
  exists r i k, stream_operator u w b name r i k /\
  exists V is_none default class_of cast rest insert (a : V), class_of a = Some r /\ (forall convert, cast r convert a = true) /\
    text is_none default (w_extra w) mro p class_of cast rest insert k a = None.
Proof.
  assert (G : exists b st', generate minted minted_facts (fun _ => []) (fun _ => false) (@rev nat) 1 ($"m") = Some (RGraph b (EWritten minted_files [] st')) /\ bs_reports b = []) by (apply written_inv; vm_compute; reflexivity).
  destruct G as (b & st' & G & Rb).
  assert (R : exists s, run_module (fun _ => []) (fun _ _ p => Some p) (fun _ => false) held_by_default minted_files (module_of minted_files) = Some (s, minted_module)) by (eexists; vm_compute; reflexivity).
  destruct R as (s & R). assert (D : defines_nothing (fun _ _ p => Some p)) by (intros l o p p' [= <-] o' n m H; exact H).
  exists held_by_default, (fun _ => []), (fun _ _ p => Some p), (fun _ => false), minted, minted_facts, (fun _ => []), (fun _ => false), (@rev nat), 1, ($"m"), b, minted_files, [], st', (module_of minted_files), s, minted_module.
  split; [exact minted_setting|]. split; [lia|]. split; [exact G|]. split; [exact Rb|]. split; [exact D|]. split; [vm_compute; auto 10|]. split; [exact R|].
  assert (T : told_minted false = Some ($"coin")) by (vm_compute; reflexivity).
  destruct (texts_are_written_by_stream_operators _ _ _ _ _ _ _ _ _ _ _ _ _ _ _ _ _ _ minted_setting Nat.lt_0_1 G D R _ _ _ _ _ _ _ _ _ _ T) as (r & i & So & (convert & C) & _).
  apply Nat.eqb_eq in C. subst r. exists 1, i, ($"__str__"). split; [exact So|].
  exists nat, (fun _ => false), (fun _ _ => 0), (fun v => Some v), (fun r _ v => Nat.eqb r v), (fun _ _ _ _ => true), (fun _ _ => $"coin"), 1. split; [reflexivity|]. split; [reflexivity|]. vm_compute. reflexivity.
Qed.
Print Assumptions stream_operators_are_reached_refuted.
