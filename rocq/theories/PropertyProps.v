(** * Properties of Python objects given by getters and setters *)
From Coq Require Import Sorting.Permutation.
From Verif Require Import Base ParserModel StringModel AnnotModel AnnotSpec CollectModel CollectSpec GraphModel GraphSpec GraphWalk GraphPlace GraphProps
  OrderModel OrderSpec OrderProofs OrderProps InlineModel InlineSpec EmitModel EmitSpec EmitProps ModuleModel ModuleSpec ModuleProofs ModuleFinal ModuleProps ImportSpec ImportProofs ImportProps ExecSpec ExecProps AccessSpec AccessProps
  InvalidSpec InvalidProofs StoreSpec StoreProofs PropertySpec PropertyProofs.

(** ** C88 *)

(** A property of an exposed class has the one visible member function as getter that
    is annotated as such, and as setter the one that is annotated so, if any.  Reading
    the attribute of an object calls the getter, assigning it calls the setter and has
    no other effect; without setter it is refused. *)
Theorem properties_call_annotated_functions : forall default_holder mro manual fails u w found implicit iteration n name b files rs st',
  setting u w iteration -> 0 < n -> generate u w found implicit iteration n name = Some (RGraph b (EWritten files rs st')) ->
  (forall r, In r rs -> is_error_ereport r = false) -> forall m s p, adds_no_properties manual -> In m (concat files) ->
  run_module mro manual fails default_holder files m = Some (s, p) ->
  forall V class_of has_dict (convert : nat -> V -> option V) initial read write d k nm f st, own p (Class d) k = Some (MValue (SProperty nm f st)) ->
  nm = k /\ exposed_class u found implicit name b d /\
  (forall f', accessor u w b name d GetterFor f' k <-> f' = f) /\ (forall h, accessor u w b name d SetterFor h k <-> st = Some h) /\
  forall (wd : world V) o, comes_from p mro wd (class_of o) d k ->
    let value := get_attr p mro class_of initial (with_object u read) wd (Instance o) k in
    let set v := set_attr p mro class_of has_dict convert (with_value u write) wd (Instance o) k v in
    (arity u f = 1 -> value = match read f o (wd_memory wd) with Some v => Value v | None => Refused end) /\
    (arity u f <> 1 -> value = Refused) /\
    (forall h v, accessor u w b name d SetterFor h k -> arity u h = 2 ->
      set v = match write h o v (wd_memory wd) with Some mem => (mkWorld (wd_set wd) (wd_dict wd) mem, Accepted) | None => (wd, Refused) end) /\
    (forall v, (forall h, accessor u w b name d SetterFor h k -> arity u h <> 2) -> set v = (wd, Refused)).
Proof. exact properties_live. Qed.
Print Assumptions properties_call_annotated_functions.

(** Conversely, what visible getters are annotated for are attributes of the class.
    Missing: as for C65, the code does not make sure that there are no clashes. *)
Theorem getters_become_attributes_partial :
  forall default_holder mro manual fails u w found implicit iteration n name b files rs st', setting u w iteration -> nested_blocks u -> 0 < n ->
  generate u w found implicit iteration n name = Some (RGraph b (EWritten files rs st')) -> (forall r, In r rs -> is_error_ereport r = false) ->
  exists g vis order all chunks post, exposed u found implicit name g vis b /\
    generated u w g vis (bs_annotations b) name rs st' order all post /\ layout name post all chunks files /\
    let intros := map (fun e => (ex_id e, ex_intro e)) all in
    let m := IModule name intros (map (fun e => (ex_id e, ex_id e)) all) post in
    filter is_module (concat files) = [m] /\
    (NoDup (map fst intros) -> agreeing_blocks u (bs_annotations b) g -> distinct_names u (bs_annotations b) g -> usable_bases default_holder w intros ->
     exists cs, contributions u (bs_annotations b) g all cs /\
       (no_clashes mro u (bs_annotations b) g cs -> executable manual fails all post ->
        exists s p, run_module mro manual fails default_holder files m = Some (s, p) /\
          forall d k f, In d (map ex_context all) -> kind u d = KRecord -> accessor u w b name d GetterFor f k -> exists st, own p (Class d) k = Some (MValue (SProperty k f st)))).
Proof. exact properties_defined. Qed.
Print Assumptions getters_become_attributes_partial.

(** ** Example *)

Definition accessing (static : bool) (params : list string) (required : nat) (void : bool) (text : string) : decl :=
  mkDecl (KMethod NoOperator) [lozenge ++ $text] false (map (fun t => $t) params) required void static false [] [] None true None.

(** struct GENPYBIND(visible) G(1) {
      int get(2)() GENPYBIND(getter_for(x));  void set(3)(int v) GENPYBIND(setter_for(x));
      int odd(4)(int n = 0) GENPYBIND(getter_for(y));  static int count(5)() GENPYBIND(getter_for(z));
      void hid(6)(int v) GENPYBIND(setter_for(y), hidden);
    }; *)
Definition gauge : unit :=
  mkUnit
    (fun i => match i with
              | 0 => a_decl KOther false None []
              | 1 => a_decl KRecord false None ["visible"]%string
              | 2 => accessing false [] 0 false "getter_for(x)"
              | 3 => accessing false ["v"]%string 1 true "setter_for(x)"
              | 4 => accessing false ["n"]%string 0 false "getter_for(y)"
              | 5 => accessing true [] 0 false "getter_for(z)"
              | _ => accessing false ["v"]%string 1 true "setter_for(y), hidden"
              end)
    [Node 1 [Node 2 []; Node 3 []; Node 4 []; Node 5 []; Node 6 []]] 0
    (fun i => match i with 0 => [] | 1 => [0] | _ => [1; 0] end)
    (fun _ => true) (fun _ => false) (fun i => i) (fun _ => false)
    (fun i => match i with 1 => $"G" | 2 => $"get" | 3 => $"set" | 4 => $"odd" | 5 => $"count" | _ => $"hid" end) (fun _ => false) N.of_nat.
Definition gauge_facts : facts := simple_facts gauge no_bases (fun c => match c with 1 => [2; 3; 4; 5; 6] | _ => [1] end) (fun _ => "::G"%string).

Lemma gauge_setting : setting gauge gauge_facts (@rev nat).
Proof. constructor; [placed_unit [1; 2; 3; 4; 5; 6]|language_facts|exists N.of_nat; exact (pop_first_good gauge)|intros l; apply Permutation_rev]. Qed.

Definition gauge_files : list (list item) := Eval vm_compute in files_of gauge gauge_facts (fun _ => []).
Definition gauge_module : pystate := Eval vm_compute in match imported (fun _ => []) gauge_files with Some (_, p) => p | None => mkPy [] [] end.

(** Values are numbers; the functions use the data member 9 and accept values less than 100. *)
Definition gauge_read (f o : nat) (m : memory N) : option N := Some (m (Field_ o 9)).
Definition gauge_write (f o : nat) (v : N) (m : memory N) : option (memory N) := if N.ltb v 100 then Some (store m (Field_ o 9) v) else None.
Definition at_start : world N := mkWorld [] [] (fun _ => 5%N).
Definition gauge_get (wd : world N) (o : nat) (k : string) : answer (V := N) :=
  get_attr gauge_module (fun _ => []) (fun _ => 1) (fun _ => 0%N) (with_object gauge gauge_read) wd (Instance o) ($k).
Definition gauge_set (wd : world N) (o : nat) (k : string) (v : N) : world N * answer (V := N) :=
  set_attr gauge_module (fun _ => []) (fun _ => 1) (fun _ => false) (fun _ => Some) (with_value gauge gauge_write) wd (Instance o) ($k) v.

Lemma no_properties_added : adds_no_properties (fun _ _ p => Some p).
Proof. intros l o p p' [= <-]. auto. Qed.

Lemma gauge_imports : setting gauge gauge_facts (@rev nat) /\
  (exists b st', generate gauge gauge_facts (fun _ => []) (fun _ => false) (@rev nat) 1 ($"m") = Some (RGraph b (EWritten gauge_files [] st')) /\ bs_reports b = []) /\
  In (module_of gauge_files) (concat gauge_files) /\
  exists s, run_module (fun _ => []) (fun _ _ p => Some p) (fun _ => false) held_by_default gauge_files (module_of gauge_files) = Some (s, gauge_module).
Proof.
  split; [exact gauge_setting|]. split; [apply written_inv; vm_compute; reflexivity|]. split; [vm_compute; tauto|]. eexists. vm_compute. reflexivity.
Qed.

Lemma gauge_own : map (fun k => own gauge_module (Class 1) ($k)) ["x"; "y"; "z"]%string =
  [Some (MValue (SProperty ($"x") 2 (Some 3))); Some (MValue (SProperty ($"y") 4 None)); Some (MValue (SProperty ($"z") 5 None))].
Proof. vm_compute. reflexivity. Qed.

Lemma gauge_each : own gauge_module (Class 1) ($"x") = Some (MValue (SProperty ($"x") 2 (Some 3))) /\
  own gauge_module (Class 1) ($"y") = Some (MValue (SProperty ($"y") 4 None)) /\ own gauge_module (Class 1) ($"z") = Some (MValue (SProperty ($"z") 5 None)).
Proof. repeat split; vm_compute; reflexivity. Qed.

Lemma gauge_comes_from o k : comes_from gauge_module (fun _ => []) at_start ((fun _ : nat => 1) o) 1 k.
Proof. exists [], []. split; [reflexivity|]. split; intros c; [intros []|intros _ v []]. Qed.

(** What is said about x: get is the getter, set the setter. *)
Example properties_call_annotated_functions_example :
  (setting gauge gauge_facts (@rev nat) /\
   (exists b st', generate gauge gauge_facts (fun _ => []) (fun _ => false) (@rev nat) 1 ($"m") = Some (RGraph b (EWritten gauge_files [] st')) /\ bs_reports b = []) /\
   In (module_of gauge_files) (concat gauge_files) /\
   exists s, run_module (fun _ => []) (fun _ _ p => Some p) (fun _ => false) held_by_default gauge_files (module_of gauge_files) = Some (s, gauge_module)) /\
  adds_no_properties (fun _ _ p => Some p) /\
  map (fun k => own gauge_module (Class 1) ($k)) ["x"; "y"; "z"]%string =
    [Some (MValue (SProperty ($"x") 2 (Some 3))); Some (MValue (SProperty ($"y") 4 None)); Some (MValue (SProperty ($"z") 5 None))] /\
  (forall k, comes_from gauge_module (fun _ => []) at_start 1 1 k) /\ map (arity gauge) [2; 3; 4; 5] = [1; 2; 2; 0] /\
  (let wd := fst (gauge_set at_start 7 "x" 42) in
   gauge_get at_start 7 "x" = Value 5%N /\ snd (gauge_set at_start 7 "x" 42) = Accepted /\ gauge_get wd 7 "x" = Value 42%N /\ gauge_get wd 8 "x" = Value 5%N /\
   gauge_set wd 7 "x" 100 = (wd, Refused) /\ gauge_set wd 7 "y" 1 = (wd, Refused)).
Proof.
  split; [exact gauge_imports|]. split; [exact no_properties_added|]. split; [exact gauge_own|]. split; [exact (gauge_comes_from 0)|]. repeat split; vm_compute; reflexivity.
Qed.

Definition gauge_entries : list entry := Eval vm_compute in
  map (fun x => match x with
                | (c, (i, IDefine id p body)) => mkEntry c id p (snd i) body
                | (c, _) => mkEntry c [] PModule (NAlias []) []
                end)
    (combine [0; 1] (combine (module_intros (module_of gauge_files)) (definitions_of gauge_files))).
Definition gauge_statements : list (object * str * stmt) :=
  [(Class 1, $"x", SProperty ($"x") 2 (Some 3)); (Class 1, $"y", SProperty ($"y") 4 None); (Class 1, $"z", SProperty ($"z") 5 None)].

Example getters_become_attributes_example :
  nested_blocks gauge /\
  map (fun e => (ex_id e, ex_intro e)) gauge_entries = module_intros (module_of gauge_files) /\ map definition gauge_entries = definitions_of gauge_files /\
  NoDup (map fst (module_intros (module_of gauge_files))) /\ usable_bases held_by_default gauge_facts (module_intros (module_of gauge_files)) /\
  (forall g vis b, exposed gauge (fun _ => []) (fun _ => false) ($"m") g vis b -> agreeing_blocks gauge (bs_annotations b) g /\ distinct_names gauge (bs_annotations b) g /\
    contributions gauge (bs_annotations b) g gauge_entries gauge_statements /\ no_clashes (fun _ => []) gauge (bs_annotations b) g gauge_statements) /\
  executable (fun _ _ p => Some p) (fun _ => false) gauge_entries [] /\
  exists b st', generate gauge gauge_facts (fun _ => []) (fun _ => false) (@rev nat) 1 ($"m") = Some (RGraph b (EWritten gauge_files [] st')) /\
    accessor gauge gauge_facts b ($"m") 1 GetterFor 2 ($"x") /\ accessor gauge gauge_facts b ($"m") 1 SetterFor 3 ($"x") /\
    accessor gauge gauge_facts b ($"m") 1 GetterFor 5 ($"z") /\ ~ accessor gauge gauge_facts b ($"m") 1 SetterFor 6 ($"y").
Proof.
  split; [|split; [reflexivity|split; [reflexivity|split; [|split; [|split; [|split]]]]]].
  - intros c d (Kc & _). exfalso. do 7 (destruct c as [|c]; [discriminate Kc|]). discriminate Kc.
  - vm_compute. repeat constructor; cbn; intuition congruence.
  - intros id t parent n d Ht base Hb. cbn in Ht. repeat destruct Ht as [Ht|Ht]; try contradiction; try discriminate Ht; injection Ht as <- <- <- <- <-; cbn in Hb; contradiction.
  - intros g vis b X. split; [|split; [apply (distinct_given _ _ _ _ _ X); vm_compute; reflexivity|split; [|apply (no_clashes_given _ _ _ _ _ _ _ X); vm_compute; reflexivity]]].
    + intros c d _ _ (Kc & _). exfalso. do 7 (destruct c as [|c]; [discriminate Kc|]). discriminate Kc.
    + pose proof (edges_given _ _ _ _ _ X) as Eg. assert (E : edge g 0 1) by (unfold edge; rewrite Eg; vm_compute; intuition).
      assert (E0 : forall p, ~ edge g p 0) by (unfold edge; rewrite Eg; vm_compute; intuition congruence). clear Eg.
      change gauge_statements with ([] ++ gauge_statements ++ []). unfold gauge_entries. apply (contributions_cons _ _ _ _ _ (Mod []) None); [exact (located_root gauge _ g)| | |].
      { intros p (l1 & l2 & Hp & _). inversion Hp as [Hp'|q c l Hp' Hq Hl]; [destruct l1; discriminate|exact (E0 _ Hq)]. }
      { repeat constructor; discriminate. }
      apply (contributions_cons _ _ _ _ _ (Class 1) (Some (Mod []))); [apply located_class; reflexivity| | |apply contributions_nil].
      { exists 0. split; [|exact (located_root gauge _ g)]. exists [], []. split; [apply path_step; [apply path_root|exact E]|]. split; [intros (K & _); discriminate K|intros ? []]. }
      do 3 (apply con_named; [reflexivity|]). apply con_nil.
  - split; [intros; reflexivity|intros; reflexivity].
  - destruct gauge_imports as (Se & (b & st' & G & _) & Hm & (s & R)). exists b, st'. split; [exact G|].
    assert (P : forall k nm f st, own gauge_module (Class 1) k = Some (MValue (SProperty nm f st)) ->
      (forall f', accessor gauge gauge_facts b ($"m") 1 GetterFor f' k <-> f' = f) /\ (forall h, accessor gauge gauge_facts b ($"m") 1 SetterFor h k <-> st = Some h)).
    { intros k nm f st Ho.
      destruct (properties_call_annotated_functions _ _ _ _ _ _ _ _ _ _ _ _ _ _ _ Se Nat.lt_0_1 G (fun r (H : In r []) => match H with end) _ _ _ no_properties_added Hm R N (fun _ => 1) (fun _ => false) (fun _ => Some) (fun _ => 0%N)
        gauge_read gauge_write 1 k nm f st Ho) as (_ & _ & A & B & _). auto. }
    destruct gauge_each as (Ox & Oy & Oz). split; [apply (P _ _ _ _ Ox); reflexivity|]. split; [apply (P _ _ _ _ Ox); reflexivity|]. split; [apply (P _ _ _ _ Oz); reflexivity|].
    intros A. apply (P _ _ _ _ Oy) in A. discriminate A.
Qed.

(** Getters may be accepted without report though reading the attribute never works:
    default arguments are not known to pybind11, and static member functions do not
    take the object (the project's test properties.h notes the former). *)
Theorem accepted_getters_can_be_called_refuted : forall static : bool, exists u w found implicit iteration n name b files st' m s p d k f,
  setting u w iteration /\ 0 < n /\ generate u w found implicit iteration n name = Some (RGraph b (EWritten files [] st')) /\ bs_reports b = [] /\
  In m (concat files) /\ run_module (fun _ => []) (fun _ _ p => Some p) (fun _ => false) held_by_default files m = Some (s, p) /\
  own p (Class d) k = Some (MValue (SProperty k f None)) /\ accessor u w b name d GetterFor f k /\ d_static (u_decls u f) = static /\ d_min_required (u_decls u f) = 0 /\
  forall V class_of (initial : nat -> V) (read : nat -> nat -> memory V -> option V) wd o, comes_from p (fun _ => []) wd (class_of o) d k ->
    get_attr p (fun _ => []) class_of initial (with_object u read) wd (Instance o) k = Refused.
Proof.
  intros static. destruct gauge_imports as (Se & (b & st' & G & B) & Hm & (s & R)).
  destruct gauge_each as (Ox & Oy & Oz).
  assert (P : forall V class_of (initial : nat -> V) (read : nat -> nat -> memory V -> option V) k f, own gauge_module (Class 1) k = Some (MValue (SProperty k f None)) -> arity gauge f <> 1 ->
    accessor gauge gauge_facts b ($"m") 1 GetterFor f k /\
    forall wd o, comes_from gauge_module (fun _ => []) wd (class_of o) 1 k -> get_attr gauge_module (fun _ => []) class_of initial (with_object gauge read) wd (Instance o) k = Refused).
  { intros V class_of initial read k f Ho Ha.
    destruct (properties_call_annotated_functions _ _ _ _ _ _ _ _ _ _ _ _ _ _ _ Se Nat.lt_0_1 G (fun r (H : In r []) => match H with end) _ _ _ no_properties_added Hm R V class_of (fun _ => false) (fun _ => Some) initial
      read (fun _ _ _ _ => None) 1 k k f None Ho) as (_ & _ & A & _ & L). split; [apply A; reflexivity|]. intros wd o C. apply (L wd o C), Ha. }
  exists gauge, gauge_facts, (fun _ => []), (fun _ => false), (@rev nat), 1, ($"m"), b, gauge_files, st', (module_of gauge_files), s, gauge_module, 1.
  destruct static; [exists ($"z"), 5|exists ($"y"), 4];
    (split; [exact Se|]; split; [lia|]; split; [exact G|]; split; [exact B|]; split; [exact Hm|]; split; [exact R|]; split; [assumption|]);
    (split; [refine (proj1 (P N (fun _ => 1) (fun _ => 0%N) gauge_read _ _ _ _)); [assumption|discriminate]|]); (split; [reflexivity|]); (split; [reflexivity|]);
    intros V class_of initial read wd o C; (refine (proj2 (P V class_of initial read _ _ _ _) wd o C); [first [exact Oz|exact Oy]|discriminate]).
Qed.
Print Assumptions accepted_getters_can_be_called_refuted.
