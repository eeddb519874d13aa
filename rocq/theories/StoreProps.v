(** * Reading and assigning variables and data members from Python *)
From Coq Require Import Sorting.Permutation.
From Verif Require Import Base ParserModel StringModel AnnotModel AnnotSpec CollectModel CollectSpec GraphModel GraphSpec GraphWalk GraphPlace GraphProps
  OrderModel OrderSpec OrderProofs OrderProps InlineModel InlineSpec EmitModel EmitSpec EmitProps ModuleModel ModuleSpec ModuleProofs ModuleFinal ModuleProps ImportSpec ImportProofs ImportProps ExecSpec ExecProps AccessSpec AccessProps
  InvalidSpec InvalidProofs StoreSpec StoreProofs.

(** ** C84 *)

(** Whatever Python code does, it only changes the values of visible variables and
    data members of exposed classes that are neither constant nor read-only, except
    by running C++ code. *)
Theorem only_writable_members_are_changed : forall default_holder mro manual fails u w found implicit iteration n name b files rs st' m s p,
  setting u w iteration -> 0 < n -> generate u w found implicit iteration n name = Some (RGraph b (EWritten files rs st')) -> adds_nothing manual ->
  run_module mro manual fails default_holder files m = Some (s, p) ->
  forall V class_of has_dict (convert : nat -> V -> option V) setter l program (wd : world V),
  valid_annotations (u_decls u (declaration_at l)) -> kept setter l program ->
  wd_memory (fold_left (act p mro class_of has_dict convert setter) program wd) l <> wd_memory wd l ->
  member_of u w found implicit name b (declaration_at l) (match l with Variable_ _ => true | _ => false end) /\
  x_const (w_extra w) (declaration_at l) = false /\ ~ said_readonly u (declaration_at l) true.
Proof. intros. eapply only_writable_changed; eassumption. Qed.
Print Assumptions only_writable_members_are_changed.

(** Attributes for members of classes always have the value of the member: they are
    read from it, and values assigned are stored there, unless it is constant or
    read-only.  Missing: attributes for other variables, see the refutation below. *)
Theorem attributes_have_the_value_of_members_partial : forall default_holder mro manual fails u w found implicit iteration n name b files rs st' m s p,
  setting u w iteration -> 0 < n -> generate u w found implicit iteration n name = Some (RGraph b (EWritten files rs st')) -> adds_nothing manual ->
  run_module mro manual fails default_holder files m = Some (s, p) ->
  forall V class_of has_dict (convert : nat -> V -> option V) getter setter initial (wd : world V) d k static readonly nm i,
  own p (Class d) k = Some (MValue (SMember static readonly nm i)) -> valid_annotations (u_decls u i) ->
  (static = true <-> kind u i = KVar) /\ (static = false <-> kind u i = KField) /\
  forall t l, holder p mro class_of wd d k static i t l ->
    get_attr p mro class_of initial getter wd t k = Value (wd_memory wd l) /\
    (x_const (w_extra w) i = true \/ said_readonly u i true -> forall v, set_attr p mro class_of has_dict convert setter wd t k v = (wd, Refused)) /\
    (x_const (w_extra w) i = false -> ~ said_readonly u i true -> forall v,
      (convert i v = None -> set_attr p mro class_of has_dict convert setter wd t k v = (wd, Refused)) /\
      forall v', convert i v = Some v' -> set_attr p mro class_of has_dict convert setter wd t k v = (mkWorld (wd_set wd) (wd_dict wd) (store (wd_memory wd) l v'), Accepted) /\
        get_attr p mro class_of initial getter (mkWorld (wd_set wd) (wd_dict wd) (store (wd_memory wd) l v')) t k = Value v').
Proof. intros. eapply members_live; eassumption. Qed.
Print Assumptions attributes_have_the_value_of_members_partial.

(** ** Example *)

(** struct GENPYBIND(visible) S(1) { int a(2); const int b(3); int c(4) GENPYBIND(readonly); static int d(5); };
    int v(6) GENPYBIND(visible); *)
Definition shelf : unit :=
  mkUnit
    (fun i => match i with
              | 0 => a_decl KOther false None []
              | 1 => a_decl KRecord false None ["visible"]%string
              | 2 | 3 => a_decl KField false None []
              | 4 => a_decl KField false None ["readonly"]%string
              | 5 => a_decl KVar false None []
              | _ => a_decl KVar false None ["visible"]%string
              end)
    [Node 1 [Node 2 []; Node 3 []; Node 4 []; Node 5 []]; Node 6 []] 0
    (fun i => match i with 0 => [] | 1 | 6 => [0] | _ => [1; 0] end)
    (fun _ => true) (fun _ => false) (fun i => i) (fun _ => false)
    (fun i => match i with 1 => $"S" | 2 => $"a" | 3 => $"b" | 4 => $"c" | 5 => $"d" | _ => $"v" end) (fun _ => false) N.of_nat.
Definition shelf_facts : facts :=
  mkFacts (mkExtra (fun _ => a_fn [] None) (fun i => Nat.eqb i 3) (fun _ => None) (fun _ => false) (fun _ => false) (fun _ => false) (fun _ => None) (fun _ _ => []))
    no_bases (fun i => a_member (is_tag_kind (kind shelf i))) (fun c => map (fun i => mkFound i None false) (match c with 1 => [2; 3; 4; 5] | _ => [1; 6] end)) (fun i => $"::S") [] (pop_first shelf).

Lemma shelf_setting : setting shelf shelf_facts (@rev nat).
Proof. constructor; [placed_unit [1; 2; 3; 4; 5; 6]|language_facts|exists N.of_nat; exact (pop_first_good shelf)|intros l; apply Permutation_rev]. Qed.

Definition shelf_files : list (list item) := Eval vm_compute in files_of shelf shelf_facts (fun _ => []).
Definition shelf_module : pystate := Eval vm_compute in
  match run_module (fun _ => []) (fun _ _ p => Some p) (fun _ => false) held_by_default shelf_files (module_of shelf_files) with Some (_, p) => p | None => mkPy [] [] end.

(** Values are numbers, those of the members less than 100. *)
Definition fits (i : nat) (v : N) : option N := if N.ltb v 100 then Some v else None.
Definition start : world N := mkWorld [] [] (fun l => N.of_nat (declaration_at l)).
Definition run (program : list (action N)) : world N := fold_left (act shelf_module (fun _ => []) (fun _ => 1) (fun _ => false) fits (fun _ _ _ _ => None)) program start.
Definition read (program : list (action N)) (t : target) (k : string) : answer (V := N) :=
  get_attr shelf_module (fun _ => []) (fun _ => 1) N.of_nat (fun _ _ _ => Some 0%N) (run program) t ($k).

Lemma shelf_valid i : valid_annotations (u_decls shelf i).
Proof.
  destruct (insert (u_decls shelf) i []) as [[st ds]|] eqn:E.
  - assert (Hs : d_skip (u_decls shelf i) = false) by (do 7 (destruct i as [|i]; [reflexivity|]); reflexivity).
    destruct (valid_dec shelf i st ds E Hs) as [H|(d & Hd & _)]; [exact H|].
    assert (ds = []). { do 7 (destruct i as [|i]; [assert (E' : Some (st, ds) = insert (u_decls shelf) _ []) by (symmetry; exact E); vm_compute in E'; injection E' as _ ->; reflexivity|]).
      assert (E' : Some (st, ds) = insert (u_decls shelf) (S (S (S (S (S (S (S i))))))) []) by (symmetry; exact E). vm_compute in E'. injection E' as _ ->. reflexivity. }
    subst ds. destruct Hd.
  - exfalso. do 7 (destruct i as [|i]; [vm_compute in E; discriminate E|]). vm_compute in E. discriminate E.
Qed.

Lemma shelf_imports :
  setting shelf shelf_facts (@rev nat) /\
  (exists b st', generate shelf shelf_facts (fun _ => []) (fun _ => false) (@rev nat) 1 ($"m") = Some (RGraph b (EWritten shelf_files [] st')) /\ bs_reports b = []) /\
  adds_nothing (fun _ _ p => Some p) /\
  (exists s, run_module (fun _ => []) (fun _ _ p => Some p) (fun _ => false) held_by_default shelf_files (module_of shelf_files) = Some (s, shelf_module)).
Proof.
  split; [exact shelf_setting|]. split; [apply written_inv; vm_compute; reflexivity|]. split; [intros l o p p' E t Ht; injection E as <-; exact Ht|].
  eexists. vm_compute. reflexivity.
Qed.

Example attributes_have_the_value_of_members_example :
  (setting shelf shelf_facts (@rev nat) /\
   (exists b st', generate shelf shelf_facts (fun _ => []) (fun _ => false) (@rev nat) 1 ($"m") = Some (RGraph b (EWritten shelf_files [] st')) /\ bs_reports b = []) /\
   adds_nothing (fun _ _ p => Some p) /\
   (exists s, run_module (fun _ => []) (fun _ _ p => Some p) (fun _ => false) held_by_default shelf_files (module_of shelf_files) = Some (s, shelf_module))) /\
  (forall i, valid_annotations (u_decls shelf i)) /\
  map (fun k => own shelf_module (Class 1) ($k)) ["a"; "b"; "c"; "d"]%string =
    [Some (MValue (SMember false false ($"a") 2)); Some (MValue (SMember false true ($"b") 3)); Some (MValue (SMember false true ($"c") 4)); Some (MValue (SMember true false ($"d") 5))] /\
  holder shelf_module (fun _ => []) (fun _ => 1) start 1 ($"a") false 2 (Instance 7) (Field_ 7 2) /\
  holder shelf_module (fun _ => []) (fun _ => 1) start 1 ($"d") true 5 (Of (Class 1)) (Variable_ 5) /\
  (let program := [Assign (Instance 7) ($"a") 42%N; Assign (Instance 7) ($"a") 100%N; Assign (Instance 7) ($"b") 43%N; Assign (Instance 8) ($"c") 44%N; Assign (Of (Class 1)) ($"d") 45%N; Run (fun m => store m (Field_ 8 3) 46%N)] in
   kept (fun _ _ _ _ => None) (Field_ 7 2) program /\ kept (fun _ _ _ _ => None) (Variable_ 5) program /\
   map (fun l => wd_memory (run program) l) [Field_ 7 2; Field_ 8 2; Field_ 7 3; Field_ 8 3; Field_ 8 4; Variable_ 5] = [42; 2; 3; 46; 4; 45]%N /\
   map (fun t => read program (fst t) (snd t)) [(Instance 7, "a"); (Instance 8, "a"); (Instance 8, "b"); (Instance 8, "d"); (Of (Class 1), "d"); (Of (Mod []), "v")]%string =
     [Value 42; Value 2; Value 46; Value 45; Value 45; Value 6]%N).
Proof.
  split; [exact shelf_imports|]. split; [exact shelf_valid|]. split; [vm_compute; reflexivity|].
  split; [apply of_object; [|reflexivity]; exists [], []; split; [reflexivity|]; split; intros c; [intros []|intros _ v []]|].
  split; [apply of_class; [|reflexivity]; exists [], []; split; [reflexivity|]; split; intros c; [intros []|intros _ v []]|].
  split; [split; [|discriminate]; intros f Hf; cbn in Hf; do 5 (destruct Hf as [Hf|Hf]; [discriminate Hf|]); destruct Hf as [[= <-]|[]]; reflexivity|].
  split; [split; [|discriminate]; intros f Hf; cbn in Hf; do 5 (destruct Hf as [Hf|Hf]; [discriminate Hf|]); destruct Hf as [[= <-]|[]]; reflexivity|].
  split; vm_compute; reflexivity.
Qed.

(** Attributes of modules keep the value the variable had when the module was
    imported: changes by C++ code do not show up, and assignments are accepted
    though they do not change the variable. *)
Theorem attributes_have_the_value_of_variables_refuted : exists u w found implicit iteration n name b files st' m s p (wd : world N) k i f v,
  setting u w iteration /\ 0 < n /\ generate u w found implicit iteration n name = Some (RGraph b (EWritten files [] st')) /\ bs_reports b = [] /\
  run_module (fun _ => []) (fun _ _ p => Some p) (fun _ => false) held_by_default files m = Some (s, p) /\
  kind u i = KVar /\ x_const (w_extra w) i = false /\ valid_annotations (u_decls u i) /\ own p (Mod []) k = Some (MValue (SVariable k i)) /\ wd_set wd = [] /\
  let initial := fun i => wd_memory wd (Variable_ i) in
  let act := act p (fun _ => []) (fun _ => 0) (fun _ => false) (fun _ => Some) (fun _ _ _ _ => None) in
  let get wd := get_attr p (fun _ => []) (fun _ => 0) initial (fun _ _ _ => Some 0%N) wd (Of (Mod [])) k in
  get wd = Value (wd_memory wd (Variable_ i)) /\
  get (act wd (Run f)) <> Value (wd_memory (act wd (Run f)) (Variable_ i)) /\
  snd (set_attr p (fun _ => []) (fun _ => 0) (fun _ => false) (fun _ => Some) (fun _ _ _ _ => None) wd (Of (Mod [])) k v) = Accepted /\
  get (act wd (Assign (Of (Mod [])) k v)) <> Value (wd_memory (act wd (Assign (Of (Mod [])) k v)) (Variable_ i)).
Proof.
  destruct shelf_imports as (Se & (b & st' & G & B) & _ & (s & R)).
  exists shelf, shelf_facts, (fun _ => []), (fun _ => false), (@rev nat), 1, ($"m"), b, shelf_files, st', (module_of shelf_files), s, shelf_module, start, ($"v"), 6, (fun m => store m (Variable_ 6) 7%N), 8%N.
  split; [exact Se|]. split; [lia|]. split; [exact G|]. split; [exact B|]. split; [exact R|]. split; [reflexivity|]. split; [reflexivity|]. split; [apply shelf_valid|].
  split; [vm_compute; reflexivity|]. split; [reflexivity|]. split; [vm_compute; reflexivity|]. split; [vm_compute; discriminate|]. split; [vm_compute; reflexivity|]. vm_compute; discriminate.
Qed.
Print Assumptions attributes_have_the_value_of_variables_refuted.
