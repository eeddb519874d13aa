(** * The values of enumerations in Python *)
From Coq Require Import Sorting.Permutation ZArith.
From Verif Require Import Base ParserModel StringModel AnnotModel AnnotSpec CollectModel CollectSpec GraphModel GraphSpec GraphWalk GraphPlace GraphProps
  OrderModel OrderSpec OrderProofs OrderProps InlineModel InlineSpec EmitModel EmitSpec EmitProps ModuleModel ModuleSpec ModuleProofs ModuleFinal ModuleProps ImportSpec ImportProofs ImportProps ExecSpec ExecProps
  StoreSpec OptionSpec AccessSpec AccessProps DocSpec EnumSpec EnumProofs.

(** ** C99 *)

(** Values of enumerations compare equal as in C++, and are different if they cannot be
    compared there.  They are ordered as in C++ if one of the enumerations is
    annotated accordingly, and not ordered otherwise. *)
Theorem values_compare_as_in_cpp : forall u w found implicit iteration n name b files rs st', setting u w iteration -> 0 < n ->
  generate u w found implicit iteration n name = Some (RGraph b (EWritten files rs st')) ->
  forall nm intros calls post, In (IModule nm intros calls post) (concat files) -> independent u intros -> forall v v', available intros v -> available intros v' ->
  let scoped := x_scoped (w_extra w) in
  (forall op r, cpp_compare scoped op v v' = Some r -> equality op \/ said_arithmetic u v \/ said_arithmetic u v' -> compare intros scoped op v v' = Bool r) /\
  (cpp_compare scoped Equal v v' = None -> v <> PNone \/ v' <> PNone -> compare intros scoped Equal v v' = Bool false /\ compare intros scoped Different v v' = Bool true) /\
  (forall op, ~ equality op -> ~ said_arithmetic u v -> ~ said_arithmetic u v' -> is_member v \/ is_member v' -> compare intros scoped op v v' = TypeError).
Proof. exact module_comparisons. Qed.
Print Assumptions values_compare_as_in_cpp.

(** Equality is an equivalence relation and values that are equal have the same hash. *)
Theorem values_can_be_keys : forall intros scoped,
  (forall v, compare intros scoped Equal v v = Bool true) /\ (forall v v', compare intros scoped Equal v v' = Bool true -> compare intros scoped Equal v' v = Bool true) /\
  (forall v1 v2 v3, compare intros scoped Equal v1 v2 = Bool true -> compare intros scoped Equal v2 v3 = Bool true -> compare intros scoped Equal v1 v3 = Bool true) /\
  (forall v v', compare intros scoped Equal v v' = Bool true -> hashed v = hashed v').
Proof. exact equality_equivalence. Qed.
Print Assumptions values_can_be_keys.

(** Bitwise operators give the integers they give in C++ for annotated enumerations
    and fail for others. *)
Theorem bitwise_operators_as_annotated_partial : forall u w found implicit iteration n name b files rs st', setting u w iteration -> 0 < n ->
  generate u w found implicit iteration n name = Some (RGraph b (EWritten files rs st')) ->
  forall nm intros calls post, In (IModule nm intros calls post) (concat files) -> independent u intros -> forall v v', available intros v -> available intros v' ->
  let scoped := x_scoped (w_extra w) in
  (forall op r, bitwise op -> cpp_combine scoped op v v' = Some r -> said_arithmetic u v \/ said_arithmetic u v' -> combine_values intros scoped op v v' = Int r) /\
  (forall r, promoted scoped v = Some r -> said_arithmetic u v -> inverted intros scoped v = Int (Z.lnot r)) /\
  (~ said_arithmetic u v -> ~ said_arithmetic u v' -> is_member v \/ is_member v' -> forall op, combine_values intros scoped op v v' = TypeError) /\
  (~ said_arithmetic u v -> is_member v -> inverted intros scoped v = TypeError).
Proof. exact module_operators. Qed.
Print Assumptions bitwise_operators_as_annotated_partial.

(** The name of a value is the one of the first visible enumerator that has it. *)
Theorem values_have_their_names : forall u w found implicit iteration n name b files rs st', setting u w iteration -> 0 < n ->
  generate u w found implicit iteration n name = Some (RGraph b (EWritten files rs st')) ->
  forall default_holder mro manual fails m s p, In m (concat files) -> run_module mro manual fails default_holder files m = Some (s, p) -> leaves_values manual -> proper_enumerators u w ->
  exists g vis, exposed u found implicit name g vis b /\ forall e, In e (g_nodes g) -> kind u e = KEnum -> forall constant z,
    names_value u w b name constant e z (name_shown p constant e z) \/ (unnamed_value u w b name constant e z /\ name_shown p constant e z = $"???").
Proof. exact module_names. Qed.
Print Assumptions values_have_their_names.

(** ** Example *)

(** enum GENPYBIND(arithmetic) Access(1) { Read(2) = 4, Write(3) = 2 };
    enum class GENPYBIND(arithmetic) Level(4) { Low(5) = 1, High(6) = 2, Top(7) = 2, Secret(8) GENPYBIND(hidden) = 3 };
    enum GENPYBIND(arithmetic, arithmetic(false)) Plain(9) { One(10) = 1 }; *)
Definition modes : unit :=
  mkUnit
    (fun i => match i with
              | 1 | 4 => a_decl KEnum false None ["arithmetic"]%string
              | 8 => a_decl KOther false None ["hidden"]%string
              | 9 => a_decl KEnum false None ["arithmetic, arithmetic(false)"]%string
              | _ => a_decl KOther false None []
              end)
    [Node 1 [Node 2 []; Node 3 []]; Node 4 [Node 5 []; Node 6 []; Node 7 []; Node 8 []]; Node 9 [Node 10 []]] 0
    (fun i => match i with 0 => [] | 2 | 3 => [1; 0] | 5 | 6 | 7 | 8 => [4; 0] | 10 => [9; 0] | _ => [0] end)
    (fun _ => true) (fun _ => false) (fun i => i) (fun _ => false)
    (fun i => match i with 1 => $"Access" | 2 => $"Read" | 3 => $"Write" | 4 => $"Level" | 5 => $"Low" | 6 => $"High" | 7 => $"Top" | 8 => $"Secret" | 9 => $"Plain" | _ => $"One" end) (fun _ => false) N.of_nat.
Definition modes_found (c : nat) : list nat := match c with 0 => [1; 4; 9] | 1 => [2; 3] | 4 => [5; 6; 7; 8] | 9 => [10] | _ => [] end.
Definition modes_facts : facts :=
  mkFacts (mkExtra (fun i => a_fn (map (fun n => mkParam n (plain_type 0) None None) (d_params (u_decls modes i))) None) (fun _ => false) (fun _ => None)
      (fun i => match kind modes i with KOther => true | _ => false end) (fun e => Nat.eqb e 4) (fun _ => false) (fun _ => None) (fun _ _ => []))
    no_bases (fun i => a_member (is_tag_kind (kind modes i))) (fun c => map (fun i => mkFound i None false) (modes_found c))
    (fun i => match i with 1 => $"::Access" | 4 => $"::Level" | _ => $"::Plain" end) [] (pop_first modes).

Lemma modes_setting : setting modes modes_facts (@rev nat).
Proof. constructor; [placed_unit [1; 2; 3; 4; 5; 6; 7; 8; 9; 10]|language_facts|exists N.of_nat; exact (pop_first_good modes)|intros l; apply Permutation_rev]. Qed.

Definition modes_files : list (list item) := Eval vm_compute in files_of modes modes_facts modes_found.
Definition modes_intros : list (str * introducer) := Eval vm_compute in module_intros (module_of modes_files).
Definition modes_value (i : nat) : Z := match i with 2 => 4%Z | 3 | 6 | 7 => 2%Z | 5 | 10 => 1%Z | _ => 3%Z end.
Definition modes_scoped : nat -> bool := x_scoped (w_extra modes_facts).


Lemma modes_said e z : e = 1 \/ e = 4 -> said_arithmetic modes (PMember e z).
Proof.
  intros H. exists [mkAnnotation Arithmetic []]. split; [destruct H as [->| ->]; apply AnnotFinal.carried_one; vm_compute; reflexivity|].
  right. exists [], (mkAnnotation Arithmetic []), []. split; [reflexivity|]. split; [reflexivity|intros an []].
Qed.

Lemma modes_unsaid z : ~ said_arithmetic modes (PMember 9 z).
Proof.
  intros (ans & Ca & La). assert (Cb : carried (d_attrs (u_decls modes 9)) [mkAnnotation Arithmetic []; mkAnnotation Arithmetic [LBool false]] false) by (apply AnnotFinal.carried_one; vm_compute; reflexivity).
  destruct (AnnotFinal.carried_unique2 _ _ _ _ _ Ca Cb) as [-> _].
  assert (Lb : latest (flag_of Arithmetic) [mkAnnotation Arithmetic []; mkAnnotation Arithmetic [LBool false]] false false).
  { right. exists [mkAnnotation Arithmetic []], (mkAnnotation Arithmetic [LBool false]), []. split; [reflexivity|]. split; [reflexivity|intros an []]. }
  discriminate (AnnotFinal.latest_unique _ _ _ _ _ La Lb).
Qed.

Definition read := PMember 1 (modes_value 2).
Definition write := PMember 1 (modes_value 3).
Definition low := PMember 4 (modes_value 5).
Definition high := PMember 4 (modes_value 6).
Definition one := PMember 9 (modes_value 10).

Lemma modes_available : forall v, In v [read; write; low; high; one; PInt 2%Z; PNone] -> available modes_intros v.
Proof.
  intros v H. repeat destruct H as [<-|H]; try destruct H; try exact I; do 4 eexists; [right; left|right; left|do 2 right; left|do 2 right; left|do 3 right; left]; reflexivity.
Qed.

Lemma modes_generated : exists b st', generate modes modes_facts modes_found (fun _ => false) (@rev nat) 1 ($"m") = Some (RGraph b (EWritten modes_files [] st')) /\ bs_reports b = [].
Proof. apply written_inv. vm_compute. reflexivity. Qed.

Lemma modes_block : exists nm calls post, In (IModule nm modes_intros calls post) (concat modes_files).
Proof. do 3 eexists. vm_compute. do 4 right. left. reflexivity. Qed.

Example values_compare_as_in_cpp_example :
  setting modes modes_facts (@rev nat) /\ (exists b st', generate modes modes_facts modes_found (fun _ => false) (@rev nat) 1 ($"m") = Some (RGraph b (EWritten modes_files [] st')) /\ bs_reports b = []) /\
  (exists nm calls post, In (IModule nm modes_intros calls post) (concat modes_files)) /\ independent modes modes_intros /\
  (forall v, In v [read; write; low; high; one; PInt 2%Z; PNone] -> available modes_intros v) /\
  said_arithmetic modes read /\ said_arithmetic modes low /\ ~ said_arithmetic modes one /\ leaves_values (fun _ _ p => Some p) /\ proper_enumerators modes modes_facts /\
  (let cmp := compare modes_intros modes_scoped in let bit := combine_values modes_intros modes_scoped in
   cmp Equal write (PInt 2%Z) = Bool true /\ cmp Equal (PInt 2%Z) write = Bool true /\ cmp Equal high (PInt 2%Z) = Bool false /\ cmp Less low high = Bool true /\ cmp Less low (PInt 2%Z) = TypeError /\
   cmp Less one one = TypeError /\ cmp Less one read = Bool true /\ cmp Different one PNone = Bool true /\ bit BitOr read write = Int 6%Z /\ bit BitAnd (PInt 6%Z) read = Int 4%Z /\ bit BitOr one one = TypeError /\
   inverted modes_intros modes_scoped write = Int (-3)%Z) /\
  exists s p, imported (fun _ => []) modes_files = Some (s, p) /\ own p (Enum 4) ($"Top") = Some (MValue (SValue ($"Top") 7)) /\
    name_shown p modes_value 4 (modes_value 7) = $"High" /\ name_shown p modes_value 4 (modes_value 8) = $"???".
Proof.
  split; [exact modes_setting|]. split; [exact modes_generated|]. split; [exact modes_block|]. split.
  { intros id i H. cbn in H. repeat match type of H with _ \/ _ => destruct H as [H|H] end; try contradiction; injection H as <- <-; cbn; auto. }
  split; [exact modes_available|]. split; [apply modes_said; auto|]. split; [apply modes_said; auto|]. split; [apply modes_unsaid|].
  split; [intros l o p p' [= <-] e; reflexivity|]. split.
  { intros i H. split; [|split; [reflexivity|discriminate]]. unfold modes_facts in H. cbn in H. unfold kind in *. destruct (d_kind (u_decls modes i)) eqn:K; cbn in H |- *; try reflexivity; discriminate H. }
  split; [repeat split; vm_compute; reflexivity|]. do 2 eexists. split; [vm_compute; reflexivity|]. repeat split; vm_compute; reflexivity.
Qed.

(** Annotated enumerations do not have all arithmetic operations: the integers can be
    added in C++, but not in Python, and there are no bitwise operators for scoped
    ones. *)
Theorem arithmetic_operators_refuted : exists u w found implicit iteration n name b files rs st' nm intros calls post v v' r z,
  setting u w iteration /\ 0 < n /\ generate u w found implicit iteration n name = Some (RGraph b (EWritten files rs st')) /\ In (IModule nm intros calls post) (concat files) /\
  available intros v /\ available intros v' /\ said_arithmetic u v /\ said_arithmetic u v' /\
  let scoped := x_scoped (w_extra w) in
  cpp_combine scoped Plus v v = Some r /\ combine_values intros scoped Plus v v = TypeError /\
  as_int v' = Some z /\ forall op, combine_values intros scoped op v' v' = TypeError.
Proof.
  destruct modes_generated as (b & st' & HG & _). destruct modes_block as (nm & calls & post & Hm).
  exists modes, modes_facts, modes_found, (fun _ => false), (@rev nat), 1, ($"m"), b, modes_files, [], st', nm, modes_intros, calls, post, read, low, 8%Z, 1%Z.
  split; [exact modes_setting|]. split; [lia|]. split; [exact HG|]. split; [exact Hm|]. split; [apply modes_available; cbn; auto|]. split; [apply modes_available; cbn; auto|].
  split; [apply modes_said; auto|]. split; [apply modes_said; auto|]. repeat split. intros op. destruct op; vm_compute; reflexivity.
Qed.
Print Assumptions arithmetic_operators_refuted.

(** Values that cannot be compared in C++ may nevertheless be ordered in Python, in one
    direction. *)
Theorem unrelated_values_are_not_ordered_refuted : exists u w found implicit iteration n name b files rs st' nm intros calls post v v',
  setting u w iteration /\ 0 < n /\ generate u w found implicit iteration n name = Some (RGraph b (EWritten files rs st')) /\ In (IModule nm intros calls post) (concat files) /\
  available intros v /\ available intros v' /\
  let scoped := x_scoped (w_extra w) in
  cpp_compare scoped Less v v' = None /\ compare intros scoped Less v v' = Bool false /\ cpp_compare scoped Greater v' v = None /\ compare intros scoped Greater v' v = TypeError.
Proof.
  destruct modes_generated as (b & st' & HG & _). destruct modes_block as (nm & calls & post & Hm).
  exists modes, modes_facts, modes_found, (fun _ => false), (@rev nat), 1, ($"m"), b, modes_files, [], st', nm, modes_intros, calls, post, read, low.
  split; [exact modes_setting|]. split; [lia|]. split; [exact HG|]. split; [exact Hm|]. split; [apply modes_available; cbn; auto|]. split; [apply modes_available; cbn; auto|]. repeat split.
Qed.
Print Assumptions unrelated_values_are_not_ordered_refuted.
