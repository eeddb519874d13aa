(** * Python expressions with operators *)
From Coq Require Import Sorting.Permutation.
From Verif Require Import Base ParserModel StringModel AnnotModel AnnotSpec AnnotProofs AnnotProps CollectModel CollectSpec GraphModel GraphSpec GraphWalk GraphPlace GraphProps
  OrderModel OrderSpec OrderProofs OrderProps InlineModel InlineSpec EmitModel EmitSpec EmitProps ModuleModel ModuleSpec ModuleProofs ModuleFinal ModuleProps ImportSpec ImportProofs ImportProps ExecSpec ExecProofs ExecProps AccessSpec AccessProofs AccessProps
  DispatchSpec DispatchProofs OperSpec OperProofs.

(** ** C93 *)

(** If an expression with two operands is evaluated by a generated operator, then
    by a visible C++ operator with the same symbol and the operands in order, or by
    the mirrored comparison, or, for [+=] and the like, by [+]; the operands can be
    passed as its parameters. *)
Theorem expressions_evaluate_cpp_operators :
  forall default_holder mro manual fails u w found implicit iteration n name b files rs st' m s p, setting u w iteration -> 0 < n ->
  generate u w found implicit iteration n name = Some (RGraph b (EWritten files rs st')) ->
  defines_nothing manual -> run_module mro manual fails default_holder files m = Some (s, p) ->
  (forall i, supports_operator (u_decls u i) = true -> consistent u (w_extra w) i) ->
  forall V (is_none : V -> bool) default pass rest class_of foreign k a c t bi,
  evaluate is_none default (by_type pass rest) (w_extra w) mro p class_of foreign k a c = Called t bi -> is_operator t = true ->
  exists r i k' types a' c', operator_of u w b name r i k' types /\ performed_as k a c k' a' c' /\ calls pass t bi i k' types [a'; c'].
Proof. exact @expressions_sound. Qed.
Print Assumptions expressions_evaluate_cpp_operators.

(** The same for a single operand. *)
Theorem unary_expressions_evaluate_cpp_operators :
  forall default_holder mro manual fails u w found implicit iteration n name b files rs st' m s p, setting u w iteration -> 0 < n ->
  generate u w found implicit iteration n name = Some (RGraph b (EWritten files rs st')) ->
  defines_nothing manual -> run_module mro manual fails default_holder files m = Some (s, p) ->
  (forall i, supports_operator (u_decls u i) = true -> consistent u (w_extra w) i) ->
  forall V (is_none : V -> bool) default pass rest class_of foreign k a t bi,
  evaluate_unary is_none default (by_type pass rest) (w_extra w) mro p class_of foreign k a = Called t bi -> is_operator t = true ->
  exists r i types, operator_of u w b name r i k types /\ calls pass t bi i k types [a].
Proof. exact @unary_sound. Qed.
Print Assumptions unary_expressions_evaluate_cpp_operators.

(** Conversely, expressions do not raise a TypeError if there is a visible operator
    the operands can be passed to, for the class of the left operand or, if the
    operands are of different classes, of the right one.
    Missing: as for C65, the code does not make sure that there are no clashes, or
    that other functions are not given the names of special methods; operators of
    bases are not considered for objects of derived classes, see below. *)
Theorem operators_are_reached_partial :
  forall default_holder mro manual fails u w found implicit iteration n name b files rs st', setting u w iteration -> nested_blocks u -> 0 < n ->
  generate u w found implicit iteration n name = Some (RGraph b (EWritten files rs st')) ->
  exists g vis order all chunks post, exposed u found implicit name g vis b /\
    generated u w g vis (bs_annotations b) name rs st' order all post /\ layout name post all chunks files /\
    let intros := map (fun e => (ex_id e, ex_intro e)) all in
    let m := IModule name intros (map (fun e => (ex_id e, ex_id e)) all) post in
    filter is_module (concat files) = [m] /\
    (NoDup (map fst intros) -> agreeing_blocks u (bs_annotations b) g -> distinct_names u (bs_annotations b) g -> usable_bases default_holder w intros ->
     exists cs, contributions u (bs_annotations b) g all cs /\
       (no_clashes mro u (bs_annotations b) g cs -> executable manual fails all post ->
        exists s p, run_module mro manual fails default_holder files m = Some (s, p) /\
          forall V is_none default pass rest class_of foreign r i k, In r (map ex_context all) -> only_operators p ->
            let evaluates k a c := returns_value (evaluate is_none default (by_type pass rest) (w_extra w) mro p class_of foreign k a c) in
            (forall ta tb (a c : V), operator_of u w b name r i k [ta; tb] -> pass ta true a = true -> pass tb true c = true ->
               suitable class_of r k ta a c -> evaluates k a c /\ forall k', updating k' = Some k -> evaluates k' a c) /\
            (forall ta (a : V), operator_of u w b name r i k [ta] -> (forall convert, pass ta convert a = true) -> class_of a = Some r -> method_for (Unary k) <> None ->
               returns_value (evaluate_unary is_none default (by_type pass rest) (w_extra w) mro p class_of foreign k a)))).
Proof. exact operators_reached. Qed.
Print Assumptions operators_are_reached_partial.

(** *** Examples *)

(** struct GENPYBIND(visible) Vec(1) { Vec operator+(2)(Vec o) const;  Vec operator-(3)() const; };
    struct GENPYBIND(visible) Row(4) : Vec {};
    Vec operator*(5)(int n, Vec v) GENPYBIND(visible);  bool operator<(6)(Vec l, Vec r) GENPYBIND(visible);  Row operator+(7)(Row r, int n) GENPYBIND(visible); *)
Definition an_operator (k : dkind) (params : list string) (texts : list string) : decl :=
  mkDecl k (map (fun t => lozenge ++ $t) texts) false (map (fun p => $p) params) (length params) false false false [] [] None false None.
Definition algebra : unit :=
  mkUnit
    (fun i => match i with
              | 0 => a_decl KOther false None []
              | 1 => a_decl KRecord false None ["visible"]%string
              | 2 => an_operator (KMethod OtherOperator) ["o"]%string []
              | 3 => an_operator (KMethod OtherOperator) [] []
              | 4 => a_class 1 "Vec"
              | 5 => an_operator (KFunction OtherOperator) ["n"; "v"]%string ["visible"]%string
              | 6 => an_operator (KFunction OtherOperator) ["l"; "r"]%string ["visible"]%string
              | _ => an_operator (KFunction OtherOperator) ["r"; "n"]%string ["visible"]%string
              end)
    [Node 1 [Node 2 []; Node 3 []]; Node 4 []; Node 5 []; Node 6 []; Node 7 []] 0
    (fun i => match i with 0 => [] | 2 | 3 => [1; 0] | _ => [0] end)
    (fun _ => true) (fun _ => false) (fun i => i) (fun _ => false)
    (fun i => match i with 1 => $"Vec" | 4 => $"Row" | _ => $"op" end) (fun _ => false) N.of_nat.
Definition algebra_fn (i : nat) : fn :=
  match i with
  | 2 => a_fn [a_param "o" (class_type 1)] (Some OPlus)
  | 3 => a_fn [] (Some OMinus)
  | 5 => a_fn [a_param "n" (plain_type 1); a_param "v" (class_type 1)] (Some OStar)
  | 6 => a_fn [a_param "l" (class_type 1); a_param "r" (class_type 1)] (Some OLess)
  | _ => a_fn [a_param "r" (class_type 4); a_param "n" (plain_type 1)] (Some OPlus)
  end.
Definition algebra_facts : facts :=
  mkFacts (mkExtra algebra_fn (fun _ => false) (fun _ => None) (fun _ => false) (fun _ => false) (fun _ => false) (fun _ => None)
      (fun _ k => match k with OStar => [5] | OLess => [6] | OPlus => [7] | _ => [] end))
    (derives 4 1) (fun i => a_member (is_tag_kind (kind algebra i))) (fun c => map (fun i => mkFound i None false) (match c with 0 => [1; 4] | 1 => [2; 3] | _ => [] end))
    (fun i => match i with 1 => $"::Vec" | _ => $"::Row" end) [] (pop_first algebra).

Lemma algebra_language : language algebra algebra_facts.
Proof.
  constructor.
  - intros r s. do 14 (destruct r as [|r]; [cbn; intuition (subst; cbn; lia)|]); intros [].
  - intros i H; exact H.
  - intros r k i H. destruct k; cbn in H; repeat destruct H as [<-|H]; try destruct H; reflexivity.
  - discriminate.
  - intros r s. do 14 (destruct r as [|r]; [cbn; intuition (subst; reflexivity)|]); intros [].
  - intros c p Hc. do 8 (destruct c as [|c]; [discriminate Hc|]). discriminate Hc.
Qed.
Lemma algebra_setting : setting algebra algebra_facts (@rev nat).
Proof. constructor; [placed_unit [1; 2; 3; 4; 5; 6; 7]|exact algebra_language|exists N.of_nat; exact (pop_first_good algebra)|intros l; apply Permutation_rev]. Qed.

Definition algebra_files : list (list item) := Eval vm_compute in files_of algebra algebra_facts (fun _ => []).
Definition algebra_module : pystate := Eval vm_compute in match imported (derived 4 1) algebra_files with Some (_, p) => p | None => mkPy [] [] end.
Definition algebra_entries : list entry := Eval vm_compute in
  map (fun x => match x with
                | (c, (i, IDefine id p body)) => mkEntry c id p (snd i) body
                | (c, _) => mkEntry c [] PModule (NAlias []) []
                end)
    (combine [0; 1; 4] (combine (module_intros (module_of algebra_files)) (definitions_of algebra_files))).
Definition algebra_statements : list (object * str * stmt) :=
  Eval vm_compute in flat_map (fun e => flat_map (fun s => match defines s with Some k => [(match ex_context e with 0 => Mod [] | r => Class r end, k, s)] | None => [] end) (ex_body e)) algebra_entries.

Lemma algebra_imports : setting algebra algebra_facts (@rev nat) /\
  (exists b st', generate algebra algebra_facts (fun _ => []) (fun _ => false) (@rev nat) 1 ($"m") = Some (RGraph b (EWritten algebra_files [] st')) /\ bs_reports b = []) /\
  exists s, run_module (derived 4 1) (fun _ _ p => Some p) (fun _ => false) held_by_default algebra_files (module_of algebra_files) = Some (s, algebra_module).
Proof. split; [exact algebra_setting|]. split; [apply written_inv; vm_compute; reflexivity|]. eexists. vm_compute. reflexivity. Qed.

Lemma algebra_consistent i : supports_operator (u_decls algebra i) = true -> consistent algebra (w_extra algebra_facts) i.
Proof.
  intros K. assert (H : forall k, fi_operator (algebra_fn i) = Some k -> k <> OCall -> d_params (u_decls algebra i) = map pm_name (fi_params (algebra_fn i)) ->
    (forall types r, operands algebra (w_extra algebra_facts) r i types -> length types = 1 \/ length types = 2) -> consistent algebra (w_extra algebra_facts) i).
  { intros k H1 H2 H3 H4. constructor; [exact H3|]. intros _. exists k. auto. }
  destruct i as [|[|[|[|[|[|[|i]]]]]]]; try discriminate K.
  all: eapply H; [reflexivity|discriminate|reflexivity|]; intros types r (ps & -> & [[Kf ->]|[Km ->]]); cbn; auto; discriminate.
Qed.

(** Objects in Python. *)
Inductive term := AVec | ARow | ANumber.
Definition class_of_term (v : term) : option nat := match v with AVec => Some 1 | ARow => Some 4 | ANumber => None end.
Definition pass_term (t : type) (convert : bool) (v : term) : bool :=
  match ty_core t, v with CRecord 1, AVec | CRecord 1, ARow | CRecord 4, ARow | COther 1, ANumber => true | _, _ => false end.
Notation in_algebra f := (f (fun _ => false) (fun _ _ => AVec) (by_type pass_term (fun _ _ _ _ => true)) (w_extra algebra_facts) (derived 4 1) algebra_module class_of_term (fun _ _ _ => false)).
Definition summary (r : py_result term) : option (nat * list term) :=
  match r with
  | Called (SOperator _ i l) bi => Some (i, map (fun n => nth (match n with Lhs => 0 | Rhs => 1 end) (bi_values bi) ANumber) (la_operands l))
  | _ => None
  end.
Definition value_of (k : opkind) (a c : term) : option (nat * list term) := summary (in_algebra (@evaluate term) k a c).

(** Which operator is called, with which operands: [vec + vec], [vec + row],
    [row + number], [number * vec]; [vec > row] is [row < vec]; [vec += row] is
    [vec = vec + row]; [-row].  There is no operator for [vec * number]. *)
Example expressions_evaluate_cpp_operators_example :
  map (fun x => value_of (fst (fst x)) (snd (fst x)) (snd x))
    [(OPlus, AVec, AVec); (OPlus, AVec, ARow); (OPlus, ARow, ANumber); (OStar, ANumber, AVec); (OGreater, AVec, ARow); (OPlusEqual, AVec, ARow); (OStar, AVec, ANumber)] =
    [Some (2, [AVec; AVec]); Some (2, [AVec; ARow]); Some (7, [ARow; ANumber]); Some (5, [ANumber; AVec]); Some (6, [ARow; AVec]); Some (2, [AVec; ARow]); None] /\
  in_algebra (@evaluate term) OStar AVec ANumber = NotImplemented /\ summary (in_algebra (@evaluate_unary term) OMinus ARow) = Some (3, [ARow]) /\
  defines_nothing (fun _ _ p => Some p).
Proof. split; [vm_compute; reflexivity|]. split; [vm_compute; reflexivity|]. split; [vm_compute; reflexivity|]. intros l o p p' [= <-] o' n m H. exact H. Qed.

Lemma algebra_operator b st' : generate algebra algebra_facts (fun _ => []) (fun _ => false) (@rev nat) 1 ($"m") = Some (RGraph b (EWritten algebra_files [] st')) ->
  operator_of algebra algebra_facts b ($"m") 1 5 OStar [plain_type 1; class_type 1] /\
  operator_of algebra algebra_facts b ($"m") 1 2 OPlus [mkType (CRecord 1) false true; class_type 1].
Proof.
  intros G. destruct algebra_imports as (Se & _ & s & R).
  assert (F : forall k a c i vs, value_of k a c = Some (i, vs) -> exists r k' types, operator_of algebra algebra_facts b ($"m") r i k' types).
  { intros k a c i vs E. unfold value_of, summary in E. destruct (in_algebra (@evaluate term) k a c) as [t bi| | |] eqn:Ev; try discriminate E.
    assert (Hop : is_operator t = true) by (destruct t; try discriminate E; reflexivity).
    destruct (expressions_evaluate_cpp_operators _ _ _ _ _ _ _ _ _ _ _ _ _ _ _ _ _ _ Se Nat.lt_0_1 G (fun l o p p' (H : Some p = Some p') => match H in _ = y return match y with Some q => forall o' n m, own q o' n = Some m -> own p o' n = Some m | None => True end with eq_refl => fun o' n m H => H end) R algebra_consistent
      _ _ _ _ _ _ _ _ _ _ _ _ Ev Hop) as (r & j & k' & types & a' & c' & Op & _ & (nn & l & -> & _)). injection E as <- _. eauto. }
  assert (N : forall r i k types, operator_of algebra algebra_facts b ($"m") r i k types -> i = 5 \/ i = 2 -> r = 1).
  { intros r i k types Op Hi. assert (K := op_class _ _ _ _ _ _ _ _ Op). destruct (op_declared _ _ _ _ _ _ _ _ Op) as (x & _ & Hin).
    destruct r as [|[|[|[|[|r]]]]]; try discriminate K; [reflexivity|exfalso|destruct r as [|[|r]]; discriminate K].
    vm_compute in Hin. destruct Hi as [-> | ->]; repeat destruct Hin as [Hin|Hin]; try discriminate Hin; destruct Hin. }
  split.
  - destruct (F OStar ANumber AVec 5 [ANumber; AVec]) as (r & k & types & Op); [vm_compute; reflexivity|]. assert (r = 1) as -> by (eapply N; eauto).
    assert (Ek := op_symbol _ _ _ _ _ _ _ _ Op). injection Ek as <-. destruct (op_operands _ _ _ _ _ _ _ _ Op) as (ps & -> & [[_ ->]|[K _]]); [exact Op|discriminate K].
  - destruct (F OPlus AVec AVec 2 [AVec; AVec]) as (r & k & types & Op); [vm_compute; reflexivity|]. assert (r = 1) as -> by (eapply N; eauto).
    assert (Ek := op_symbol _ _ _ _ _ _ _ _ Op). injection Ek as <-. destruct (op_operands _ _ _ _ _ _ _ _ Op) as (ps & -> & [[K _]|[_ ->]]); [discriminate K|exact Op].
Qed.

(** The premises are met, for [number * vec]. *)
Example operators_are_reached_example :
  nested_blocks algebra /\
  map (fun e => (ex_id e, ex_intro e)) algebra_entries = module_intros (module_of algebra_files) /\ map definition algebra_entries = definitions_of algebra_files /\
  NoDup (map fst (module_intros (module_of algebra_files))) /\ usable_bases held_by_default algebra_facts (module_intros (module_of algebra_files)) /\
  (forall g vis b, exposed algebra (fun _ => []) (fun _ => false) ($"m") g vis b -> agreeing_blocks algebra (bs_annotations b) g /\ distinct_names algebra (bs_annotations b) g /\
    contributions algebra (bs_annotations b) g algebra_entries algebra_statements /\ no_clashes (derived 4 1) algebra (bs_annotations b) g algebra_statements) /\
  executable (fun _ _ p => Some p) (fun _ => false) algebra_entries [] /\ only_operators algebra_module /\
  exists b st', generate algebra algebra_facts (fun _ => []) (fun _ => false) (@rev nat) 1 ($"m") = Some (RGraph b (EWritten algebra_files [] st')) /\
    operator_of algebra algebra_facts b ($"m") 1 5 OStar [plain_type 1; class_type 1] /\
    pass_term (plain_type 1) true ANumber = true /\ pass_term (class_type 1) true AVec = true /\ suitable class_of_term 1 OStar (plain_type 1) ANumber AVec.
Proof.
  split; [|split; [reflexivity|split; [reflexivity|split; [|split; [|split; [|split; [|split]]]]]]].
  - intros c d (Kc & _). exfalso. do 8 (destruct c as [|c]; [discriminate Kc|]). discriminate Kc.
  - vm_compute. repeat constructor; cbn; intuition congruence.
  - intros id t parent n d Ht base Hb. cbn in Ht. repeat destruct Ht as [Ht|Ht]; try contradiction; try discriminate Ht; injection Ht as <- <- <- <- <-; cbn in Hb; try contradiction.
    destruct Hb as [<-|[]]. split; [apply (via_direct _ _ 4 (mkSpec 1 true false)); [left; reflexivity|reflexivity]|].
    intros id' t' parent' n' d' Ht' _. cbn in Ht'. repeat destruct Ht' as [Ht'|Ht']; try contradiction; try discriminate Ht'; injection Ht' as <- <- <- <- <-; reflexivity.
  - intros g vis b X. split; [|split; [apply (distinct_given _ _ _ _ _ X); vm_compute; reflexivity|split; [|apply (no_clashes_given _ _ _ _ _ _ _ X); vm_compute; reflexivity]]].
    + intros c d _ _ (Kc & _). exfalso. do 8 (destruct c as [|c]; [discriminate Kc|]). discriminate Kc.
    + pose proof (edges_given _ _ _ _ _ X) as Eg. assert (E : forall c, In c [1; 4] -> edge g 0 c) by (unfold edge; rewrite Eg; vm_compute; intuition congruence).
      assert (E0 : forall p, ~ edge g p 0) by (unfold edge; rewrite Eg; vm_compute; intuition congruence). clear Eg.
      assert (Q : forall c, In c [1; 4] -> scope_object algebra (bs_annotations b) g c (Some (Mod []))).
      { intros c Hc. exists 0. split; [|exact (located_root algebra _ g)]. exists [], []. split; [apply path_step; [apply path_root|apply E, Hc]|]. split; [intros (K & _); discriminate K|intros ? []]. }
      change algebra_statements with ([] ++ firstn 4 algebra_statements ++ skipn 4 algebra_statements ++ []). unfold algebra_entries.
      apply (contributions_cons _ _ _ _ _ (Mod []) None); [exact (located_root algebra _ g)| | |].
      { intros p (l1 & l2 & Hp & _). inversion Hp as [Hp'|q c l Hp' Hq Hl]; [destruct l1; discriminate|exact (E0 _ Hq)]. }
      { repeat constructor; discriminate. }
      apply (contributions_cons _ _ _ _ _ (Class 1) (Some (Mod []))); [apply located_class; reflexivity|apply Q; cbn; auto|repeat first [apply con_nil|apply con_named; [reflexivity|]|apply con_other; [reflexivity|discriminate|discriminate|]]|].
      apply (contributions_cons _ _ _ _ _ (Class 4) (Some (Mod []))); [apply located_class; reflexivity|apply Q; cbn; auto| |apply contributions_nil].
      repeat first [apply con_nil|apply con_named; [reflexivity|]|apply con_other; [reflexivity|discriminate|discriminate|]].
  - split; [intros; reflexivity|intros; reflexivity].
  - intros r n form m Ho _. unfold own in Ho. destruct (find _ (p_members algebra_module)) as [e|] eqn:Ef; [|discriminate Ho]. injection Ho as <-.
    apply find_some in Ef as [He Hs]. cbn in He. repeat (destruct He as [<-|He]; [first [do 3 eexists; split; [reflexivity|]; intros t [<-|[]]; reflexivity|cbn in Hs; discriminate Hs]|]). destruct He.
  - destruct algebra_imports as (_ & (b & st' & G & _) & _). exists b, st'. split; [exact G|]. split; [apply (algebra_operator b st' G)|]. split; [reflexivity|]. split; [reflexivity|].
    right. split; [discriminate|]. split; [reflexivity|]. split; [right; reflexivity|]. vm_compute. discriminate.
Qed.

(** A visible operator of a base, which is called for [row + vec] in C++, is not
    found in Python if the derived class has other operators with the same symbol:
    a TypeError is raised. *)
Theorem operators_of_bases_are_reached_refuted :
  exists u w b files st' s p r d i k ta tb, setting u w (@rev nat) /\
    generate u w (fun _ => []) (fun _ => false) (@rev nat) 1 ($"m") = Some (RGraph b (EWritten files [] st')) /\ bs_reports b = [] /\
    run_module (derived d r) (fun _ _ p => Some p) (fun _ => false) held_by_default files (module_of files) = Some (s, p) /\ only_operators p /\
    exists V is_none default pass rest class_of foreign (a c : V),
      operator_of u w b ($"m") r i k [ta; tb] /\ pass ta false a = true /\ pass tb false c = true /\ class_of a = Some d /\ class_of c = Some r /\ In r (derived d r d) /\
      evaluate is_none default (by_type pass rest) (w_extra w) (derived d r) p class_of foreign k a c = NotImplemented.
Proof.
  destruct algebra_imports as (Se & (b & st' & G & B) & s & R).
  exists algebra, algebra_facts, b, algebra_files, st', s, algebra_module, 1, 4, 2, OPlus, (mkType (CRecord 1) false true), (class_type 1).
  split; [exact Se|]. split; [exact G|]. split; [exact B|]. split; [exact R|]. split; [apply operators_are_reached_example|].
  exists term, (fun _ => false), (fun _ _ => AVec), pass_term, (fun _ _ _ _ => true), class_of_term, (fun _ _ _ => false), ARow, AVec.
  split; [apply (algebra_operator b st' G)|]. repeat split; try reflexivity. now left.
Qed.
Print Assumptions operators_of_bases_are_reached_refuted.
