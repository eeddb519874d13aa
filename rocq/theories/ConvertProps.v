(** * Implicit conversions at run time *)
From Coq Require Import Sorting.Permutation.
From Verif Require Import Base ParserModel StringModel AnnotModel AnnotSpec AnnotProofs CollectModel CollectSpec GraphModel GraphSpec GraphWalk GraphPlace GraphProps
  OrderModel OrderSpec OrderProofs OrderProps InlineModel InlineSpec EmitModel EmitSpec EmitProps ModuleModel ModuleSpec ModuleProofs ModuleFinal ModuleProps ImportSpec ImportProofs ImportProps ExecSpec ExecProofs ExecProps AccessSpec AccessProofs AccessProps
  InvalidSpec InvalidProofs DispatchSpec DispatchProofs ConvertSpec ConvertProofs.

(** ** C91 *)

(** Values that are not objects of a class are only taken for it, where conversions
    are allowed, if a visible constructor that is annotated with
    [implicit_conversion] takes them as they are; whatever has been executed before. *)
Theorem only_annotated_conversions :
  forall u w found implicit iteration n name b files rs st', setting u w iteration -> 0 < n ->
  generate u w found implicit iteration n name = Some (RGraph b (EWritten files rs st')) ->
  (forall r, In r rs -> is_error_ereport r = false) -> (forall i, kind u i = KConstructor -> consistent u (w_extra w) i) ->
  forall V is_none default mro class_of other nested receiver elsewhere self p m t c r (v : V), ty_core t = CRecord r ->
  load is_none default mro class_of other nested receiver elsewhere self p (w_extra w) (executed files m) t c v = true ->
  instance mro class_of r v = true \/ (c = true /\ convertible_to u w b name mro class_of other r v).
Proof. exact conversions_annotated. Qed.
Print Assumptions only_annotated_conversions.

(** In calls, arguments for parameters of such types are objects of the class or
    converted by annotated constructors; objects of the class for parameters with
    [noconvert]. *)
Theorem arguments_are_converted_as_annotated :
  forall default_holder mro manual fails u w found implicit iteration n name b files rs st' m s p, setting u w iteration -> 0 < n ->
  generate u w found implicit iteration n name = Some (RGraph b (EWritten files rs st')) ->
  (forall r, In r rs -> is_error_ereport r = false) -> (forall i, kind u i = KConstructor -> consistent u (w_extra w) i) ->
  adds_nothing manual -> run_module mro manual fails default_holder files m = Some (s, p) ->
  forall V is_none default class_of other nested receiver elsewhere self o k static l t f ans (pos : list V) kw bi convert,
  own p o k = Some (MFunction static l) -> In t l -> function_of t = Some f ->
  consistent u (w_extra w) f -> valid_annotations (u_decls u f) -> carried (d_attrs (u_decls u f)) ans false -> variadic_last (fi_params (x_fn (w_extra w) f)) ->
  suits is_none default (takes receiver elsewhere (w_extra w) (load is_none default mro class_of other nested receiver elsewhere self p (w_extra w) (executed files m)) o)
    (w_extra w) o convert pos kw t bi ->
  exists before, (takes_self u o f <-> before = 1) /\ (~ takes_self u o f <-> before = 0) /\
    forall j q r, nth_error (filter is_ordinary (fi_params (x_fn (w_extra w) f))) j = Some q -> ty_core (pm_type q) = CRecord r ->
      exists v, nth_error (bi_values bi) (before + j) = Some v /\ source pos kw (before + j) q (default f j) v /\
        convertible_to u w b name mro class_of other r v /\
        (convert = false \/ (own_name (fi_params (x_fn (w_extra w) f)) j q /\ named_by Noconvert ans (pm_name q)) -> instance mro class_of r v = true).
Proof. exact arguments_taken. Qed.
Print Assumptions arguments_are_converted_as_annotated.

(** Conversely, values taken by annotated constructors are converted: by the first
    constructor that takes them as they are.
    Missing: as for C65, the code does not make sure that there are no clashes; which
    constructor is used is up to pybind11, see below. *)
Theorem annotated_constructors_convert_partial :
  forall default_holder mro manual fails u w found implicit iteration n name b files rs st', setting u w iteration -> nested_blocks u -> 0 < n ->
  generate u w found implicit iteration n name = Some (RGraph b (EWritten files rs st')) ->
  (forall r, In r rs -> is_error_ereport r = false) -> (forall i, kind u i = KConstructor -> consistent u (w_extra w) i) ->
  exists g vis order all chunks post, exposed u found implicit name g vis b /\
    generated u w g vis (bs_annotations b) name rs st' order all post /\ layout name post all chunks files /\
    let intros := map (fun e => (ex_id e, ex_intro e)) all in
    let m := IModule name intros (map (fun e => (ex_id e, ex_id e)) all) post in
    filter is_module (concat files) = [m] /\
    (NoDup (map fst intros) -> agreeing_blocks u (bs_annotations b) g -> distinct_names u (bs_annotations b) g -> usable_bases default_holder w intros ->
     exists cs, contributions u (bs_annotations b) g all cs /\
       (no_clashes mro u (bs_annotations b) g cs -> executable manual fails all post ->
        exists s p, run_module mro manual fails default_holder files m = Some (s, p) /\
          forall V is_none default class_of other nested receiver elsewhere self r i q (v : V), is_none self = false -> is_none v = false ->
            In r (map ex_context all) -> converting u w b name r i q -> is_ordinary q = true -> direct mro class_of other (pm_type q) v = true ->
            let accepts := takes receiver elsewhere (w_extra w) (inner mro class_of other nested) (Class r) in
            (forall t, ty_core t = CRecord r -> load is_none default mro class_of other nested receiver elsewhere self p (w_extra w) (executed files m) t true v = true) /\
            exists static l t bi before after, own p (Class r) ($"__init__") = Some (MFunction static l) /\ l = before ++ t :: after /\
              (exists types args a, In (SInit i types args a) l) /\
              constructs is_none default mro class_of other nested receiver elsewhere self p (w_extra w) r v = Some (t, bi) /\
              ((forall t', In t' l -> distinct_formals (formals default (Class r) t')) ->
               suits is_none default accepts (w_extra w) (Class r) false [self; v] [] t bi /\
               forall t' c, In t' before -> ~ suits is_none default accepts (w_extra w) (Class r) false [self; v] [] t' c))).
Proof. exact annotated_converts. Qed.
Print Assumptions annotated_constructors_convert_partial.

(** *** Examples *)

(** struct GENPYBIND(visible) Coin(1) {};  struct GENPYBIND(visible) Gold(2) : Coin {};
    struct GENPYBIND(visible) Price(3) {
      Price(4)(Coin c);  Price(5)(Gold g) GENPYBIND(implicit_conversion);  explicit Price(6)(int n) GENPYBIND(implicit_conversion);
    };
    void pay(7)(Price price) GENPYBIND(visible);  void settle(8)(Price price) GENPYBIND(noconvert(price)); *)
Definition taking (k : dkind) (a : list string) (p : string) : decl := mkDecl k (map (fun t => lozenge ++ $t) a) false [$p] 1 true false true [] [] None false None.
Definition mint : unit :=
  mkUnit
    (fun i => match i with
              | 0 => a_decl KOther false None []
              | 1 | 3 => a_decl KRecord false None ["visible"]%string
              | 2 => a_class 1 "Coin"
              | 4 => taking KConstructor [] "c"
              | 5 => taking KConstructor ["implicit_conversion"]%string "g"
              | 6 => taking KConstructor ["implicit_conversion"]%string "n"
              | 7 => taking (KFunction NoOperator) ["visible"]%string "price"
              | _ => taking (KFunction NoOperator) ["noconvert(price)"]%string "price"
              end)
    [Node 1 []; Node 2 []; Node 3 [Node 4 []; Node 5 []; Node 6 []]; Node 7 []; Node 8 []] 0
    (fun i => match i with 0 => [] | 4 | 5 | 6 => [3; 0] | _ => [0] end)
    (fun _ => true) (fun _ => false) (fun i => i) (fun _ => false)
    (fun i => match i with 1 => $"Coin" | 2 => $"Gold" | 7 => $"pay" | 8 => $"settle" | _ => $"Price" end) (fun _ => false) N.of_nat.
Definition mint_fn (i : nat) : fn :=
  match i with
  | 4 => a_fn [a_param "c" (class_type 1)] None
  | 5 => a_fn [a_param "g" (class_type 2)] None
  | 6 => a_fn [a_param "n" (plain_type 1)] None
  | _ => a_fn (map (fun n => mkParam n (class_type 3) None None) (d_params (u_decls mint i))) None
  end.
Definition mint_facts : facts :=
  mkFacts (mkExtra mint_fn (fun _ => false) (fun _ => None) (fun _ => false) (fun _ => false) (fun _ => false) (fun _ => None) (fun _ _ => []))
    (derives 2 1) (fun i => a_member (is_tag_kind (kind mint i))) (fun c => map (fun i => mkFound i None false) (match c with 0 => [1; 2; 3; 7; 8] | 3 => [4; 5; 6] | _ => [] end))
    (fun i => match i with 1 => $"::Coin" | 2 => $"::Gold" | _ => $"::Price" end) [] (pop_first mint).

Lemma mint_setting : setting mint mint_facts (@rev nat).
Proof. constructor; [placed_unit [1; 2; 3; 4; 5; 6; 7; 8]|language_facts|exists N.of_nat; exact (pop_first_good mint)|intros l; apply Permutation_rev]. Qed.

Definition mint_files : list (list item) := Eval vm_compute in files_of mint mint_facts (fun _ => []).
Definition mint_module : pystate := Eval vm_compute in match imported (derived 2 1) mint_files with Some (_, p) => p | None => mkPy [] [] end.
Definition mint_entries : list entry := Eval vm_compute in
  map (fun x => match x with
                | (c, (i, IDefine id p body)) => mkEntry c id p (snd i) body
                | (c, _) => mkEntry c [] PModule (NAlias []) []
                end)
    (combine [0; 1; 2; 3] (combine (module_intros (module_of mint_files)) (definitions_of mint_files))).
Definition mint_statements : list (object * str * stmt) :=
  Eval vm_compute in flat_map (fun e => flat_map (fun s => match defines s with Some k => [(match ex_context e with 0 => Mod [] | r => Class r end, k, s)] | None => [] end) (ex_body e)) mint_entries.

(** Objects in Python. *)
Inductive money := Nothing | ACoin | AGold | APrice | AnInt | Text.
Definition is_nothing (v : money) : bool := match v with Nothing => true | _ => false end.
Definition class_of_money (v : money) : option nat := match v with ACoin => Some 1 | AGold => Some 2 | APrice => Some 3 | _ => None end.
Definition is_int (n : nat) (v : money) : bool := match n, v with 1, AnInt => true | _, _ => false end.
Notation in_mint f := (f is_nothing (fun _ _ => APrice) (derived 2 1) class_of_money is_int (fun _ _ => false) (fun _ _ => true) (fun _ _ _ _ => true) APrice mint_module (w_extra mint_facts)).
Definition mint_load (c : bool) (v : money) : bool := in_mint (@load money) (executed mint_files (module_of mint_files)) (class_type 3) c v.
Definition mint_constructs (v : money) : option (stmt * binding money) := in_mint (@constructs money) 3 v.
Definition mint_call (k : string) (v : money) : option (option nat * list money) :=
  match own mint_module (Mod []) ($k) with
  | Some (MFunction _ l) =>
      option_map (fun r => (function_of (fst r), bi_values (snd r)))
        (dispatch is_nothing (fun _ _ => APrice) (takes (fun _ _ => true) (fun _ _ _ _ => true) (w_extra mint_facts) (in_mint (@load money) (executed mint_files (module_of mint_files))) (Mod [])) (w_extra mint_facts) (Mod []) l [v] [])
  | _ => None
  end.

Lemma mint_imports : setting mint mint_facts (@rev nat) /\
  (exists b st', generate mint mint_facts (fun _ => []) (fun _ => false) (@rev nat) 1 ($"m") = Some (RGraph b (EWritten mint_files [] st')) /\ bs_reports b = []) /\
  exists s, run_module (derived 2 1) (fun _ _ p => Some p) (fun _ => false) held_by_default mint_files (module_of mint_files) = Some (s, mint_module).
Proof. split; [exact mint_setting|]. split; [apply written_inv; vm_compute; reflexivity|]. eexists. vm_compute. reflexivity. Qed.

Lemma mint_consistent i : kind mint i = KConstructor -> consistent mint (w_extra mint_facts) i.
Proof. intros K. do 9 (destruct i as [|i]; [first [discriminate K|constructor; [reflexivity|discriminate]]|]). discriminate K. Qed.

(** Which values can be passed as Price. *)
Example only_annotated_conversions_example :
  map (mint_load true) [Nothing; ACoin; AGold; APrice; AnInt; Text] = [false; false; true; true; true; false] /\
  map (mint_load false) [Nothing; ACoin; AGold; APrice; AnInt; Text] = [false; false; false; true; false; false] /\
  map (fun v => option_map (fun r => function_of (fst r)) (mint_constructs v)) [ACoin; AGold; AnInt; Text] = [Some (Some 4); Some (Some 4); Some (Some 6); None] /\
  map (mint_call "pay") [ACoin; AGold; APrice; AnInt] = [None; Some (Some 7, [AGold]); Some (Some 7, [APrice]); Some (Some 7, [AnInt])] /\
  map (mint_call "settle") [ACoin; AGold; APrice; AnInt] = [None; None; Some (Some 8, [APrice]); None].
Proof. repeat split; vm_compute; reflexivity. Qed.

Lemma mint_converting b st' i q v : generate mint mint_facts (fun _ => []) (fun _ => false) (@rev nat) 1 ($"m") = Some (RGraph b (EWritten mint_files [] st')) ->
  (v = AGold /\ i = 5 /\ q = a_param "g" (class_type 2)) \/ (v = AnInt /\ i = 6 /\ q = a_param "n" (plain_type 1)) ->
  converting mint mint_facts b ($"m") 3 i q /\ forall i' q', converting mint mint_facts b ($"m") 3 i' q' -> direct (derived 2 1) class_of_money is_int (pm_type q') v = true -> i' = i.
Proof.
  intros G Hv.
  assert (O : forall i' q', converting mint mint_facts b ($"m") 3 i' q' -> direct (derived 2 1) class_of_money is_int (pm_type q') v = true -> i' = i /\ q' = q).
  { intros i' q' [_ K _ _ Sa _ Hp] Hd. assert (N4 : ~ said_implicit mint 4 true).
    { intros (ans & Ca & L). assert (E : ans = []) by (inversion Ca; reflexivity). subst ans. destruct L as [[E _]|(l1 & an & l2 & E & _)]; [discriminate E|destruct l1; discriminate E]. }
    do 4 (destruct i' as [|i']; [discriminate K|]). destruct i' as [|i']; [contradiction|].
    destruct i' as [|i']; [cbn in Hp; injection Hp as <-; destruct Hv as [(-> & -> & ->)|(-> & -> & ->)]; [auto|discriminate Hd]|].
    destruct i' as [|i']; [cbn in Hp; injection Hp as <-; destruct Hv as [(-> & -> & ->)|(-> & -> & ->)]; [discriminate Hd|auto]|].
    do 3 (destruct i' as [|i']; [discriminate K|]). discriminate K. }
  split; [|intros i' q' C D; apply (O i' q' C D)].
  assert (L : in_mint (@load money) (executed mint_files (module_of mint_files)) (class_type 3) true v = true) by (destruct Hv as [(-> & _)|(-> & _)]; vm_compute; reflexivity).
  destruct (only_annotated_conversions _ _ _ _ _ _ _ _ _ _ _ mint_setting Nat.lt_0_1 G (fun r (H : In r []) => match H with end) mint_consistent _ _ _ _ _ _ _ _ _ _ _ _ (class_type 3) _ 3 _ eq_refl L) as [I|(_ & [I|(i' & q' & C & D)])].
  - destruct Hv as [(-> & _)|(-> & _)]; discriminate I.
  - destruct Hv as [(-> & _)|(-> & _)]; discriminate I.
  - destruct (O i' q' C D) as [<- <-]. exact C.
Qed.

Lemma mint_distinct o t : (exists k static l, own mint_module o k = Some (MFunction static l) /\ In t l /\ (o, k) = (Mod [], $"settle")) -> distinct_formals (formals (fun _ _ => APrice) o t).
Proof.
  intros (k & static & l & Ho & Ht & [= -> ->]) i j f h nm Hi Hj Hf Hh Hn. vm_compute in Ho. injection Ho as <- <-. destruct Ht as [<-|[]].
  destruct i as [|[|i]], j as [|[|j]]; try discriminate Hi; try discriminate Hj; reflexivity.
Qed.

(** settle(price) *)
Example arguments_are_converted_as_annotated_example :
  exists t bi static l ans, own mint_module (Mod []) ($"settle") = Some (MFunction static l) /\ In t l /\ function_of t = Some 8 /\
    consistent mint (w_extra mint_facts) 8 /\ valid_annotations (u_decls mint 8) /\ carried (d_attrs (u_decls mint 8)) ans false /\ named_by Noconvert ans ($"price") /\
    variadic_last (fi_params (mint_fn 8)) /\ own_name (fi_params (mint_fn 8)) 0 (a_param "price" (class_type 3)) /\ adds_nothing (fun _ _ p => Some p) /\
    suits is_nothing (fun _ _ => APrice) (takes (fun _ _ => true) (fun _ _ _ _ => true) (w_extra mint_facts) (in_mint (@load money) (executed mint_files (module_of mint_files))) (Mod []))
      (w_extra mint_facts) (Mod []) true [APrice] [] t bi.
Proof.
  assert (Va : valid_annotations (u_decls mint 8)).
  { destruct (insert (u_decls mint) 8 []) as [[st ds]|] eqn:E; [|vm_compute in E; discriminate E]. destruct (valid_dec mint 8 st ds E eq_refl) as [H|(d & Hd & _)]; [exact H|].
    assert (ds = []) by (assert (E' : Some (st, ds) = insert (u_decls mint) 8 []) by (symmetry; exact E); vm_compute in E'; injection E' as _ ->; reflexivity). subst ds. destruct Hd. }
  assert (Ca := proj2 Va). destruct Ca as (ans & Ca & _).
  assert (Ho : exists static t, own mint_module (Mod []) ($"settle") = Some (MFunction static [t]) /\ function_of t = Some 8 /\
    exists bi, try is_nothing (fun _ _ => APrice) (takes (fun _ _ => true) (fun _ _ _ _ => true) (w_extra mint_facts) (in_mint (@load money) (executed mint_files (module_of mint_files))) (Mod []))
      (w_extra mint_facts) (Mod []) true [APrice] [] t = Some (t, bi)).
  { do 2 eexists. split; [reflexivity|]. split; [reflexivity|]. eexists. vm_compute. reflexivity. }
  destruct Ho as (static & t & Ho & Hf & bi & Ht). exists t, bi, static, [t], ans. split; [exact Ho|]. split; [now left|]. split; [exact Hf|].
  split; [constructor; [reflexivity|discriminate]|]. split; [exact Va|]. split; [exact Ca|]. split.
  { destruct (attributes_of mint 8) as [a|] eqn:Ea; [|vm_compute in Ea; discriminate Ea]. assert (Oa := attributes_own _ _ _ Ea).
    destruct (FindProofs.valid_described mint 8 a Oa Va eq_refl) as (ans' & v & Ca' & De & _). destruct (AnnotFinal.carried_unique2 _ _ _ _ _ Ca Ca') as [<- _].
    assert (I : In 0 (fn_noconvert (at_function a))) by (vm_compute in Ea; injection Ea as <-; now left).
    apply (de_noconvert _ _ _ _ De) in I as (nm & Hn & Hi & _). injection Hi as <-. exact Hn. }
  split; [exists (fi_params (mint_fn 8)), []; split; [reflexivity|]; split; [intros q [<-|[]]; reflexivity|]; split; [intros q []|auto]|].
  split; [intros [|j] q Hj _; [reflexivity|destruct j; discriminate Hj]|]. split; [intros l o p p' E t' Ht'; injection E as <-; exact Ht'|].
  apply try_iff in Ht; [exact (proj2 Ht)|split; [constructor|intros []]|]. apply mint_distinct. exists ($"settle"), static, [t]. split; [exact Ho|]. split; [now left|reflexivity].
Qed.

(** The premises are met. *)
Example annotated_constructors_convert_example :
  nested_blocks mint /\
  map (fun e => (ex_id e, ex_intro e)) mint_entries = module_intros (module_of mint_files) /\ map definition mint_entries = definitions_of mint_files /\
  NoDup (map fst (module_intros (module_of mint_files))) /\ usable_bases held_by_default mint_facts (module_intros (module_of mint_files)) /\
  (forall g vis b, exposed mint (fun _ => []) (fun _ => false) ($"m") g vis b -> agreeing_blocks mint (bs_annotations b) g /\ distinct_names mint (bs_annotations b) g /\
    contributions mint (bs_annotations b) g mint_entries mint_statements /\ no_clashes (derived 2 1) mint (bs_annotations b) g mint_statements) /\
  executable (fun _ _ p => Some p) (fun _ => false) mint_entries [] /\
  exists b st', generate mint mint_facts (fun _ => []) (fun _ => false) (@rev nat) 1 ($"m") = Some (RGraph b (EWritten mint_files [] st')) /\
    converting mint mint_facts b ($"m") 3 6 (a_param "n" (plain_type 1)) /\ direct (derived 2 1) class_of_money is_int (plain_type 1) AnInt = true /\
    exists static l, own mint_module (Class 3) ($"__init__") = Some (MFunction static l) /\ map function_of l = [Some 4; Some 5; Some 6] /\
      forall t, In t l -> distinct_formals (formals (fun _ _ => APrice) (Class 3) t).
Proof.
  split; [|split; [reflexivity|split; [reflexivity|split; [|split; [|split; [|split]]]]]].
  - intros c d (Kc & _). exfalso. do 9 (destruct c as [|c]; [discriminate Kc|]). discriminate Kc.
  - vm_compute. repeat constructor; cbn; intuition congruence.
  - intros id t parent n d Ht base Hb. cbn in Ht. repeat destruct Ht as [Ht|Ht]; try contradiction; try discriminate Ht; injection Ht as <- <- <- <- <-; cbn in Hb; try contradiction.
    destruct Hb as [<-|[]]. split; [apply (via_direct _ _ 2 (mkSpec 1 true false)); [left; reflexivity|reflexivity]|].
    intros id' t' parent' n' d' Ht' _. cbn in Ht'. repeat destruct Ht' as [Ht'|Ht']; try contradiction; try discriminate Ht'; injection Ht' as <- <- <- <- <-; reflexivity.
  - intros g vis b X. split; [|split; [apply (distinct_given _ _ _ _ _ X); vm_compute; reflexivity|split; [|apply (no_clashes_given _ _ _ _ _ _ _ X); vm_compute; reflexivity]]].
    + intros c d _ _ (Kc & _). exfalso. do 9 (destruct c as [|c]; [discriminate Kc|]). discriminate Kc.
    + pose proof (edges_given _ _ _ _ _ X) as Eg. assert (E : forall c, In c [1; 2; 3] -> edge g 0 c) by (unfold edge; rewrite Eg; vm_compute; intuition congruence).
      assert (E0 : forall p, ~ edge g p 0) by (unfold edge; rewrite Eg; vm_compute; intuition congruence). clear Eg.
      assert (Q : forall c, In c [1; 2; 3] -> scope_object mint (bs_annotations b) g c (Some (Mod []))).
      { intros c Hc. exists 0. split; [|exact (located_root mint _ g)]. exists [], []. split; [apply path_step; [apply path_root|apply E, Hc]|]. split; [intros (K & _); discriminate K|intros ? []]. }
      change mint_statements with (firstn 2 mint_statements ++ [] ++ [] ++ skipn 2 mint_statements ++ []). unfold mint_entries.
      apply (contributions_cons _ _ _ _ _ (Mod []) None); [exact (located_root mint _ g)| | |].
      { intros p (l1 & l2 & Hp & _). inversion Hp as [Hp'|q c l Hp' Hq Hl]; [destruct l1; discriminate|exact (E0 _ Hq)]. }
      { repeat constructor; discriminate. }
      apply (contributions_cons _ _ _ _ _ (Class 1) (Some (Mod []))); [apply located_class; reflexivity|apply Q; cbn; auto|apply con_nil|].
      apply (contributions_cons _ _ _ _ _ (Class 2) (Some (Mod []))); [apply located_class; reflexivity|apply Q; cbn; auto|apply con_nil|].
      apply (contributions_cons _ _ _ _ _ (Class 3) (Some (Mod []))); [apply located_class; reflexivity|apply Q; cbn; auto| |apply contributions_nil].
      repeat first [apply con_nil|apply con_named; [reflexivity|]|apply con_other; [reflexivity|discriminate|discriminate|]].
  - split; [intros; reflexivity|intros; reflexivity].
  - destruct mint_imports as (_ & (b & st' & G & _) & _). exists b, st'. split; [exact G|]. split; [apply (mint_converting b st' _ _ AnInt G); auto|]. split; [reflexivity|].
    do 2 eexists. split; [reflexivity|]. split; [reflexivity|].
    intros t Ht i j f h nm Hi Hj Hf Hh Hn.
    assert (D : forall fs : list (formal money), NoDup (map fo_name fs) -> nth_error fs i = Some f -> nth_error fs j = Some h -> i = j).
    { intros fs Nd E1 E2. apply (proj1 (NoDup_nth_error (map fo_name fs)) Nd); [rewrite map_length; apply nth_error_Some; congruence|]. rewrite !nth_error_map, E1, E2. cbn. congruence. }
    destruct Ht as [<-|[<-|[<-|[]]]]; refine (D _ _ Hi Hj); vm_compute; repeat constructor; cbn; intuition congruence.
Qed.

(** Even if there is only one annotated constructor that takes a value, another one
    that is not annotated may be called, here Price(Coin) for a Gold, though
    Price(Gold) would be used in C++. *)
Theorem annotated_constructor_is_called_refuted :
  exists u w b files st' s p r i q t, setting u w (@rev nat) /\
    generate u w (fun _ => []) (fun _ => false) (@rev nat) 1 ($"m") = Some (RGraph b (EWritten files [] st')) /\ bs_reports b = [] /\
    run_module (derived 2 1) (fun _ _ p => Some p) (fun _ => false) held_by_default files (module_of files) = Some (s, p) /\
    exists V is_none default class_of other nested receiver elsewhere self (v : V) bi,
      converting u w b ($"m") r i q /\ direct (derived 2 1) class_of other (pm_type q) v = true /\
      (forall i' q', converting u w b ($"m") r i' q' -> direct (derived 2 1) class_of other (pm_type q') v = true -> i' = i) /\
      constructs is_none default (derived 2 1) class_of other nested receiver elsewhere self p (w_extra w) r v = Some (t, bi) /\ function_of t <> Some i.
Proof.
  destruct mint_imports as (Se & (b & st' & G & B) & s & R). destruct (mint_converting b st' 5 (a_param "g" (class_type 2)) AGold G) as [C O]; [auto|].
  assert (E : exists t bi, mint_constructs AGold = Some (t, bi) /\ function_of t = Some 4) by (do 2 eexists; split; [vm_compute; reflexivity|reflexivity]).
  destruct E as (t & bi & E & F).
  exists mint, mint_facts, b, mint_files, st', s, mint_module, 3, 5, (a_param "g" (class_type 2)), t.
  split; [exact Se|]. split; [exact G|]. split; [exact B|]. split; [exact R|].
  exists money, is_nothing, (fun _ _ => APrice), class_of_money, is_int, (fun _ _ => false), (fun _ _ => true), (fun _ _ _ _ => true), APrice, AGold, bi.
  split; [exact C|]. split; [reflexivity|]. split; [exact O|]. split; [exact E|]. rewrite F. discriminate.
Qed.
Print Assumptions annotated_constructor_is_called_refuted.
