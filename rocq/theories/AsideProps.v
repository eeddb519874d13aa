(** * Properties of what hiding a single declaration changes in Python *)
From Coq Require Import Sorting.Permutation.
From Verif Require Import Base ParserModel StringModel StringSpec AnnotModel AnnotSpec CollectModel CollectSpec GraphModel GraphSpec GraphWalk GraphPlace GraphFinal GraphProps
  OrderModel OrderSpec OrderProofs OrderProps InlineModel InlineSpec InlineProofs EmitModel EmitSpec EmitProofs EmitFinal EmitProps ModuleModel ModuleSpec ModuleChunks ModuleProofs ModuleFinal ModuleProps
  ImportSpec ImportProofs ImportProps ExecSpec ExecProofs ExecProps AccessSpec AccessProofs AccessProps LocalSpec LocalProofs HideSpec HideProps AsideSpec AsideProofs.

(** C116: after hiding a declaration, all modules, classes and enumerations and
    all their attributes under other names are the same in Python. *)
Theorem hiding_leaves_other_names_alone : forall u i texts a a' w found implicit iteration n name b files rs st b' files' rs' st' default_holder mro manual fails m s p s' p',
  placed u -> leaf u i -> i <> u_root u -> valid_with u i a -> valid_with (reannotated u i texts) i a' -> hidden a a' -> bound_by_itself a ->
  has_annotations (u_decls (reannotated u i texts) i) true = has_annotations (u_decls u i) true -> accompanied u found implicit i ->
  generate u w found implicit iteration n name = Some (RGraph b (EWritten files rs st)) ->
  generate (reannotated u i texts) w found implicit iteration n name = Some (RGraph b' (EWritten files' rs' st')) ->
  indifferent i (name_of i files) manual ->
  run_module mro manual fails default_holder files m = Some (s, p) -> run_module mro manual fails default_holder files' m = Some (s', p') ->
  s' = s /\ alike i (name_of i files) p p'.
Proof. exact aside. Qed.
Print Assumptions hiding_leaves_other_names_alone.

(** ** Examples *)

Definition desk_run (u : unit) : option (list (list item) * ImportSpec.state * pystate) :=
  match generate u vault_facts vault_found (fun _ => false) (@rev nat) 2 ($"m") with
  | Some (RGraph _ (EWritten files _ _)) =>
      option_map (fun x => (files, fst x, snd x)) (run_module (fun _ => []) (fun _ _ p => Some p) (fun _ => false) held_by_default files (module_of files))
  | _ => None
  end.

Local Ltac pick := (left; reflexivity) + (right; pick).

(** All hypotheses are met; the function is available as w before it is hidden,
    which is a name of the function in the generated code. *)
Example hiding_leaves_other_names_alone_example :
  exists files s p s' p', desk_run desk = Some (files, s, p) /\ option_map (fun x => (snd (fst x), snd x)) (desk_run (reannotated desk 2 desk_hidden)) = Some (s', p') /\
    s' = s /\ alike 2 (name_of 2 files) p p' /\ name_of 2 files ($"w") /\ own p (Mod []) ($"w") <> None /\ own p' (Mod []) ($"w") = None /\ ~ name_of 2 files ($"k") /\ own p (Mod []) ($"k") <> None.
Proof.
  destruct (generate desk vault_facts vault_found (fun _ => false) (@rev nat) 2 ($"m")) as [r|] eqn:G; [|vm_compute in G; discriminate G].
  destruct (generate (reannotated desk 2 desk_hidden) vault_facts vault_found (fun _ => false) (@rev nat) 2 ($"m")) as [r'|] eqn:G'; [|vm_compute in G'; discriminate G'].
  unfold desk_run. rewrite G, G'.
  pose proof G as Gv. pose proof G' as Gv'. vm_compute in Gv. vm_compute in Gv'. injection Gv as Gv. injection Gv' as Gv'.
  destruct r as [|b [c|files rs st]]; [discriminate Gv|discriminate Gv|]. destruct r' as [|b' [c'|files' rs' st']]; [discriminate Gv'|discriminate Gv'|].
  injection Gv as _ Ef _ _. injection Gv' as _ Ef' _ _.
  assert (R : exists s p, run_module (fun _ => []) (fun _ _ p => Some p) (fun _ => false) held_by_default files (module_of files) = Some (s, p) /\ own p (Mod []) ($"w") <> None /\ own p (Mod []) ($"k") <> None).
  { subst files. do 2 eexists. split; [vm_compute; reflexivity|]. split; vm_compute; discriminate. }
  assert (R' : exists s p, run_module (fun _ => []) (fun _ _ p => Some p) (fun _ => false) held_by_default files' (module_of files') = Some (s, p) /\ own p (Mod []) ($"w") = None).
  { subst files'. do 2 eexists. split; [vm_compute; reflexivity|]. vm_compute. reflexivity. }
  assert (Em : module_of files' = module_of files) by (subst files files'; vm_compute; reflexivity).
  destruct R as (s & p & R & O1 & O2). destruct R' as (s' & p' & R' & O3). rewrite R, R'. exists files, s, p, s', p'. cbn [option_map fst snd]. split; [reflexivity|]. split; [reflexivity|].
  rewrite Em in R'.
  destruct (hiding_leaves_other_names_alone desk 2 desk_hidden _ _ vault_facts vault_found (fun _ => false) (@rev nat) 2 ($"m") b files rs st b' files' rs' st' held_by_default (fun _ => []) (fun _ _ p => Some p) (fun _ => false) (module_of files) s p s' p'
    desk_placed Logic.I ltac:(discriminate) ltac:(vm_compute; reflexivity) ltac:(vm_compute; reflexivity) ltac:(repeat (split; [reflexivity|]); reflexivity) ltac:(repeat (split; [reflexivity|]); reflexivity) ltac:(vm_compute; reflexivity)
    desk_accompanied G G' ltac:(intros l o q q' r r' A [= <-] [= <-]; exact A) R R') as [E A].
  split; [exact E|]. split; [exact A|]. split; [|split; [exact O1|split; [exact O3|split; [|exact O2]]]].
  - subst files. do 4 eexists. split; [cbn; pick|split; [cbn; pick|split; [reflexivity|left; reflexivity]]].
  - intros (id & x & body & t & Hin & Ht & B & [D|(j & ->)]); subst files; cbn in Hin; repeat destruct Hin as [Hin|Hin]; try discriminate Hin; try contradiction; injection Hin as <- <- <-; cbn in Ht; repeat destruct Ht as [Ht|Ht]; subst; try contradiction; try discriminate.
Qed.

(** That the module can still be imported after hiding is not a consequence:
    struct A { void n() GENPYBIND(visible); void g()
    GENPYBIND(visible); }; struct B { int n; };
    struct C : A, B { void n(); }; with all of them visible.  pybind11 accepts the
    function n of C as long as the attribute found in the bases is a function. *)
Definition twins : unit :=
  mkUnit
    (fun i => match i with
              | 0 => a_decl KOther false None []
              | 1 | 4 | 6 => a_decl KRecord false None ["visible"]%string
              | 2 | 3 => a_decl (KMethod NoOperator) false None ["visible"]%string
              | 7 => a_decl (KMethod NoOperator) false None []
              | _ => a_decl KField false None []
              end)
    [Node 1 [Node 2 []; Node 3 []]; Node 4 [Node 5 []]; Node 6 [Node 7 []]] 0
    (fun i => match i with 0 => [] | 1 | 4 | 6 => [0] | 2 | 3 => [1; 0] | 5 => [4; 0] | _ => [6; 0] end)
    (fun _ => true) (fun _ => false) (fun i => i) (fun _ => false)
    (fun i => match i with 1 => $"A" | 3 => $"g" | 4 => $"B" | 6 => $"C" | _ => $"n" end) (fun _ => false) N.of_nat.
Definition twins_found (c : nat) : list nat := match c with 1 => [2; 3] | 4 => [5] | 6 => [7] | _ => [] end.
Definition twins_bases : hierarchy := mkHierarchy (fun i => match i with 6 => [mkSpec 1 true false; mkSpec 4 true false] | _ => [] end) (fun i => match i with 6 => 1 | _ => 0 end).
Definition twins_facts : facts :=
  simple_facts twins twins_bases (fun c => match c with 0 => [1; 4; 6] | c => twins_found c end) (fun i => match i with 1 => "::A" | 4 => "::B" | _ => "::C" end)%string.

Lemma twins_setting : setting twins twins_facts (@rev nat).
Proof. constructor; [placed_unit [1; 2; 3; 4; 5; 6; 7]|language_facts|exists N.of_nat; exact (pop_first_good twins)|intros l; apply Permutation_rev]. Qed.

Lemma twins_accompanied : accompanied twins twins_found (fun _ => false) 2.
Proof.
  intros b visible B Hv n (l & Hp) Hin. match type of B with ?g = _ => let v := eval vm_compute in g in change g with v in B end. injection B as <-.
  assert (n = 1) as -> by (do 7 (destruct n as [|n]; [cbn in Hin; repeat destruct Hin as [Hin|Hin]; first [discriminate Hin|reflexivity|destruct Hin]|]); destruct Hin).
  right. exists 3. split; [vm_compute; auto|]. split; [reflexivity|]. left. eexists. split; reflexivity.
Qed.

Theorem modules_stay_importable_after_hiding_refuted : exists u i texts a a' w found implicit iteration n name b files rs st b' files' rs' st' mro s p,
  setting u w iteration /\ leaf u i /\ i <> u_root u /\ valid_with u i a /\ valid_with (reannotated u i texts) i a' /\ hidden a a' /\ bound_by_itself a /\
  has_annotations (u_decls (reannotated u i texts) i) true = has_annotations (u_decls u i) true /\ accompanied u found implicit i /\
  generate u w found implicit iteration n name = Some (RGraph b (EWritten files rs st)) /\
  generate (reannotated u i texts) w found implicit iteration n name = Some (RGraph b' (EWritten files' rs' st')) /\
  (forall r, mro r = map sp_base (h_direct (w_hierarchy w) r)) /\
  run_module mro (fun _ _ p => Some p) (fun _ => false) held_by_default files (module_of files) = Some (s, p) /\
  run_module mro (fun _ _ p => Some p) (fun _ => false) held_by_default files' (module_of files') = None.
Proof.
  exists twins, 2, [lozenge ++ $"visible, hidden"]. do 2 eexists. exists twins_facts, twins_found, (fun _ => false), (@rev nat), 1, ($"m").
  do 8 eexists. exists (fun r => map sp_base (h_direct twins_bases r)). do 2 eexists.
  split; [exact twins_setting|]. split; [exact Logic.I|]. split; [discriminate|]. split; [vm_compute; reflexivity|]. split; [vm_compute; reflexivity|].
  split; [repeat (split; [reflexivity|]); reflexivity|]. split; [repeat (split; [reflexivity|]); reflexivity|]. split; [vm_compute; reflexivity|].
  split; [exact twins_accompanied|]. split; [vm_compute; reflexivity|]. split; [vm_compute; reflexivity|]. split; [reflexivity|].
  split; vm_compute; reflexivity.
Qed.
Print Assumptions modules_stay_importable_after_hiding_refuted.
