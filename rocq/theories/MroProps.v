(** * The hierarchy of classes in Python *)
From Coq Require Import Sorting.Permutation.
From Verif Require Import Base ParserModel StringModel AnnotModel AnnotSpec CollectModel CollectSpec GraphModel GraphSpec GraphWalk GraphPlace GraphProps
  OrderModel OrderSpec OrderProofs OrderProps InlineModel InlineSpec EmitModel EmitSpec EmitProps ModuleModel ModuleSpec ModuleProofs ModuleFinal ModuleProps ImportSpec ImportProofs ImportProps ExecSpec ExecProps MroSpec MroProofs.

(** ** C89 *)

(** If the classes can be created at all, those derived from another in Python are
    publicly derived from it in C++.  Conversely, a class that publicly inherits from an
    exposed one, via exposed ones, neither of them to be inlined or hidden, is derived
    from it in Python.  Attributes are searched in each class at most once. *)
Theorem subclasses_are_derived_classes :
  forall u w found implicit iteration, setting u w iteration -> forall n name b files rs st', 0 < n ->
    generate u w found implicit iteration n name = Some (RGraph b (EWritten files rs st')) ->
    forall intros calls post, In (IModule name intros calls post) (concat files) -> forall ms, creates [] intros ms ->
    (forall c x, subclass ms c x -> introduced_class intros c /\ introduced_class intros x /\ (c = x \/ publicly_derived (w_hierarchy w) c x)) /\
    (forall c x, introduced_class intros c -> plainly_derived u (bs_annotations b) (w_hierarchy w) (introduced_class intros) c x -> subclass ms c x) /\
    (forall c, introduced_class intros c -> exists r, In (c, c :: r) ms /\ NoDup (c :: r) /\ forall m, In (c, m) ms -> m = c :: r).
Proof. exact subclasses. Qed.
Print Assumptions subclasses_are_derived_classes.

(** If bases have been registered (C54), and exposed classes are inherited from by one
    path only, the classes can be created.  Attributes are searched in the class and
    then in its bases, one after another, along with theirs. *)
Theorem classes_can_be_created_partial :
  forall u w found implicit iteration, setting u w iteration -> forall n name b files rs st', 0 < n ->
    generate u w found implicit iteration n name = Some (RGraph b (EWritten files rs st')) ->
    forall intros calls post, In (IModule name intros calls post) (concat files) ->
    forall default_holder s, import default_holder intros = Some s ->
    unambiguous (w_hierarchy w) (introduced_class intros) -> distinct_bases (w_hierarchy w) ->
    exists ms, creates [] intros ms /\
      forall id t p m d, In (id, NClass t p m d) intros -> exists ls, Forall2 (fun x l => In (x, l) ms) (ct_bases t) ls /\ In (ct_record t, ct_record t :: concat ls) ms.
Proof. exact hierarchy_created. Qed.
Print Assumptions classes_can_be_created_partial.

(** In Python, all classes are derived from one that pybind11 provides, which is the
    last in each order (and followed by object).  It can be left out. *)
Theorem common_base_makes_no_difference :
  forall root ls bs, ls <> [] -> (forall x, In x bs -> In x (concat ls)) -> ~ In root (concat ls) ->
    forall r, merges (map (fun l => l ++ [root]) ls ++ [bs]) r <-> exists r0, r = r0 ++ [root] /\ merges (ls ++ [bs]) r0.
Proof. exact root_irrelevant. Qed.
Print Assumptions common_base_makes_no_difference.

Example C89_root_example : [[1]; [2; 1]] <> [] /\ (forall x, In x [2; 1] -> In x (concat [[1]; [2; 1]])) /\ ~ In 9 (concat [[1]; [2; 1]]).
Proof. split; [discriminate|]. split; [intros x [<-|[<-|[]]]; cbn; auto|cbn; intuition discriminate]. Qed.

(** *** Checking hierarchies *)

Fixpoint paths (fuel : nat) (h : hierarchy) (c : nat) : list (nat * list bspec) :=
  match fuel with
  | O => []
  | S fuel' => flat_map (fun s => (sp_base s, [s]) :: map (fun x => (fst x, s :: snd x)) (paths fuel' h (sp_base s))) (h_direct h c)
  end.

Lemma derives_paths h fuel : acyclic h -> forall c p b, InlineSpec.derives h c p b -> h_height h c < fuel -> In (b, p) (paths fuel h c).
Proof.
  intros A. induction fuel as [|fuel IH]; intros c p b D F; [lia|]. cbn [paths]. destruct D as [r s Hs|r s p b Hs D]; apply in_flat_map; exists s; (split; [exact Hs|]).
  - left. reflexivity.
  - right. apply in_map_iff. exists (b, p). split; [reflexivity|]. apply IH; [exact D|]. specialize (A _ _ Hs). lia.
Qed.

Fixpoint distinct (l : list nat) : bool := match l with [] => true | x :: l' => negb (mem x l') && distinct l' end.

Lemma distinct_nodup l : distinct l = true -> NoDup l.
Proof.
  induction l as [|x l IH]; cbn [distinct]; intro H; [constructor|]. apply andb_true_iff in H as [H1 H2]. constructor; [|exact (IH H2)].
  intro Hx. rewrite (proj2 (GraphWalk.mem_iff x l) Hx) in H1. discriminate H1.
Qed.

Lemma unambiguous_by h e bound : acyclic h -> (forall c, bound <= c -> h_direct h c = []) -> forallb (fun c => distinct (map fst (paths (S (h_height h c)) h c))) (seq 0 bound) = true -> unambiguous h e.
Proof.
  intros A O F c p q b _ Dp Dq _ _. destruct (le_lt_dec bound c) as [H|H].
  - specialize (O c H). destruct Dp as [r s Hs|r s p b Hs _]; rewrite O in Hs; destruct Hs.
  - rewrite forallb_forall in F. specialize (F c). rewrite in_seq in F. apply distinct_nodup in F; [|lia].
    apply (functional _ F b); (apply (derives_paths h); [exact A|assumption|lia]).
Qed.

(** *** Examples *)

Fixpoint all_bases_of (fuel : nat) (bases : nat -> list (nat * bool)) (i : nat) : list nat :=
  match fuel with O => [] | S fuel' => flat_map (fun b => fst b :: all_bases_of fuel' bases (fst b)) (bases i) end.

Definition letter (i : nat) : str := [ascii_of_nat (64 + i)].

(** Four classes A(1) to D(4); bases and whether they are virtual, and annotations. *)
Definition inheriting (bases : nat -> list (nat * bool)) (a : nat -> option string) : unit :=
  mkUnit
    (fun i => match i with
              | 0 => a_decl KOther false None []
              | _ => mkDecl KRecord (match a i with Some s => [lozenge ++ $s] | None => [] end) false [] 0 false false false
                       (map (fun b => mkBase (fst b) [letter (fst b)]) (bases i)) (map (fun b => mkBase b [letter b]) (nodup Nat.eq_dec (all_bases_of 3 bases i))) None true None
              end)
    [Node 1 []; Node 2 []; Node 3 []; Node 4 []] 0
    (fun i => match i with 0 => [] | _ => [0] end)
    (fun _ => true) (fun _ => false) (fun i => i) (fun _ => false) letter (fun _ => false) N.of_nat.

Definition inheriting_facts (bases : nat -> list (nat * bool)) (a : nat -> option string) : facts :=
  facts_of (inheriting bases a) (mkHierarchy (fun i => map (fun b => mkSpec (fst b) true (snd b)) (bases i)) (fun i => i)) (fun c => match c with 0 => [1; 2; 3; 4] | _ => [] end)
    (fun i => match i with 1 => "::A" | 2 => "::B" | 3 => "::C" | _ => "::D" end)%string [].

Definition inheriting_files bases a : list (list item) := files_of (inheriting bases a) (inheriting_facts bases a) (fun _ => []).

(** struct GENPYBIND(visible) A;  struct GENPYBIND(visible) B;  struct C : A, B;  struct GENPYBIND(visible, inline_base("C")) D : C; *)
Definition plain_bases (i : nat) : list (nat * bool) := match i with 3 => [(1, false); (2, false)] | 4 => [(3, false)] | _ => [] end.
Definition plain_requests (i : nat) : option string := match i with 3 => None | 4 => Some "visible, inline_base(""C"")" | _ => Some "visible" end%string.
Definition plain_files : list (list item) := Eval vm_compute in inheriting_files plain_bases plain_requests.

Ltac inheriting_setting bases a := constructor; [placed_unit [1; 2; 3; 4]|language_facts|exists N.of_nat; exact (pop_first_good (inheriting bases a))|intros l; apply Permutation_rev].

Lemma plain_setting : setting (inheriting plain_bases plain_requests) (inheriting_facts plain_bases plain_requests) (@rev nat).
Proof. inheriting_setting plain_bases plain_requests. Qed.

(** struct GENPYBIND(visible) A;  struct B : virtual A;  struct C : virtual A;  struct GENPYBIND(visible, inline_base("B", "C")) D : B, C; *)
Definition twofold_bases (i : nat) : list (nat * bool) := match i with 2 | 3 => [(1, true)] | 4 => [(2, false); (3, false)] | _ => [] end.
Definition twofold_requests (i : nat) : option string := match i with 1 => Some "visible" | 4 => Some "visible, inline_base(""B"", ""C"")" | _ => None end%string.
Definition twofold_files : list (list item) := Eval vm_compute in inheriting_files twofold_bases twofold_requests.

Lemma twofold_setting : setting (inheriting twofold_bases twofold_requests) (inheriting_facts twofold_bases twofold_requests) (@rev nat).
Proof. inheriting_setting twofold_bases twofold_requests. Qed.

(** struct GENPYBIND(visible) A;  struct GENPYBIND(visible) B : virtual A;  struct C;  struct GENPYBIND(visible) D : virtual A, B; *)
Definition crossed_bases (i : nat) : list (nat * bool) := match i with 2 => [(1, true)] | 4 => [(1, true); (2, false)] | _ => [] end.
Definition crossed_requests (i : nat) : option string := match i with 3 => None | _ => Some "visible" end%string.
Definition crossed_files : list (list item) := Eval vm_compute in inheriting_files crossed_bases crossed_requests.

Lemma crossed_setting : setting (inheriting crossed_bases crossed_requests) (inheriting_facts crossed_bases crossed_requests) (@rev nat).
Proof. inheriting_setting crossed_bases crossed_requests. Qed.

(** struct GENPYBIND(visible) A;  struct B : A;  struct C;  struct GENPYBIND(visible) D : B; *)
Definition gap_bases (i : nat) : list (nat * bool) := match i with 2 => [(1, false)] | 4 => [(2, false)] | _ => [] end.
Definition gap_requests (i : nat) : option string := match i with 1 | 4 => Some "visible" | _ => None end%string.
Definition gap_files : list (list item) := Eval vm_compute in inheriting_files gap_bases gap_requests.

Lemma gap_setting : setting (inheriting gap_bases gap_requests) (inheriting_facts gap_bases gap_requests) (@rev nat).
Proof. inheriting_setting gap_bases gap_requests. Qed.

Definition intros_of (files : list (list item)) : list (str * introducer) :=
  flat_map (fun i => match i with IModule _ intros _ _ => intros | _ => [] end) (concat files).
Definition classes_of (intros : list (str * introducer)) : list (nat * list nat) :=
  flat_map (fun i => match snd i with NClass t _ _ _ => [(ct_record t, ct_bases t)] | _ => [] end) intros.

Lemma creates_inv ms intros ms' : creates ms intros ms' -> match classes_of intros with
  | [] => ms' = ms
  | (c, bs) :: _ => exists rest ls r, NoDup bs /\ Forall2 (fun b m => In (b, m) ms) bs ls /\ merges (ls ++ [bs]) r /\ creates ((c, c :: r) :: ms) rest ms' /\ classes_of rest = tl (classes_of intros)
  end.
Proof.
  induction 1 as [ms|ms id i intros ms' N C IH|ms id t p n d intros ls r ms' H1 H2 H3 C _]; [reflexivity| |].
  - unfold classes_of in *. cbn [flat_map snd]. destruct i as [q|q m|e q m d|t q m d]; try exact IH. destruct (N _ _ _ _ eq_refl).
  - cbn [classes_of flat_map snd app tl]. exists intros, ls, r. auto.
Qed.

(** Merging, as long as [fuel] lasts. *)
Definition is_free (ls : list (list nat)) (x : nat) : bool := forallb (fun l => negb (mem x (tl l))) ls.
Fixpoint first_free (all ls : list (list nat)) : option nat :=
  match ls with
  | [] => None
  | (x :: _) :: ls' => if is_free all x then Some x else first_free all ls'
  | [] :: ls' => first_free all ls'
  end.
Fixpoint merge (fuel : nat) (ls : list (list nat)) : option (list nat) :=
  if forallb (fun l => match l with [] => true | _ => false end) ls then Some [] else
  match fuel with
  | O => None
  | S fuel' => match first_free ls ls with Some x => option_map (cons x) (merge fuel' (map (advance x) ls)) | None => None end
  end.

Lemma is_free_iff ls x : is_free ls x = true <-> free ls x.
Proof.
  unfold is_free, free. rewrite forallb_forall. split; intros H l Hl.
  - intro Hx. specialize (H l Hl). rewrite (proj2 (GraphWalk.mem_iff x (tl l)) Hx) in H. discriminate H.
  - destruct (mem x (tl l)) eqn:E; [|reflexivity]. apply GraphWalk.mem_iff in E. destruct (H l Hl E).
Qed.

Lemma first_free_next all ls : forall before, all = before ++ ls -> (forall y t, In (y :: t) before -> ~ free all y) -> forall x,
  (exists be t af, all = be ++ (x :: t) :: af /\ free all x /\ forall y t', In (y :: t') be -> ~ free all y) -> first_free all ls = Some x.
Proof.
  induction ls as [|l ls IH]; intros before E N x (be & t & af & Ea & F & Nb).
  - rewrite app_nil_r in E. subst before. destruct (N x t); [rewrite Ea; apply in_elt|exact F].
  - cbn [first_free]. assert (E' : all = (before ++ [l]) ++ ls) by (rewrite <- app_assoc; exact E). destruct l as [|y l].
    + apply (IH (before ++ [[]]) E'); [|exists be, t, af; auto]. intros z t' Hz. apply in_app_iff in Hz as [Hz|[Hz|[]]]; [exact (N z t' Hz)|discriminate Hz].
    + destruct (is_free all y) eqn:Ey.
      * apply is_free_iff in Ey. f_equal. assert (X : before ++ (y :: l) :: ls = be ++ (x :: t) :: af) by congruence. clear -X N Nb Ey F.
        revert be N Nb X. induction before as [|l0 before IH]; intros [|l1 be] N Nb X; cbn [app] in X.
        -- congruence.
        -- injection X as <- _. destruct (Nb y l); [left; reflexivity|exact Ey].
        -- injection X as -> _. destruct (N x t); [left; reflexivity|exact F].
        -- injection X as _ X. apply (IH be); [intros z t' Hz; apply (N z t'); right; exact Hz|intros z t' Hz; apply (Nb z t'); right; exact Hz|exact X].
      * apply (IH (before ++ [y :: l]) E'); [|exists be, t, af; auto]. intros z t' Hz. apply in_app_iff in Hz as [Hz|[Hz|[]]]; [exact (N z t' Hz)|].
        injection Hz as <- _. rewrite <- is_free_iff. congruence.
Qed.

Definition total (ls : list (list nat)) : nat := length (concat ls).

Lemma advance_length x l : length (advance x l) <= length l.
Proof. destruct l as [|y l]; cbn [advance length]; [lia|]. destruct (Nat.eqb x y); cbn [length]; lia. Qed.

Lemma advance_total x ls : total (map (advance x) ls) <= total ls.
Proof. unfold total. induction ls as [|l ls IH]; cbn [map concat]; [lia|]. rewrite !app_length. pose proof (advance_length x l). lia. Qed.

Lemma merges_merge ls r : merges ls r -> forall fuel, total ls <= fuel -> merge fuel ls = Some r.
Proof.
  induction 1 as [ls H|ls x r Nx _ IH]; intros fuel F.
  - assert (T : forallb (fun l : list nat => match l with [] => true | _ => false end) ls = true) by (apply forallb_forall; intros l Hl; rewrite (H l Hl); reflexivity).
    destruct fuel; cbn [merge]; rewrite T; reflexivity.
  - assert (Nx' := Nx). destruct Nx' as (be & t & af & El & _).
    assert (D : total (map (advance x) ls) < total ls).
    { rewrite El, map_app. cbn [map advance]. rewrite Nat.eqb_refl. unfold total. rewrite !concat_app, !app_length. cbn [concat app length]. rewrite !app_length.
      pose proof (advance_total x be). pose proof (advance_total x af). unfold total in *. lia. }
    destruct fuel as [|fuel]; [lia|]. cbn [merge]. destruct (forallb _ ls) eqn:E.
    + rewrite El in E. rewrite forallb_forall in E. specialize (E (x :: t) (in_elt _ _ _)). discriminate E.
    + assert (Hf : first_free ls ls = Some x) by (apply (first_free_next ls ls [] eq_refl); [intros y t' []|exact Nx]).
      rewrite Hf, IH; [reflexivity|lia].
Qed.

Lemma merges_value ls r : merges ls r -> merge (total ls) ls = Some r.
Proof. intro M. exact (merges_merge _ _ M _ (le_n _)). Qed.

(** An exposed base of two inlined bases is listed twice: the class cannot be created,
    without any reports. *)
Theorem classes_with_inlined_bases_can_be_created_refuted :
  exists u w b files st' intros calls post s, setting u w (@rev nat) /\
    generate u w (fun _ => []) (fun _ => false) (@rev nat) 1 ($"m") = Some (RGraph b (EWritten files [] st')) /\ bs_reports b = [] /\
    In (IModule ($"m") intros calls post) (concat files) /\ import (fun _ => true) intros = Some s /\ distinct_bases (w_hierarchy w) /\
    (exists id t p n d, In (id, NClass t p n d) intros /\ ct_bases t = [1; 1]) /\ forall ms, ~ creates [] intros ms.
Proof.
  destruct (written_inv (generate (inheriting twofold_bases twofold_requests) (inheriting_facts twofold_bases twofold_requests) (fun _ => []) (fun _ => false) (@rev nat) 1 ($"m")) twofold_files) as (b & st' & E & Er); [vm_compute; reflexivity|].
  exists (inheriting twofold_bases twofold_requests), (inheriting_facts twofold_bases twofold_requests), b, twofold_files, st'. do 4 eexists.
  split; [exact twofold_setting|]. split; [exact E|]. split; [exact Er|]. split; [do 3 right; left; reflexivity|]. split; [vm_compute; reflexivity|]. split; [|split].
  - intro c. do 5 (destruct c as [|c]; [repeat constructor; cbn; intuition discriminate|]). constructor.
  - do 5 eexists. split; [right; right; left; reflexivity|reflexivity].
  - intros ms C. apply creates_inv in C as (l1 & ls1 & r1 & _ & _ & _ & C & E1). cbn in E1. apply creates_inv in C. rewrite E1 in C.
    destruct C as (l2 & ls2 & r2 & X & _). inversion X as [|? ? Y _]. apply Y. left. reflexivity.
Qed.
Print Assumptions classes_with_inlined_bases_can_be_created_refuted.

(** A virtual base that is repeated before a class derived from it: there is no order
    of the classes. *)
Theorem classes_with_virtual_bases_can_be_created_refuted :
  exists u w b files st' intros calls post s, setting u w (@rev nat) /\
    generate u w (fun _ => []) (fun _ => false) (@rev nat) 1 ($"m") = Some (RGraph b (EWritten files [] st')) /\ bs_reports b = [] /\
    In (IModule ($"m") intros calls post) (concat files) /\ import (fun _ => true) intros = Some s /\ distinct_bases (w_hierarchy w) /\
    (forall id t p n d, In (id, NClass t p n d) intros -> ct_bases t = map sp_base (h_direct (w_hierarchy w) (ct_record t))) /\ forall ms, ~ creates [] intros ms.
Proof.
  destruct (written_inv (generate (inheriting crossed_bases crossed_requests) (inheriting_facts crossed_bases crossed_requests) (fun _ => []) (fun _ => false) (@rev nat) 1 ($"m")) crossed_files) as (b & st' & E & Er); [vm_compute; reflexivity|].
  exists (inheriting crossed_bases crossed_requests), (inheriting_facts crossed_bases crossed_requests), b, crossed_files, st'. do 4 eexists.
  split; [exact crossed_setting|]. split; [exact E|]. split; [exact Er|]. split; [do 4 right; left; reflexivity|]. split; [vm_compute; reflexivity|]. split; [|split].
  - intro c. do 5 (destruct c as [|c]; [repeat constructor; cbn; intuition discriminate|]). constructor.
  - intros id t p n d H. cbn in H. repeat destruct H as [H|H]; try contradiction; try discriminate H; injection H as <- <- <- <- <-; reflexivity.
  - intros ms C. apply creates_inv in C as (l1 & ls1 & r1 & _ & F1 & M1 & C & E1). cbn in E1. inversion F1; subst. apply merges_value in M1. injection M1 as <-.
    apply creates_inv in C. rewrite E1 in C. destruct C as (l2 & ls2 & r2 & _ & F2 & M2 & C & E2). cbn in E2.
    assert (ls2 = [[1]]) as -> by (inversion F2 as [|? ? ? ? H2 F3]; subst; inversion F3; subst; destruct H2 as [H2|[]]; injection H2 as <-; reflexivity).
    apply merges_value in M2. injection M2 as <-. apply creates_inv in C. rewrite E2 in C. destruct C as (l3 & ls3 & r3 & _ & F3 & M3 & _).
    assert (ls3 = [[1]; [2; 1]]) as ->.
    { inversion F3 as [|? ? ? ? H3 F4]; subst. inversion F4 as [|? ? ? ? H4 F5]; subst. inversion F5; subst. destruct H3 as [H3|[H3|[]]]; [discriminate H3|]. destruct H4 as [H4|[H4|[]]]; [|discriminate H4].
      injection H3 as <-. injection H4 as <-. reflexivity. }
    apply merges_value in M3. discriminate M3.
Qed.
Print Assumptions classes_with_virtual_bases_can_be_created_refuted.

(** Derived classes are not derived in Python if a class in between is not exposed. *)
Theorem derived_classes_are_subclasses_refuted :
  exists u w b files st' intros calls post ms, setting u w (@rev nat) /\
    generate u w (fun _ => []) (fun _ => false) (@rev nat) 1 ($"m") = Some (RGraph b (EWritten files [] st')) /\ bs_reports b = [] /\
    In (IModule ($"m") intros calls post) (concat files) /\ creates [] intros ms /\
    exists c x, introduced_class intros c /\ introduced_class intros x /\ publicly_derived (w_hierarchy w) c x /\ ~ subclass ms c x.
Proof.
  destruct (written_inv (generate (inheriting gap_bases gap_requests) (inheriting_facts gap_bases gap_requests) (fun _ => []) (fun _ => false) (@rev nat) 1 ($"m")) gap_files) as (b & st' & E & Er); [vm_compute; reflexivity|].
  exists (inheriting gap_bases gap_requests), (inheriting_facts gap_bases gap_requests), b, gap_files, st'. do 3 eexists. exists [(4, [4]); (1, [1])].
  split; [exact gap_setting|]. split; [exact E|]. split; [exact Er|]. split; [do 3 right; left; reflexivity|]. split.
  - apply creates_other; [discriminate|]. do 2 (eapply (creates_class _ _ _ _ _ _ _ [] []); [constructor|constructor|apply merges_done; intros l [<-|[]]; reflexivity|]). constructor.
  - exists 4, 1. split; [do 5 eexists; split; [right; right; left; reflexivity|reflexivity]|]. split; [do 5 eexists; split; [right; left; reflexivity|reflexivity]|]. split.
    + exists [mkSpec 2 true false; mkSpec 1 true false]. split; [|intros s [<-|[<-|[]]]; reflexivity].
      apply derives_step; [left; reflexivity|]. apply (derives_direct _ 2 (mkSpec 1 true false)). left. reflexivity.
    + intros (m & Hm & Hx). destruct Hm as [Hm|[Hm|[]]]; [|discriminate Hm]. injection Hm as <-. destruct Hx as [Hx|[]]. discriminate Hx.
Qed.
Print Assumptions derived_classes_are_subclasses_refuted.

(** The hypotheses can be met: D is derived from A and B in Python although C is not exposed. *)
Example C89_example :
  exists b st' intros calls post s ms, setting (inheriting plain_bases plain_requests) (inheriting_facts plain_bases plain_requests) (@rev nat) /\
    generate (inheriting plain_bases plain_requests) (inheriting_facts plain_bases plain_requests) (fun _ => []) (fun _ => false) (@rev nat) 1 ($"m") = Some (RGraph b (EWritten plain_files [] st')) /\
    In (IModule ($"m") intros calls post) (concat plain_files) /\ import (fun _ => true) intros = Some s /\
    unambiguous (w_hierarchy (inheriting_facts plain_bases plain_requests)) (introduced_class intros) /\ distinct_bases (w_hierarchy (inheriting_facts plain_bases plain_requests)) /\
    creates [] intros ms /\ In (4, [4; 1; 2]) ms /\ subclass ms 4 2.
Proof.
  destruct (written_inv (generate (inheriting plain_bases plain_requests) (inheriting_facts plain_bases plain_requests) (fun _ => []) (fun _ => false) (@rev nat) 1 ($"m")) plain_files) as (b & st' & E & _); [vm_compute; reflexivity|].
  assert (Hin : exists calls post, In (IModule ($"m") (intros_of plain_files) calls post) (concat plain_files)) by (do 2 eexists; do 4 right; left; reflexivity).
  destruct Hin as (calls & post & Hin).
  assert (Un : unambiguous (w_hierarchy (inheriting_facts plain_bases plain_requests)) (introduced_class (intros_of plain_files))).
  { apply (unambiguous_by _ _ 5); [exact (la_acyclic _ _ (se_language _ _ _ plain_setting))| |vm_compute; reflexivity]. intros c Hc. do 5 (destruct c as [|c]; [lia|]). reflexivity. }
  assert (Di : distinct_bases (w_hierarchy (inheriting_facts plain_bases plain_requests))).
  { intro c. do 5 (destruct c as [|c]; [repeat constructor; cbn; intuition discriminate|]). constructor. }
  assert (Hs : exists s, import (fun _ => true) (intros_of plain_files) = Some s) by (eexists; vm_compute; reflexivity). destruct Hs as (s & Hs).
  destruct (classes_can_be_created_partial _ _ _ _ _ plain_setting 1 _ _ _ _ _ (le_n 1) E _ _ _ Hin _ _ Hs Un Di) as (ms & C & H).
  assert (H1 : In (1, [1]) ms).
  { edestruct H as (ls & F & X); [right; left; reflexivity|]. cbn [ct_bases] in F. inversion F; subst. exact X. }
  assert (H2 : In (2, [2]) ms).
  { edestruct H as (ls & F & X); [right; right; left; reflexivity|]. cbn [ct_bases] in F. inversion F; subst. exact X. }
  assert (U := proj2 (proj2 (subclasses_are_derived_classes _ _ _ _ _ plain_setting 1 _ _ _ _ _ (le_n 1) E _ _ _ Hin ms C))).
  assert (V : forall c m m', introduced_class (intros_of plain_files) c -> In (c, m) ms -> In (c, m') ms -> m = m').
  { intros c m m' Hc Hm Hm'. destruct (U c Hc) as (r & _ & _ & R). rewrite (R m Hm). symmetry. exact (R m' Hm'). }
  assert (H4 : In (4, [4; 1; 2]) ms).
  { edestruct H as (ls & F & X); [right; right; right; left; reflexivity|]. cbn [ct_bases] in F. inversion F as [|? l1 ? ? F1 F']; subst. inversion F' as [|? l2 ? ? F2 F'']; subst. inversion F''; subst.
    assert (l1 = [1]) as -> by (apply (V 1); [do 5 eexists; split; [right; left; reflexivity|reflexivity]|exact F1|exact H1]).
    assert (l2 = [2]) as -> by (apply (V 2); [do 5 eexists; split; [right; right; left; reflexivity|reflexivity]|exact F2|exact H2]). exact X. }
  exists b, st', (intros_of plain_files), calls, post, s, ms. split; [exact plain_setting|]. split; [exact E|]. split; [exact Hin|]. split; [exact Hs|]. split; [exact Un|]. split; [exact Di|].
  split; [exact C|]. split; [exact H4|]. exists [4; 1; 2]. split; [exact H4|]. right. right. left. reflexivity.
Qed.
