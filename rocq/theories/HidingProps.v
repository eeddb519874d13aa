(** * Which members are found in Python *)
From Coq Require Import Sorting.Permutation.
From Verif Require Import Base ParserModel StringModel AnnotModel AnnotSpec CollectModel CollectSpec GraphModel GraphSpec GraphWalk GraphPlace GraphProps
  OrderModel OrderSpec OrderProofs OrderProps InlineModel InlineSpec EmitModel EmitSpec EmitProps ModuleModel ModuleSpec ModuleProofs ModuleFinal ModuleProps
  ImportSpec ImportProofs ImportProps ExecSpec ExecProofs ExecProps AccessSpec AccessProofs AccessProps MroSpec MroProofs MroProps HidingSpec HidingProofs.

(** ** C90 *)

(** Attributes are looked up like members in C++: those of derived classes hide those
    of bases, also if one path to a virtual base leads past the class that has the
    attribute.
    Missing: only attributes in Python hide others, see below; all bases are exposed as
    they are; the classes can be created (C89). *)
Theorem attributes_hide_those_of_bases_partial :
  forall u w found implicit iteration, setting u w iteration -> forall n name b files rs st', 0 < n ->
    generate u w found implicit iteration n name = Some (RGraph b (EWritten files rs st')) ->
    forall intros calls post, In (IModule name intros calls post) (concat files) -> forall ms mro, creates [] intros ms -> searched_in mro ms ->
    forall c, introduced_class intros c -> plain_hierarchy u (bs_annotations b) (w_hierarchy w) (introduced_class intros) c ->
    forall p k, (forall x, finds (w_hierarchy w) (fun y => own p (Class y) k <> None) c x -> getattr mro p (Class c) k = own p (Class x) k) /\
      ((forall x, ~ sees (w_hierarchy w) (fun y => own p (Class y) k <> None) c x) -> getattr mro p (Class c) k = None).
Proof. exact members_found. Qed.
Print Assumptions attributes_hide_those_of_bases_partial.

(** A visible member of a base class, unless hidden by an attribute of another class,
    can be used by its name, also for the derived class. *)
Theorem inherited_members_can_be_used_partial :
  forall default_holder mro manual fails u w found implicit iteration n name b files rs st', setting u w iteration -> nested_blocks u -> 0 < n ->
  generate u w found implicit iteration n name = Some (RGraph b (EWritten files rs st')) ->
  exists g vis order all chunks post, exposed u found implicit name g vis b /\
    generated u w g vis (bs_annotations b) name rs st' order all post /\ layout name post all chunks files /\
    let intros := map (fun e => (ex_id e, ex_intro e)) all in
    let m := IModule name intros (map (fun e => (ex_id e, ex_id e)) all) post in
    filter is_module (concat files) = [m] /\
    (NoDup (map fst intros) -> agreeing_blocks u (bs_annotations b) g -> distinct_names u (bs_annotations b) g -> usable_bases default_holder w intros ->
     exists cs, contributions u (bs_annotations b) g all cs /\
       (no_clashes mro u (bs_annotations b) g cs -> executable manual fails all post ->
        exists s p, run_module mro manual fails default_holder files m = Some (s, p) /\
          forall ms, creates [] intros ms -> searched_in mro ms ->
          forall c r x i a k, introduced_class intros c -> plain_hierarchy u (bs_annotations b) (w_hierarchy w) (introduced_class intros) c ->
            finds (w_hierarchy w) (fun y => own p (Class y) k <> None) c r -> create u (bs_annotations b) (w_hierarchy w) r = Some x ->
            In i (flat_map (expand (w_extra w)) (looked_up u w r x)) -> is_tag_kind (kind u i) = false -> own_attributes u i a -> visible_in u b name r i ->
            ordinary u (w_extra w) x i a k -> exists v t, getattr mro p (Class c) k = Some v /\ reaches v t /\ mentions t i)).
Proof. exact inherited_usable. Qed.
Print Assumptions inherited_members_can_be_used_partial.

(** *** Examples *)

(** struct GENPYBIND(visible) A(1) { void f(5)(); };
    struct GENPYBIND(visible) B(2) : virtual A { void f(6)(); };
    struct GENPYBIND(visible) C(3) : virtual A {};  struct GENPYBIND(visible) D(4) : C, B {}; *)
Definition diamond_class (bases all : list nat) : decl :=
  let named b := mkBase b [letter b] in mkDecl KRecord [lozenge ++ $"visible"] false [] 0 false false false (map named bases) (map named all) None true None.
Definition diamond : unit :=
  mkUnit
    (fun i => match i with
              | 0 => a_decl KOther false None []
              | 1 => diamond_class [] []
              | 2 | 3 => diamond_class [1] [1]
              | 4 => diamond_class [3; 2] [3; 2; 1]
              | _ => a_decl (KMethod NoOperator) false None []
              end)
    [Node 1 [Node 5 []]; Node 2 [Node 6 []]; Node 3 []; Node 4 []] 0
    (fun i => match i with 0 => [] | 5 => [1; 0] | 6 => [2; 0] | _ => [0] end)
    (fun _ => true) (fun _ => false) (fun i => i) (fun _ => false) (fun i => match i with 5 | 6 => $"f" | _ => letter i end) (fun _ => false) N.of_nat.
Definition diamond_bases : hierarchy :=
  mkHierarchy (fun i => match i with 2 | 3 => [mkSpec 1 true true] | 4 => [mkSpec 3 true false; mkSpec 2 true false] | _ => [] end) (fun i => match i with 4 => 2 | 2 | 3 => 1 | _ => 0 end).
Definition diamond_facts : facts :=
  simple_facts diamond diamond_bases (fun c => match c with 0 => [1; 2; 3; 4] | 1 => [5] | 2 => [6] | _ => [] end) (fun i => match i with 1 => "::A" | 2 => "::B" | 3 => "::C" | _ => "::D" end)%string.
Definition diamond_files : list (list item) := Eval vm_compute in files_of diamond diamond_facts (fun _ => []).
Definition diamond_order (c : nat) : list nat := match c with 2 | 3 => [1] | 4 => [3; 2; 1] | _ => [] end.

Lemma diamond_setting : setting diamond diamond_facts (@rev nat).
Proof. constructor; [placed_unit [1; 5; 2; 6; 3; 4]|language_facts|exists N.of_nat; exact (pop_first_good diamond)|intros l; apply Permutation_rev]. Qed.

(** struct GENPYBIND(visible) A(1) { void f(2)(); };  struct GENPYBIND(visible) B(3) : A { void f(4)() GENPYBIND(hidden); }; *)
Definition concealed : unit :=
  mkUnit
    (fun i => match i with
              | 0 => a_decl KOther false None []
              | 1 => a_decl KRecord false None ["visible"]%string
              | 3 => a_class 1 "A"
              | 4 => a_decl (KMethod NoOperator) false None ["hidden"]%string
              | _ => a_decl (KMethod NoOperator) false None []
              end)
    [Node 1 [Node 2 []]; Node 3 [Node 4 []]] 0 (fun i => match i with 0 => [] | 2 => [1; 0] | 4 => [3; 0] | _ => [0] end)
    (fun _ => true) (fun _ => false) (fun i => i) (fun _ => false) (fun i => match i with 1 => $"A" | 3 => $"B" | _ => $"f" end) (fun _ => false) N.of_nat.
Definition concealed_facts : facts :=
  simple_facts concealed (derives 3 1) (fun c => match c with 0 => [1; 3] | 1 => [2] | 3 => [4] | _ => [] end) (fun i => match i with 1 => "::A" | _ => "::B" end)%string.
Definition concealed_files : list (list item) := Eval vm_compute in files_of concealed concealed_facts (fun _ => []).

Lemma concealed_setting : setting concealed concealed_facts (@rev nat).
Proof. constructor; [placed_unit [1; 2; 3; 4]|language_facts|exists N.of_nat; exact (pop_first_good concealed)|intros l; apply Permutation_rev]. Qed.

Ltac listed := repeat (apply Forall2_cons; [cbn; auto 6|]); apply Forall2_nil.

Definition has (p : pystate) (k : str) (c : nat) : bool := match own p (Class c) k with Some _ => true | None => false end.
Lemma has_attribute p k c : has p k c = true -> own p (Class c) k <> None.
Proof. unfold has. destruct (own p (Class c) k); [discriminate|intros [=]]. Qed.
Lemma lacks_attribute p k c : has p k c = false -> ~ own p (Class c) k <> None.
Proof. unfold has. destruct (own p (Class c) k); [intros [=]|auto]. Qed.

(** Neither inlined nor hidden bases. *)
Definition no_requests (u : unit) (r : option run_result) (cs : list nat) : bool :=
  match r with
  | Some (RGraph b _) => forallb (fun c => match gather_all u (bs_annotations b) c with Some ([], []) => true | _ => false end) cs
  | _ => false
  end.

Lemma no_requests_made u r cs b e c : r = Some (RGraph b e) -> no_requests u r cs = true -> In c cs -> forall x, ~ requested u (bs_annotations b) c x /\ ~ hides u (bs_annotations b) c x.
Proof.
  intros -> H Hc x. cbn [no_requests] in H. rewrite forallb_forall in H. specialize (H c Hc).
  destruct (InlineProofs.gather_spec u (bs_annotations b) c) as (l1 & l2 & E & H1 & H2). rewrite E in H. destruct l1; [|discriminate H]. destruct l2; [|discriminate H].
  split; [rewrite <- H1|rewrite <- H2]; intros [].
Qed.

Lemma first_free_is all ls : forall x, first_free all ls = Some x -> exists be t af, ls = be ++ (x :: t) :: af /\ free all x /\ forall y t', In (y :: t') be -> ~ free all y.
Proof.
  induction ls as [|l ls IH]; intros x H; cbn [first_free] in H; [discriminate H|]. destruct l as [|y t].
  - destruct (IH x H) as (be & t & af & -> & F & N). exists ([] :: be), t, af. split; [reflexivity|]. split; [exact F|]. intros y t' [E|Hy]; [discriminate E|exact (N y t' Hy)].
  - destruct (is_free all y) eqn:Ey.
    + injection H as <-. exists [], t, ls. split; [reflexivity|]. split; [now apply is_free_iff|intros ? ? []].
    + destruct (IH x H) as (be & t' & af & -> & F & N). exists ((y :: t) :: be), t', af. split; [reflexivity|]. split; [exact F|].
      intros z t'' [E|Hy]; [|exact (N z t'' Hy)]. injection E as <- _. rewrite <- is_free_iff. congruence.
Qed.

Lemma merge_merges fuel : forall ls r, merge fuel ls = Some r -> merges ls r.
Proof.
  assert (D : forall ls, forallb (fun l : list nat => match l with [] => true | _ => false end) ls = true -> merges ls []).
  { intros ls H. apply merges_done. intros l Hl. rewrite forallb_forall in H. specialize (H l Hl). now destruct l. }
  induction fuel as [|fuel IH]; intros ls r; cbn [merge]; destruct (forallb _ ls) eqn:E; try discriminate; try (intros [= <-]; exact (D ls E)).
  destruct (first_free ls ls) as [x|] eqn:F; [|discriminate]. destruct (merge fuel (map (advance x) ls)) as [r'|] eqn:M; cbn [option_map]; [|discriminate].
  intros [= <-]. apply merges_next; [|exact (IH _ _ M)]. exact (first_free_is _ _ _ F).
Qed.

(** D inherits f from B, although A comes first on the way via C. *)
Example attributes_hide_those_of_bases_example :
  exists b st' intros calls post ms s p, setting diamond diamond_facts (@rev nat) /\
    generate diamond diamond_facts (fun _ => []) (fun _ => false) (@rev nat) 1 ($"m") = Some (RGraph b (EWritten diamond_files [] st')) /\
    In (IModule ($"m") intros calls post) (concat diamond_files) /\ creates [] intros ms /\ searched_in diamond_order ms /\
    introduced_class intros 4 /\ plain_hierarchy diamond (bs_annotations b) (w_hierarchy diamond_facts) (introduced_class intros) 4 /\
    imported diamond_order diamond_files = Some (s, p) /\ finds (w_hierarchy diamond_facts) (fun y => own p (Class y) ($"f") <> None) 4 2 /\
    sees (w_hierarchy diamond_facts) (fun y => own p (Class y) ($"f") <> None) 4 1 /\ getattr diamond_order p (Class 4) ($"f") = Some (MFunction false [with_args "f" 6 []]) /\
    forall x, ~ sees (w_hierarchy diamond_facts) (fun y => own p (Class y) ($"g") <> None) 4 x.
Proof.
  destruct (written_inv (generate diamond diamond_facts (fun _ => []) (fun _ => false) (@rev nat) 1 ($"m")) diamond_files) as (b & st' & E & _); [vm_compute; reflexivity|].
  assert (Hin : exists calls post, In (IModule ($"m") (intros_of diamond_files) calls post) (concat diamond_files)) by (do 2 eexists; do 5 right; left; reflexivity).
  destruct Hin as (calls & post & Hin).
  assert (Hr : exists s p, imported diamond_order diamond_files = Some (s, p) /\ map (has p ($"f")) [1; 2; 3; 4] = [true; true; false; false] /\
    map (has p ($"g")) [1; 2; 3; 4] = [false; false; false; false] /\ getattr diamond_order p (Class 4) ($"f") = Some (MFunction false [with_args "f" 6 []])).
  { do 2 eexists. split; [vm_compute; reflexivity|]. split; [reflexivity|]. split; reflexivity. }
  destruct Hr as (s & p & Hr & Hf & Hg & Ha). cbn [map] in Hf, Hg. injection Hf as F1 F2 F3 F4. injection Hg as G1 G2 G3 G4.
  exists b, st', (intros_of diamond_files), calls, post, [(4, [4; 3; 2; 1]); (3, [3; 1]); (2, [2; 1]); (1, [1])], s, p.
  assert (I : forall c, In c [1; 2; 3; 4] -> introduced_class (intros_of diamond_files) c).
  { intros c Hc. apply class_records_in. assert (class_records (intros_of diamond_files) = [1; 2; 3; 4]) as -> by (vm_compute; reflexivity). exact Hc. }
  assert (O : forall d, d = 4 \/ (exists path, InlineSpec.derives (w_hierarchy diamond_facts) 4 path d) -> In d [1; 2; 3; 4]).
  { intros d [->|(path & D)]; [cbn; auto|]. apply (derives_paths _ 3 (la_acyclic _ _ (se_language _ _ _ diamond_setting))) in D; [|cbn; lia].
    apply (in_map fst) in D. cbn in D. cbn. intuition. }
  split; [exact diamond_setting|]. split; [exact E|]. split; [exact Hin|]. split; [|split; [|split; [|split; [|split; [|split; [|split; [|split]]]]]]].
  - apply creates_other; [discriminate|].
    eapply (creates_class _ _ _ _ _ _ _ [] []); [constructor|listed|apply (merge_merges 3); reflexivity|].
    eapply (creates_class _ _ _ _ _ _ _ [[1]] [1]); [repeat constructor; intros []|listed|apply (merge_merges 3); reflexivity|].
    eapply (creates_class _ _ _ _ _ _ _ [[1]] [1]); [repeat constructor; intros []|listed|apply (merge_merges 3); reflexivity|].
    eapply (creates_class _ _ _ _ _ _ _ [[3; 1]; [2; 1]] [3; 2; 1]); [repeat constructor; cbn; intuition discriminate|listed|apply (merge_merges 9); reflexivity|]. constructor.
  - intros c m H. cbn in H. repeat destruct H as [H|H]; try contradiction; injection H as <- <-; reflexivity.
  - apply I. cbn. auto.
  - intros d s0 Hd Hs. apply O in Hd.
    destruct (no_requests_made diamond _ [1; 2; 3; 4] b _ d E ltac:(vm_compute; reflexivity) Hd (sp_base s0)) as [N1 N2].
    split; [|split; [apply I|auto]]; cbn in Hd; repeat destruct Hd as [<-|Hd]; try contradiction; cbn in Hs; repeat destruct Hs as [<-|Hs]; try contradiction; cbn; auto.
  - exact Hr.
  - split.
    + eapply (sees_base _ _ 4 (mkSpec 2 true false)); [exact (lacks_attribute _ _ _ F4)|right; left; reflexivity|]. apply sees_own. exact (has_attribute _ _ _ F2).
    + intros y Hy. assert (X : y = 2 \/ y = 1).
      { destruct (reached_from _ _ _ _ Hy) as (Dy & Ay). apply O in Ay. cbn in Ay. repeat destruct Ay as [<-|Ay]; auto; try contradiction.
        - destruct (lacks_attribute _ _ _ F3 Dy).
        - destruct (lacks_attribute _ _ _ F4 Dy). }
      destruct X as [->| ->]; [auto|]. right. exists [mkSpec 1 true true]. apply (derives_direct _ 2 (mkSpec 1 true true)). left. reflexivity.
  - eapply (sees_base _ _ 4 (mkSpec 3 true false)); [exact (lacks_attribute _ _ _ F4)|left; reflexivity|].
    eapply (sees_base _ _ 3 (mkSpec 1 true true)); [exact (lacks_attribute _ _ _ F3)|left; reflexivity|]. apply sees_own. exact (has_attribute _ _ _ F1).
  - exact Ha.
  - intros x Hx. destruct (reached_from _ _ _ _ Hx) as (Dx & Ax). apply O in Ax. cbn in Ax. repeat destruct Ax as [<-|Ax]; try contradiction; [exact (lacks_attribute _ _ _ G1 Dx)|exact (lacks_attribute _ _ _ G2 Dx)|exact (lacks_attribute _ _ _ G3 Dx)|exact (lacks_attribute _ _ _ G4 Dx)].
Qed.

(** x of S is found for D, given that the module can be imported as shown for C65. *)
Example inherited_members_can_be_used_example :
  exists b st' intros calls post ms s p, setting toys toys_facts (@rev nat) /\
    generate toys toys_facts (fun _ => []) (fun _ => false) (@rev nat) 1 ($"m") = Some (RGraph b (EWritten toys_files [] st')) /\
    In (IModule ($"m") intros calls post) (concat toys_files) /\ creates [] intros ms /\ searched_in (derived 12 3) ms /\
    introduced_class intros 12 /\ plain_hierarchy toys (bs_annotations b) (w_hierarchy toys_facts) (introduced_class intros) 12 /\
    imported (derived 12 3) toys_files = Some (s, p) /\ finds (w_hierarchy toys_facts) (fun y => own p (Class y) ($"x") <> None) 12 3 /\
    finds (w_hierarchy toys_facts) (fun y => own p (Class y) ($"g") <> None) 12 12 /\ own p (Class 3) ($"g") <> None /\
    getattr (derived 12 3) p (Class 12) ($"x") = Some (MValue (SMember false false ($"x") 7)).
Proof.
  destruct (written_inv (generate toys toys_facts (fun _ => []) (fun _ => false) (@rev nat) 1 ($"m")) toys_files) as (b & st' & E & _); [vm_compute; reflexivity|].
  assert (Hin : exists calls post, In (IModule ($"m") (intros_of toys_files) calls post) (concat toys_files)) by (do 2 eexists; do 6 right; left; reflexivity).
  destruct Hin as (calls & post & Hin).
  assert (Hr : exists s p, imported (derived 12 3) toys_files = Some (s, p) /\ map (has p ($"x")) [3; 12] = [true; false] /\
    map (has p ($"g")) [3; 12] = [true; true] /\ getattr (derived 12 3) p (Class 12) ($"x") = Some (MValue (SMember false false ($"x") 7))).
  { do 2 eexists. split; [vm_compute; reflexivity|]. split; [reflexivity|]. split; reflexivity. }
  destruct Hr as (s & p & Hr & Hf & Hg & Ha). cbn [map] in Hf, Hg. injection Hf as F1 F2. injection Hg as G1 G2.
  exists b, st', (intros_of toys_files), calls, post, [(12, [12; 3]); (3, [3])], s, p.
  assert (I : forall c, In c [3; 12] -> introduced_class (intros_of toys_files) c).
  { intros c Hc. apply class_records_in. assert (class_records (intros_of toys_files) = [3; 12]) as -> by (vm_compute; reflexivity). exact Hc. }
  assert (O : forall d, d = 12 \/ (exists path, InlineSpec.derives (w_hierarchy toys_facts) 12 path d) -> In d [3; 12]).
  { intros d [->|(path & D)]; [cbn; auto|]. apply (derives_paths _ 3 (la_acyclic _ _ (se_language _ _ _ toys_setting))) in D; [|cbn; lia].
    apply (in_map fst) in D. cbn in D. cbn. intuition. }
  split; [exact toys_setting|]. split; [exact E|]. split; [exact Hin|]. split; [|split; [|split; [|split; [|split; [|split; [|split; [|split]]]]]]].
  - do 2 (apply creates_other; [discriminate|]).
    eapply (creates_class _ _ _ _ _ _ _ [] []); [constructor|listed|apply (merge_merges 3); reflexivity|]. do 2 (apply creates_other; [discriminate|]).
    eapply (creates_class _ _ _ _ _ _ _ [[3]] [3]); [repeat constructor; intros []|listed|apply (merge_merges 3); reflexivity|]. constructor.
  - intros c m H. cbn in H. repeat destruct H as [H|H]; try contradiction; injection H as <- <-; reflexivity.
  - apply I. cbn. auto.
  - intros d s0 Hd Hs. apply O in Hd.
    destruct (no_requests_made toys _ [3; 12] b _ d E ltac:(vm_compute; reflexivity) Hd (sp_base s0)) as [N1 N2].
    split; [|split; [apply I|auto]]; cbn in Hd; repeat destruct Hd as [<-|Hd]; try contradiction; cbn in Hs; repeat destruct Hs as [<-|Hs]; try contradiction; cbn; auto.
  - exact Hr.
  - split.
    + eapply (sees_base _ _ 12 (mkSpec 3 true false)); [exact (lacks_attribute _ _ _ F2)|left; reflexivity|]. apply sees_own. exact (has_attribute _ _ _ F1).
    + intros y Hy. left. destruct (reached_from _ _ _ _ Hy) as (Dy & Ay). apply O in Ay. destruct Ay as [<-|[<-|[]]]; [reflexivity|]. destruct (lacks_attribute _ _ _ F2 Dy).
  - split; [apply sees_own; exact (has_attribute _ _ _ G2)|]. intros y Hy. destruct (reached_from _ _ _ _ Hy) as (Dy & Ay). apply O in Ay. destruct Ay as [<-|[<-|[]]]; [|auto].
    right. exists [mkSpec 3 true false]. apply (derives_direct _ 12 (mkSpec 3 true false)). left. reflexivity.
  - exact (has_attribute _ _ _ G1).
  - exact Ha.
Qed.

(** Members that are hidden from Python hide others in C++, but not in Python. *)
Theorem members_hide_those_of_bases_refuted :
  exists u w b files st' intros calls post ms mro s p, setting u w (@rev nat) /\
    generate u w (fun _ => []) (fun _ => false) (@rev nat) 1 ($"m") = Some (RGraph b (EWritten files [] st')) /\ bs_reports b = [] /\
    In (IModule ($"m") intros calls post) (concat files) /\ creates [] intros ms /\ searched_in mro ms /\
    run_module mro (fun _ _ p => Some p) (fun _ => false) held_by_default files (IModule ($"m") intros calls post) = Some (s, p) /\
    exists c x f g k, introduced_class intros c /\ plain_hierarchy u (bs_annotations b) (w_hierarchy w) (introduced_class intros) c /\
      finds (w_hierarchy w) (fun y => exists i, hd_error (u_contexts u i) = Some y /\ u_name u i = k) c x /\
      (forall i, hd_error (u_contexts u i) = Some x /\ u_name u i = k <-> i = f) /\ hd_error (u_contexts u g) <> Some x /\
      getattr mro p (Class c) k = Some (MFunction false [with_args "f" g []]).
Proof.
  destruct (written_inv (generate concealed concealed_facts (fun _ => []) (fun _ => false) (@rev nat) 1 ($"m")) concealed_files) as (b & st' & E & Er); [vm_compute; reflexivity|].
  assert (Hin : exists calls post, In (IModule ($"m") (intros_of concealed_files) calls post) (concat concealed_files) /\ module_of concealed_files = IModule ($"m") (intros_of concealed_files) calls post).
  { do 2 eexists. split; [do 3 right; left; reflexivity|]. vm_compute. reflexivity. }
  destruct Hin as (calls & post & Hin & Em).
  assert (Hr : exists s p, imported (derived 3 1) concealed_files = Some (s, p) /\ getattr (derived 3 1) p (Class 3) ($"f") = Some (MFunction false [with_args "f" 2 []])).
  { do 2 eexists. split; [vm_compute; reflexivity|]. reflexivity. }
  destruct Hr as (s & p & Hr & Ha). unfold imported in Hr. rewrite Em in Hr.
  assert (I : forall c, In c [1; 3] -> introduced_class (intros_of concealed_files) c).
  { intros c Hc. apply class_records_in. assert (class_records (intros_of concealed_files) = [1; 3]) as -> by (vm_compute; reflexivity). exact Hc. }
  exists concealed, concealed_facts, b, concealed_files, st', (intros_of concealed_files), calls, post, [(3, [3; 1]); (1, [1])], (derived 3 1), s, p.
  split; [exact concealed_setting|]. split; [exact E|]. split; [exact Er|]. split; [exact Hin|]. split; [|split; [|split; [exact Hr|]]].
  - apply creates_other; [discriminate|].
    eapply (creates_class _ _ _ _ _ _ _ [] []); [constructor|listed|apply (merge_merges 3); reflexivity|].
    eapply (creates_class _ _ _ _ _ _ _ [[1]] [1]); [repeat constructor; intros []|listed|apply (merge_merges 3); reflexivity|]. constructor.
  - intros c m H. cbn in H. repeat destruct H as [H|H]; try contradiction; injection H as <- <-; reflexivity.
  - exists 3, 3, 4, 2, ($"f"). split; [apply I; cbn; auto|]. split; [|split; [|split; [|split; [discriminate|exact Ha]]]].
    + intros d s0 Hd Hs. assert (Hd' : In d [1; 3]).
      { destruct Hd as [->|(path & D)]; [cbn; auto|]. apply (derives_paths _ 3 (la_acyclic _ _ (se_language _ _ _ concealed_setting))) in D; [|cbn; lia]. apply (in_map fst) in D. cbn in D. cbn. intuition. }
      destruct (no_requests_made concealed _ [1; 3] b _ d E ltac:(vm_compute; reflexivity) Hd' (sp_base s0)) as [N1 N2].
      split; [|split; [apply I|auto]]; cbn in Hd'; repeat destruct Hd' as [<-|Hd']; try contradiction; cbn in Hs; repeat destruct Hs as [<-|Hs]; try contradiction; cbn; auto.
    + split; [apply sees_own; exists 4; split; reflexivity|]. intros y Hy. inversion Hy as [? H|? ? ? H]; subst; [auto|]. destruct H. exists 4. split; reflexivity.
    + intro i. split; [|intros ->; split; reflexivity]. intros [H _]. do 5 (destruct i as [|i]; [try discriminate H; reflexivity|]). discriminate H.
Qed.
Print Assumptions members_hide_those_of_bases_refuted.
