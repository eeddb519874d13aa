(** * Several generated modules in one interpreter *)
From Coq Require Import Sorting.Permutation.
From Verif Require Import Base ParserModel StringModel AnnotModel AnnotSpec CollectModel CollectSpec GraphModel GraphSpec GraphWalk GraphPlace GraphProps
  OrderModel OrderSpec OrderProofs OrderProps InlineModel InlineSpec EmitModel EmitSpec EmitProps ModuleModel ModuleSpec ModuleProofs ModuleFinal ModuleProps ImportSpec ImportProofs ImportProps ExecSpec ExecProps
  FindSpec FindProofs SharedSpec SharedProofs.

(** ** C98 *)

(** Modules without common classes and enumerations can be imported one after the
    other, in whatever order, and are what they are on their own. *)
Theorem modules_can_be_imported_together : forall default_holder ds, Forall proper_product ds -> (forall d, In d ds -> alone default_holder d <> None) -> kept_apart ds ->
  exists rs, imports default_holder [] ds rs /\ Forall2 (fun d r => exists a, alone default_holder d = Some a /\ same_module r a) ds rs.
Proof. intros h ds P A K. exact (imported_together h ds [] P A K (fun _ _ _ _ H => H)). Qed.
Print Assumptions modules_can_be_imported_together.

(** Modules with common ones cannot. *)
Theorem modules_imported_together_are_kept_apart : forall default_holder ds rs, Forall proper_product ds -> imports default_holder [] ds rs -> kept_apart ds.
Proof. intros h ds rs P I. exact (proj1 (imported_apart h ds [] rs P I)). Qed.
Print Assumptions modules_imported_together_are_kept_apart.

(** It is enough that namespaces are annotated such that of any two modules one
    leaves out what the other one may have. *)
Theorem reserved_namespaces_keep_modules_apart : forall default_holder ds, Forall proper_product ds -> (forall d, In d ds -> alone default_holder d <> None) ->
  (forall l1 d l2 e l3, ds = l1 ++ d :: l2 ++ e :: l3 -> forall c, tag (pd_unit d) c -> reserved (pd_unit d) (pd_name d) c \/ reserved (pd_unit e) (pd_name e) c) ->
  exists rs, imports default_holder [] ds rs /\ Forall2 (fun d r => exists a, alone default_holder d = Some a /\ same_module r a) ds rs.
Proof. intros h ds P A R. exact (imported_together h ds [] P A (reserved_apart ds R) (fun _ _ _ _ H => H)). Qed.
Print Assumptions reserved_namespaces_keep_modules_apart.

(** ** Example *)

(** namespace GENPYBIND(visible, only_expose_in(common)) common(1) { struct Base(2) {}; }
    namespace GENPYBIND(visible, only_expose_in(downstream)) downstream(3) { struct Derived(4) : common::Base {};  enum Kind(5) {}; }
    in a header for modules common and downstream. *)
Definition market : unit :=
  mkUnit
    (fun i => match i with
              | 0 => a_decl KOther false None []
              | 1 => a_decl KNamespace false None ["visible, only_expose_in(common)"]%string
              | 2 => a_decl KRecord false None []
              | 3 => a_decl KNamespace false None ["visible, only_expose_in(downstream)"]%string
              | 4 => a_class 2 "Base"
              | 5 => a_decl KEnum false None []
              | _ => a_decl KOther false None []
              end)
    [Node 1 [Node 2 []]; Node 3 [Node 4 []; Node 5 []]] 0
    (fun i => match i with 0 => [] | 2 => [1; 0] | 4 | 5 => [3; 0] | _ => [0] end)
    (fun _ => true) (fun _ => false) (fun i => i) (fun _ => false)
    (fun i => match i with 1 => $"common" | 2 => $"Base" | 3 => $"downstream" | 4 => $"Derived" | _ => $"Kind" end) (fun _ => false) N.of_nat.
Definition market_facts : facts :=
  simple_facts market (derives 4 2) (fun c => match c with 0 => [1; 3] | 1 => [2] | 3 => [4; 5] | _ => [] end)
    (fun i => match i with 1 => "common" | 2 => "::common::Base" | 3 => "downstream" | 4 => "::downstream::Derived" | _ => "::downstream::Kind" end)%string.

Lemma market_setting : setting market market_facts (@rev nat).
Proof. constructor; [placed_unit [1; 2; 3; 4; 5]|language_facts|exists N.of_nat; exact (pop_first_good market)|intros l; apply Permutation_rev]. Qed.

Definition market_files (name : string) : list (list item) :=
  match written (generate market market_facts (fun _ => []) (fun _ => false) (@rev nat) 1 ($name)) with Some files => files | None => [] end.
Definition common_files : list (list item) := Eval vm_compute in market_files "common".
Definition downstream_files : list (list item) := Eval vm_compute in market_files "downstream".

Definition product_of (name : string) (files : list (list item)) (b : bstate) (st : storage) : product :=
  mkProduct market market_facts (fun _ => []) (fun _ => false) (@rev nat) 1 ($name) b files [] st (module_of files) (derived 4 2) (fun _ _ p => Some p) (fun _ => false).

Lemma product_proper name files : written (generate market market_facts (fun _ => []) (fun _ => false) (@rev nat) 1 ($name)) = Some files -> In (module_of files) (concat files) ->
  exists b st, proper_product (product_of name files b st).
Proof.
  intros H Hm. apply written_inv in H as (b & st & H & _). exists b, st. split; [exact market_setting|]. split; [cbn; lia|]. split; [exact H|exact Hm].
Qed.

Lemma market_nearest c p : nearest_context market c p -> hd_error (u_contexts market c) = Some p.
Proof. intros ([|x l1] & l2 & -> & _ & H); [reflexivity|]. specialize (H x (or_introl eq_refl)). discriminate H. Qed.

Lemma market_place p c : place market p c -> hd_error (u_contexts market c) = Some p.
Proof.
  intros [(a & (x & (Hin & Hk & _) & _) & _)|(_ & _ & _ & _ & Hc)]; [|apply market_nearest, Hc].
  do 6 (destruct a as [|a]; [discriminate Hk|]). discriminate Hk.
Qed.

Lemma market_elsewhere (name : str) ns ans : In ns [1; 3] -> parse_annotations (skipn (length lozenge) (hd [] (d_attrs (u_decls market ns)))) = ROk ans ->
  AnnotSpec.given OnlyExposeIn ans -> ~ named_by OnlyExposeIn ans name -> elsewhere market name ns.
Proof.
  intros Hn Hp G N. split; [cbn in Hn; destruct Hn as [<-|[<-|[]]]; reflexivity|]. split; [cbn in Hn; destruct Hn as [<-|[<-|[]]]; vm_compute; auto|].
  split; [apply CollectProofs.counts_b_iff; cbn in Hn; destruct Hn as [<-|[<-|[]]]; vm_compute; reflexivity|]. exists ans. split; [|split; assumption].
  cbn in Hn; destruct Hn as [<-|[<-|[]]]; apply AnnotFinal.carried_one; exact Hp.
Qed.

Lemma for_others name ns c other : In ns [1; 3] -> hd_error (u_contexts market c) = Some ns -> kind market c <> KOther ->
  parse_annotations (skipn (length lozenge) (hd [] (d_attrs (u_decls market ns)))) = ROk [mkAnnotation Visible []; mkAnnotation OnlyExposeIn [LString other]] ->
  other <> name -> reserved market name c.
Proof.
  intros Hn Hc Hk Hp Ho l Hl. exists ns. split.
  - inversion Hl as [Ec|p c' l' Hl' Pl]; subst.
    + change (u_root market) with 0 in Hk. destruct Hk. reflexivity.
    + apply market_place in Pl. rewrite Hc in Pl. injection Pl as <-. inversion Hl'; subst; right; left; reflexivity.
  - eapply market_elsewhere; [exact Hn|exact Hp| |].
    + eexists. split; [right; left; reflexivity|reflexivity].
    + intros (an & [<-|[<-|[]]] & K & H); [discriminate K|]. destruct H as [[= H]|[]]. congruence.
Qed.

(** The premises of all three are met. *)
Example modules_can_be_imported_together_example :
  exists d e, pd_name d = $"common" /\ pd_name e = $"downstream" /\ Forall proper_product [d; e] /\
    (forall x, In x [d; e] -> alone held_by_default x <> None) /\ kept_apart [d; e] /\
    (forall l1 x l2 y l3, [d; e] = l1 ++ x :: l2 ++ y :: l3 -> forall c, tag (pd_unit x) c -> reserved (pd_unit x) (pd_name x) c \/ reserved (pd_unit y) (pd_name y) c) /\
    to_be_found (pd_unit d) (pd_name d) 2 /\ to_be_found (pd_unit e) (pd_name e) 4 /\ to_be_found (pd_unit e) (pd_name e) 5 /\
    exists s p s' p', imports held_by_default [] [d; e] [(s, p); (s', p')] /\ attribute s (Mod []) ($"Base") = Some (Class 2) /\ attribute s' (Mod []) ($"Derived") = Some (Class 4) /\ attribute s' (Mod []) ($"Base") = None.
Proof.
  destruct (product_proper "common" common_files) as (b & st & P1); [vm_compute; reflexivity|vm_compute; auto 10|].
  destruct (product_proper "downstream" downstream_files) as (b' & st' & P2); [vm_compute; reflexivity|vm_compute; auto 10|].
  exists (product_of "common" common_files b st), (product_of "downstream" downstream_files b' st'). split; [reflexivity|]. split; [reflexivity|].
  assert (P : Forall proper_product [product_of "common" common_files b st; product_of "downstream" downstream_files b' st']) by (constructor; [exact P1|constructor; [exact P2|constructor]]).
  assert (R : forall l1 x l2 y l3, [product_of "common" common_files b st; product_of "downstream" downstream_files b' st'] = l1 ++ x :: l2 ++ y :: l3 ->
    forall c, tag (pd_unit x) c -> reserved (pd_unit x) (pd_name x) c \/ reserved (pd_unit y) (pd_name y) c).
  { intros l1 x l2 y l3 E. assert (Exy : x = product_of "common" common_files b st /\ y = product_of "downstream" downstream_files b' st').
    { destruct l1 as [|? [|? l1]]; cbn in E; [injection E as <- E|injection E as _ _ E'; destruct l2; discriminate E'|injection E as _ _ E; destruct l1; discriminate E].
      destruct l2 as [|? l2]; cbn in E; [injection E as <- _; auto|injection E as _ E; destruct l2; discriminate E]. }
    destruct Exy as [-> ->]. cbn [pd_unit pd_name product_of]. intros c Tc.
    do 6 (destruct c as [|c]; [first [solve [destruct Tc; discriminate]|
      solve [left; apply (for_others _ 3 _ ($"downstream")); [cbn; auto|reflexivity|discriminate|vm_compute; reflexivity|discriminate]]|
      right; apply (for_others _ 1 _ ($"common")); [cbn; auto|reflexivity|discriminate|vm_compute; reflexivity|discriminate]]|]). destruct Tc; discriminate. }
  assert (A : forall x, In x [product_of "common" common_files b st; product_of "downstream" downstream_files b' st'] -> alone held_by_default x <> None).
  { intros x [<-|[<-|[]]]; unfold alone; cbn [pd_mro pd_manual pd_fails pd_files pd_block product_of]; vm_compute; discriminate. }
  split; [exact P|]. split; [exact A|]. split; [exact (reserved_apart _ R)|]. split; [exact R|].
  assert (I1 := introduced_found held_by_default _ [] P1 (A _ (or_introl eq_refl))). assert (I2 := introduced_found held_by_default _ [] P2 (A _ (or_intror (or_introl eq_refl)))).
  split; [apply I1; vm_compute; auto|]. split; [apply I2; vm_compute; auto|]. split; [apply I2; vm_compute; auto|].
  do 4 eexists. split; [eapply im_cons; [vm_compute; reflexivity|]; eapply im_cons; [vm_compute; reflexivity|]; apply im_nil|]. repeat split; vm_compute; reflexivity.
Qed.

(** A class exposed by one of the modules is not a base in Python of classes of the
    other one, although it is in C++ and has been imported before: downstream.Derived
    has no base. *)
Theorem bases_in_other_modules_refuted : exists default_holder d e rs b c t id parent n dynamic,
  Forall proper_product [d; e] /\ imports default_holder [] [d; e] rs /\ to_be_found (pd_unit d) (pd_name d) b /\ to_be_found (pd_unit e) (pd_name e) c /\
  In (mkSpec b true false) (h_direct (w_hierarchy (pd_facts e)) c) /\
  In (id, NClass t parent n dynamic) (introduced e) /\ ct_record t = c /\ ct_bases t = [].
Proof.
  destruct (product_proper "common" common_files) as (b & st & P1); [vm_compute; reflexivity|vm_compute; auto 10|].
  destruct (product_proper "downstream" downstream_files) as (b' & st' & P2); [vm_compute; reflexivity|vm_compute; auto 10|].
  assert (A1 : run_into held_by_default [] (product_of "common" common_files b st) <> None) by (vm_compute; discriminate).
  assert (A2 : run_into held_by_default [] (product_of "downstream" downstream_files b' st') <> None) by (vm_compute; discriminate).
  assert (I1 := introduced_found held_by_default _ [] P1 A1). assert (I2 := introduced_found held_by_default _ [] P2 A2).
  exists held_by_default, (product_of "common" common_files b st), (product_of "downstream" downstream_files b' st').
  assert (E : exists rs, imports held_by_default [] [product_of "common" common_files b st; product_of "downstream" downstream_files b' st'] rs).
  { eexists. eapply im_cons; [vm_compute; reflexivity|]. eapply im_cons; [vm_compute; reflexivity|]. apply im_nil. }
  destruct E as (rs & E). exists rs, 2, 4, (mkClass 4 [] []). do 4 eexists. split; [constructor; [exact P1|constructor; [exact P2|constructor]]|]. split; [exact E|].
  split; [apply I1; vm_compute; auto|]. split; [apply I2; vm_compute; auto|]. split; [left; reflexivity|]. split; [|split; reflexivity].
  unfold introduced. cbn [pd_block product_of]. vm_compute. right. right. left. reflexivity.
Qed.
Print Assumptions bases_in_other_modules_refuted.
