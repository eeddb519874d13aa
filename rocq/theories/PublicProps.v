(** * Access to what the generated code refers to *)
From Coq Require Import Sorting.Permutation.
From Verif Require Import Base ParserModel StringModel AnnotModel AnnotSpec CollectModel CollectSpec GraphModel GraphSpec GraphWalk GraphPlace GraphProps
  OrderModel OrderSpec OrderProofs OrderProps InlineModel InlineSpec EmitModel EmitSpec EmitProps ModuleModel ModuleSpec ModuleProofs ModuleFinal ModuleProps ImportSpec ImportProofs ImportProps ExecSpec ExecProps AccessSpec AccessProps
  FindSpec FindProofs PublicSpec PublicProofs.

(** ** C83 *)

(** The generated code only refers to public members, if using-declarations do not
    make members more accessible.  (Operators found by argument-dependent lookup are
    not referred to by their names, so that their access does not matter.)  Missing:
    using-declarations of protected members, see the refutation below. *)
Theorem members_referred_to_are_public_partial : forall u w found implicit iteration n name b files rs st', setting u w iteration -> 0 < n ->
  generate u w found implicit iteration n name = Some (RGraph b (EWritten files rs st')) ->
  forall i, same_access w -> modest_usings w -> referred files i ->
  is_public w i \/ exists j, (i = j \/ exists l, x_specializations (w_extra w) j = Some l /\ In i l) /\ used_in_expressions w j.
Proof. exact referred_public. Qed.
Print Assumptions members_referred_to_are_public_partial.

(** In any case they have a public declaration or using-declaration. *)
Theorem members_referred_to_are_named_publicly : forall u w found implicit iteration n name b files rs st', setting u w iteration -> 0 < n ->
  generate u w found implicit iteration n name = Some (RGraph b (EWritten files rs st')) ->
  forall i, referred files i ->
  (exists j, (i = j \/ exists l, x_specializations (w_extra w) j = Some l /\ In i l) /\ named_publicly w j) \/
  exists j, (i = j \/ exists l, x_specializations (w_extra w) j = Some l /\ In i l) /\ used_in_expressions w j.
Proof. exact referred_named. Qed.
Print Assumptions members_referred_to_are_named_publicly.

(** Protected and private classes and enumerations are only exposed, as are those
    nested in them, if they are annotated as visible themselves.  Missing: they are
    not accessible then either, see the refutation below. *)
Theorem types_exposed_are_public_or_said_to_be_visible_partial : forall u w found implicit iteration n name b files rs st', setting u w iteration -> 0 < n ->
  generate u w found implicit iteration n name = Some (RGraph b (EWritten files rs st')) ->
  forall c, introduced files c -> tag u c /\ exists l, path (place u) (u_root u) (c :: l) /\
    forall m, In m (c :: l) -> tag u m -> u_hidden_access u m = true -> stated u m (Some true).
Proof. exact introduced_public. Qed.
Print Assumptions types_exposed_are_public_or_said_to_be_visible_partial.

(** ** Examples *)

(** struct GENPYBIND(visible) B(1) { void a(2)(); protected: void b(3)(); struct N(4) {}; };
    struct GENPYBIND(visible) D(5) : private B { using B::a(6); };

    and variants with another member [shadowed] and annotations of N. *)
Definition room (nested : list string) : unit :=
  mkUnit
    (fun i => match i with
              | 0 | 6 => a_decl KOther false None []
              | 1 | 5 => a_decl KRecord false None ["visible"]%string
              | 4 => a_decl KRecord false None nested
              | _ => a_decl (KMethod NoOperator) false None []
              end)
    [Node 1 [Node 2 []; Node 3 []; Node 4 []]; Node 5 [Node 6 []]] 0
    (fun i => match i with 0 => [] | 1 | 5 => [0] | 6 => [5; 0] | _ => [1; 0] end)
    (fun _ => true) (fun _ => false) (fun i => i) (fun _ => false)
    (fun i => match i with 1 => $"B" | 2 => $"a" | 3 => $"b" | 4 => $"N" | _ => $"D" end) (fun i => match i with 3 | 4 => true | _ => false end) N.of_nat.

Definition room_facts (nested : list string) (shadowed : nat) : facts :=
  mkFacts (mkExtra (fun _ => a_fn [] None) (fun _ => false) (fun _ => None) (fun _ => false) (fun _ => false) (fun _ => false) (fun _ => None) (fun _ _ => []))
    (mkHierarchy (fun i => if Nat.eqb i 5 then [mkSpec 1 false false] else []) (fun i => if Nat.eqb i 5 then 1 else 0))
    (fun i => mkMember (match i with 3 | 4 => false | _ => true end) false false (match i with 2 | 3 | 4 => Some 1 | 6 => Some 5 | _ => None end)
      (match i with 6 => Some shadowed | _ => None end) (is_tag_kind (kind (room nested) i)) true)
    (fun c => map (fun i => mkFound i None false) (match c with 0 => [1; 5] | 1 => [2; 3; 4] | 5 => [6] | _ => [] end))
    (fun i => match i with 1 => $"::B" | 4 => $"::B::N" | _ => $"::D" end) [] (pop_first (room nested)).

Lemma room_placed : placed (room []).
Proof. placed_unit [1; 2; 3; 4; 5; 6]. Qed.
Lemma room_setting shadowed : setting (room []) (room_facts [] shadowed) (@rev nat).
Proof. constructor; [exact room_placed|language_facts|exists N.of_nat; exact (pop_first_good (room []))|intros l; apply Permutation_rev]. Qed.
Lemma open_room_placed : placed (room ["visible"%string]).
Proof. placed_unit [1; 2; 3; 4; 5; 6]. Qed.
Lemma open_room_setting shadowed : setting (room ["visible"%string]) (room_facts ["visible"%string] shadowed) (@rev nat).
Proof. constructor; [exact open_room_placed|language_facts|exists N.of_nat; exact (pop_first_good (room ["visible"%string]))|intros l; apply Permutation_rev]. Qed.

Definition room_files nested shadowed : list (list item) := files_of (room nested) (room_facts nested shadowed) (fun _ => []).

Definition stmts_of (i : item) : list stmt := match i with IDefine _ _ body => body | _ => [] end.
Definition tags_of (i : item) : list nat :=
  match i with IModule _ intros _ _ => flat_map (fun p : str * introducer => match snd p with NEnum e _ _ _ => [e] | NClass t _ _ _ => [ct_record t] | _ => [] end) intros | _ => [] end.

Lemma referred_iff files i : referred files i <-> exists t, In t (flat_map stmts_of (concat files)) /\ mentions t i.
Proof.
  split.
  - intros (id & q & body & t & Hd & Ht & Hm). exists t. split; [|exact Hm]. apply in_flat_map. exists (IDefine id q body). auto.
  - intros (t & Ht & Hm). apply in_flat_map in Ht as ([| |id q body] & Hd & Ht); try destruct Ht. exists id, q, body, t. auto.
Qed.

Lemma function_referred files i :
  existsb (fun t => match t with SFunction _ _ j _ _ => Nat.eqb i j | _ => false end) (flat_map stmts_of (concat files)) = true -> referred files i.
Proof.
  intros H. apply existsb_exists in H as (t & Ht & H). apply referred_iff. exists t. split; [exact Ht|]. destruct t; try discriminate H. apply Nat.eqb_eq in H. exact H.
Qed.

Lemma introduced_iff files c : introduced files c <-> In c (flat_map tags_of (concat files)).
Proof.
  rewrite in_flat_map. split.
  - intros (nm & intros & calls & post & id & i & Hm & Hi & Hc). exists (IModule nm intros calls post). split; [exact Hm|]. apply in_flat_map. exists (id, i). split; [exact Hi|].
    destruct i; cbn in *; auto.
  - intros ([|nm intros calls post|] & Hm & H); try destruct H. apply in_flat_map in H as ([id i] & Hi & H). exists nm, intros, calls, post, id, i. split; [exact Hm|]. split; [exact Hi|].
    destruct i; cbn in H; try contradiction; destruct H as [H|[]]; exact H.
Qed.

Example members_referred_to_are_public_example :
  setting (room []) (room_facts [] 2) (@rev nat) /\
  (exists b st', generate (room []) (room_facts [] 2) (fun _ => []) (fun _ => false) (@rev nat) 1 ($"m") = Some (RGraph b (EWritten (room_files [] 2) [] st')) /\ bs_reports b = []) /\
  same_access (room_facts [] 2) /\ modest_usings (room_facts [] 2) /\
  (forall i, referred (room_files [] 2) i <-> i = 2) /\ (forall c, introduced (room_files [] 2) c <-> c = 1 \/ c = 5).
Proof.
  split; [apply room_setting|]. split; [apply written_inv; vm_compute; reflexivity|]. split; [intros i l j E; discriminate E|]. split.
  { intros c f t Hf Hs Hp. do 6 (destruct c as [|c]; [cbn in Hf; repeat (destruct Hf as [<-|Hf]; [cbn in Hs; try discriminate Hs; injection Hs as <-; reflexivity|]); destruct Hf|]). destruct Hf. }
  split.
  - intros i. split.
    + rewrite referred_iff. intros (t & Ht & Hm). vm_compute in Ht. repeat (destruct Ht as [<-|Ht]; [cbn in Hm; first [exact Hm|destruct Hm]|]). destruct Ht.
    + intros ->. apply function_referred. vm_compute. reflexivity.
  - intros c. rewrite introduced_iff. vm_compute. intuition.
Qed.

(** With [using B::b], code that refers to the protected member [B::b] is generated. *)
Theorem members_referred_to_are_public_refuted : exists u w found implicit iteration n name b files st' i, setting u w iteration /\ 0 < n /\
  generate u w found implicit iteration n name = Some (RGraph b (EWritten files [] st')) /\ bs_reports b = [] /\
  same_access w /\ (forall j, ~ used_in_expressions w j) /\ referred files i /\ ~ is_public w i.
Proof.
  assert (E : exists b st', generate (room []) (room_facts [] 3) (fun _ => []) (fun _ => false) (@rev nat) 1 ($"m") = Some (RGraph b (EWritten (room_files [] 3) [] st')) /\ bs_reports b = [])
    by (apply written_inv; vm_compute; reflexivity).
  destruct E as (b & st' & E & Hb). exists (room []), (room_facts [] 3), (fun _ => []), (fun _ => false), (@rev nat), 1, ($"m"), b, (room_files [] 3), st', 3.
  split; [apply room_setting|]. split; [lia|]. split; [exact E|]. split; [exact Hb|]. split; [intros i l j H; discriminate H|]. split; [intros j (r & k & j' & [] & _)|]. split; [|discriminate].
  apply function_referred. vm_compute. reflexivity.
Qed.
Print Assumptions members_referred_to_are_public_refuted.

(** With [struct GENPYBIND(visible) N], the protected class [B::N] is exposed. *)
Theorem types_exposed_are_public_refuted : exists u w found implicit iteration n name b files st' c, setting u w iteration /\ 0 < n /\
  generate u w found implicit iteration n name = Some (RGraph b (EWritten files [] st')) /\ bs_reports b = [] /\
  introduced files c /\ u_hidden_access u c = true /\ ~ is_public w c.
Proof.
  assert (E : exists b st', generate (room ["visible"%string]) (room_facts ["visible"%string] 2) (fun _ => []) (fun _ => false) (@rev nat) 1 ($"m") = Some (RGraph b (EWritten (room_files ["visible"%string] 2) [] st')) /\ bs_reports b = [])
    by (apply written_inv; vm_compute; reflexivity).
  destruct E as (b & st' & E & Hb). exists (room ["visible"%string]), (room_facts ["visible"%string] 2), (fun _ => []), (fun _ => false), (@rev nat), 1, ($"m"), b, (room_files ["visible"%string] 2), st', 4.
  split; [apply open_room_setting|]. split; [lia|]. split; [exact E|]. split; [exact Hb|]. split; [|split; [reflexivity|discriminate]].
  apply introduced_iff. vm_compute. auto.
Qed.
Print Assumptions types_exposed_are_public_refuted.
