(** * Properties of the collection of contexts and annotations *)
From Verif Require Import Base ParserModel AnnotModel AnnotSpec CollectModel CollectSpec CollectProofs.

(** C18: an error is reported at a namespace block exactly if it is annotated
    or contains annotated declarations, there is an earlier such block of the
    same namespace and its attributes differ from those of the first one. *)
Theorem reopened_namespaces_agree :
  forall u s, sane u -> collect u = Some s -> forall n m,
    In (RMismatch n m) (cs_reports s) <->
    relevant_block u n /\ first_relevant u n m /\ n <> m /\
    block_attributes (cs_annotations s) n <> block_attributes (cs_annotations s) m.
Proof. exact reopened_namespaces. Qed.
Print Assumptions reopened_namespaces_agree.

(** C18: the comparison is equality up to the order of sets, and an equivalence. *)
Theorem attribute_comparison_is_equality :
  forall u s, sane u -> collect u = Some s -> forall i j, kind u i = kind u j ->
    (equal u (cs_annotations s) i j = true <->
     match lookup_attrs (cs_annotations s) i, lookup_attrs (cs_annotations s) j with
     | Some a, Some b => same_attrs (u_decls u i) a b
     | None, None => True
     | _, _ => False
     end).
Proof. exact equal_same. Qed.
Print Assumptions attribute_comparison_is_equality.

Theorem attribute_comparison_is_equivalence :
  forall u s, sane u -> collect u = Some s ->
    let eq := equal u (cs_annotations s) in
    (forall i, eq i i = true) /\
    (forall i j, kind u i = kind u j -> eq i j = true -> eq j i = true) /\
    (forall i j k, kind u i = kind u j -> kind u j = kind u k -> eq i j = true -> eq j k = true -> eq i k = true).
Proof. exact equal_equivalence. Qed.
Print Assumptions attribute_comparison_is_equivalence.

(** C52: exactly the annotated declarations outside of ignored namespaces,
    dependent contexts and incomplete types are stored, each once, in source
    order and with the attributes of its own annotations; likewise for the
    contexts and aliases handed on. *)
Theorem annotations_are_collected_in_source_order :
  forall u s, sane u -> collect u = Some s ->
    let stored := map fst (cs_annotations s) in
    (forall i, In i stored <-> In i (source_order u) /\ counts u i) /\
    (NoDup stored /\ forall i j, before stored i j -> precedes u i j) /\
    (forall i, In i stored -> exists st' ds a, AnnotModel.insert (u_decls u) i [] = Some (st', ds) /\
       lookup_attrs st' i = Some a /\ lookup_attrs (cs_annotations s) i = Some a) /\
    (forall i, In i (cs_contexts s) <-> In i (source_order u) /\ context_kind (kind u i) /\ d_skip (u_decls u i) = false) /\
    (NoDup (cs_contexts s) /\ forall i j, before (cs_contexts s) i j -> precedes u i j) /\
    (forall i, In i (cs_aliases s) <-> In i (source_order u) /\ kind u i = KTypedef /\ counts u i) /\
    (NoDup (cs_aliases s) /\ forall i j, before (cs_aliases s) i j -> precedes u i j).
Proof. exact collected_declarations. Qed.
Print Assumptions annotations_are_collected_in_source_order.

(** C52: collecting is defined unless storing one of the annotations is not (C51). *)
Theorem collecting_goes_wrong_only_with_nested_reports :
  forall u, sane u ->
    (collect u = None <-> exists i, In i (source_order u) /\ counts u i /\ AnnotModel.insert (u_decls u) i [] = None).
Proof. exact collect_none. Qed.
Print Assumptions collecting_goes_wrong_only_with_nested_reports.

(** Namespace 1 (annotated) with class 2, reopened twice: 3 without annotation
    but containing the annotated class 4, and 5 containing only plain
    declarations; the ignored namespace 7 contains the annotated class 8. *)
Definition example_decl (k : dkind) (skip : bool) (texts : list string) : decl :=
  mkDecl k (map (fun t => lozenge ++ $t) texts) skip [] 0 false false false [] [] None true (Some 0).

Definition example_unit : unit :=
  mkUnit
    (fun i => match i with
              | 1 => example_decl KNamespace false ["visible"]%string
              | 3 | 5 => example_decl KNamespace false []
              | 7 => example_decl KNamespace true []
              | 4 | 8 => example_decl KRecord false ["hidden"]%string
              | _ => example_decl KRecord false []
              end)
    [Node 1 [Node 2 []]; Node 3 [Node 4 []]; Node 5 [Node 6 []]; Node 7 [Node 8 []]] 0
    (fun i => match i with 2 => [1; 0] | 4 => [3; 0] | 6 => [5; 0] | 8 => [7; 0] | _ => [0] end)
    (fun _ => true) (fun _ => false) (fun i => match i with 1 | 3 | 5 => 1 | _ => i end) (fun _ => false) (fun _ => []) (fun _ => false) N.of_nat.

Example C18_example :
  sane example_unit /\
  option_map (fun s => (cs_reports s, map fst (cs_annotations s), cs_contexts s)) (collect example_unit) =
  Some ([RMismatch 3 1], [1; 4], [1; 2; 3; 4; 5; 6]).
Proof.
  split; [|vm_compute; reflexivity]. constructor.
  - change (NoDup [1; 2; 3; 4; 5; 6]). repeat constructor; cbn; intuition congruence.
  - intros n ts m (t & Ht & Hi) Hm Hn Hk.
    assert (In m [2; 4; 6]).
    { destruct Ht as [<-|[<-|[<-|[<-|[]]]]]; inversion Hi; subst; cbn in *; repeat (match goal with
        | H : _ \/ _ |- _ => destruct H | H : False |- _ => destruct H | H : Node _ _ = _ |- _ => subst | H : inside _ (Node _ _) _ |- _ => inversion H; subst; clear H | H : In _ [] |- _ => destruct H end; subst; cbn in *); try discriminate; auto. }
    cbn in H. destruct H as [<-|[<-|[<-|[]]]]; discriminate.
  - intros i. unfold kind, example_unit. cbn. do 9 (destruct i as [|i]; [cbn; auto; discriminate|]). cbn. discriminate.
Qed.
