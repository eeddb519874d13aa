(** * Properties of the order of annotations *)
From Coq Require Import Sorting.Permutation.
From Verif Require Import Base ParserModel ParserSpec ParserProofs ParserProps StringModel StringSpec AnnotModel AnnotSpec CollectModel CollectSpec GraphModel GraphSpec GraphWalk GraphPlace GraphFinal GraphProps
  OrderModel OrderSpec OrderProofs OrderProps InlineModel InlineSpec InlineProofs EmitModel EmitSpec EmitProofs EmitFinal EmitProps ModuleModel ModuleSpec ModuleChunks ModuleProofs ModuleFinal ModuleProps
  ImportSpec ImportProofs ImportProps ExecSpec ExecProofs ExecProps AccessSpec AccessProofs AccessProps LocalSpec RewriteSpec RewriteProofs RewriteProps ArrangeSpec ArrangeProofs.

(** ** C105 *)

(** Annotations of a declaration can be rearranged as long as those about the same
    keep their order: if there are no complaints about them, nothing changes. *)
Theorem the_order_of_annotations_does_not_matter : forall u texts w found implicit iteration n name,
  (forall j, texts j = d_attrs (u_decls u j) \/ same_but_order (u_decls u j) (texts j) /\ unobjectionable u j) ->
  generate (rewritten u texts) w found implicit iteration n name = generate u w found implicit iteration n name.
Proof. exact rearranged_same_code. Qed.
Print Assumptions the_order_of_annotations_does_not_matter.

(** Otherwise there are the same attributes and the same complaints, in some order. *)
Theorem the_order_of_annotations_affects_the_order_of_complaints_only : forall u texts j, same_but_order (u_decls u j) (texts j) ->
  match AnnotModel.insert (u_decls u) j [], AnnotModel.insert (u_decls (rewritten u texts)) j [] with
  | None, None => True
  | Some (st, ds), Some (st', ds') => st = st' /\ Permutation ds ds'
  | _, _ => False
  end.
Proof. intros u texts j H. exact (same_but_order_inserted u texts j (or_intror H)). Qed.
Print Assumptions the_order_of_annotations_affects_the_order_of_complaints_only.

(** ** Examples *)

Lemma one_text t l : parse_annotations t = ROk l -> carried [lozenge ++ t] l false.
Proof. intros E. rewrite <- (app_nil_r l). apply ca_good; [now apply denotes_text|constructor]. Qed.

Lemma two_annotations k1 args1 k2 args2 : (forall k, In k (concerns (mkAnnotation k1 args1)) -> ~ In k (concerns (mkAnnotation k2 args2))) ->
  rearranged [mkAnnotation k1 args1; mkAnnotation k2 args2] [mkAnnotation k2 args2; mkAnnotation k1 args1].
Proof.
  intros N. apply rearranged_chosen. intros k. unfold chosen. cbn [filter]. specialize (N k).
  destruct (concern_dec k (mkAnnotation k1 args1)), (concern_dec k (mkAnnotation k2 args2)); try reflexivity. tauto.
Qed.

(** In the example of C72, [GENPYBIND(readonly, hidden)] of y(6) can be written as
    [GENPYBIND(hidden, readonly)]. *)
Definition other_texts (last : list str) (j : nat) : list str := if Nat.eqb j 6 then last else d_attrs (u_decls vault j).

Example the_order_of_annotations_does_not_matter_example :
  generate (rewritten vault (other_texts [lozenge ++ $"hidden, readonly"])) vault_facts vault_found (fun _ => false) (@rev nat) 1 ($"m") =
  generate vault vault_facts vault_found (fun _ => false) (@rev nat) 1 ($"m").
Proof.
  apply the_order_of_annotations_does_not_matter. intros j. unfold other_texts. destruct (Nat.eqb j 6) eqn:E; [|left; reflexivity]. apply Nat.eqb_eq in E. subst j. right. split.
  - constructor.
    + exists [mkAnnotation Readonly []; mkAnnotation Hidden []], [mkAnnotation Hidden []; mkAnnotation Readonly []].
      split; [apply (one_text ($"readonly, hidden")); vm_compute; reflexivity|]. split; [apply (one_text ($"hidden, readonly")); vm_compute; reflexivity|].
      apply two_annotations. intros k [<-|[]] [H|[]]. discriminate H.
    + split; intros _; [exists ($"hidden, readonly")|exists ($"readonly, hidden")]; left; reflexivity.
  - eexists. vm_compute. reflexivity.
Qed.

(** Complaints come in the other order. *)
Definition a_class (text : string) : decl := a_decl KRecord false None [text].

Example the_order_of_complaints_example :
  option_map snd (compute_attrs (a_class "readonly, hidden(1)")) = Some [DInvalidForDeclKind ($"class") (mkAnnotation Readonly []); DWrongNumberOfArguments Hidden] /\
  option_map snd (compute_attrs (a_class "hidden(1), readonly")) = Some [DWrongNumberOfArguments Hidden; DInvalidForDeclKind ($"class") (mkAnnotation Readonly [])] /\
  option_map fst (compute_attrs (a_class "readonly, hidden(1)")) = option_map fst (compute_attrs (a_class "hidden(1), readonly")).
Proof. repeat split; vm_compute; reflexivity. Qed.

(** It is not enough that annotations have different names. *)
Theorem the_order_of_different_annotations_refuted : exists d texts k1 args1 k2 args2, k1 <> k2 /\
  carried (d_attrs d) [mkAnnotation k1 args1; mkAnnotation k2 args2] false /\ carried texts [mkAnnotation k2 args2; mkAnnotation k1 args1] false /\
  exists a a', compute_attrs d = Some (a, []) /\ compute_attrs (with_texts d texts) = Some (a', []) /\ a <> a'.
Proof.
  exists (a_decl KNamespace false None ["module(a), expose_as(b)"]%string), [lozenge ++ $"expose_as(b), module(a)"], Module, [LString ($"a")], ExposeAs, [LString ($"b")].
  split; [discriminate|]. split; [apply (one_text ($"module(a), expose_as(b)")); vm_compute; reflexivity|]. split; [apply (one_text ($"expose_as(b), module(a)")); vm_compute; reflexivity|].
  eexists. eexists. split; [vm_compute; reflexivity|]. split; [vm_compute; reflexivity|]. intros E. apply (f_equal (fun a => n_spelling (at_named a))) in E. discriminate E.
Qed.
Print Assumptions the_order_of_different_annotations_refuted.
