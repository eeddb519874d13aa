(** * Properties of annotations from source text to stored attributes *)
From Verif Require Import Base ParserModel ParserSpec AnnotModel AnnotSpec AnnotProps ModuleModel MacroModel MacroSpec CommandModel ActiveSpec ActiveProps SourceSpec SourceProofs.

(** ** C118 *)

(** The attributes of a declaration are described by the annotations written in the
    source file, for any compile command; errors are reported exactly if one of
    them is not acceptable (or an alias has no suitable target). *)
Theorem attributes_are_those_written_in_the_source : forall arity resource_dir program args args' os on defs srcs ls rest items o,
  arity_of_clang arity -> program <> $"--" -> adjust resource_dir (program :: args) = Some args' -> reading arity (tl args') os -> (on = true <-> macro_defined header_guard os) ->
  Forall2 (annotates defs) srcs ls -> pp_lex rest = Some items -> preprocess_items on defs items = Some o ->
  exists texts, preprocess_text on defs (flat_map macro srcs ++ rest) = Some (map OAnnotate texts ++ o) /\
    forall decls i st st' ds, d_attrs (decls i) = texts -> lookup_attrs st i = None -> d_skip (decls i) = false -> insert decls i st = Some (st', ds) ->
      let ans := concat ls in
      exists a, lookup_attrs st' i = Some a /\
        (has_error ds <-> targetless_alias (decls i) \/ exists before an after, ans = before ++ an :: after /\ ~ accepted (decls i) before an) /\
        (~ has_error ds -> exists v, default_visibility (decls i) v /\ described (decls i) v ans a).
Proof. exact from_source. Qed.
Print Assumptions attributes_are_those_written_in_the_source.

(** ** Examples *)

Definition two_macros : list str := [$"hidden /* for now */"; $" expose_as(w)"].
Definition two_annotations : list (list annotation) := [[mkAnnotation Hidden []]; [mkAnnotation ExposeAs [LString ($"w")]]].

Lemma two_macros_annotate : Forall2 (annotates []) two_macros two_annotations.
Proof.
  constructor; [|constructor; [|constructor]].
  - exists [SIdent ($"hidden")]. split; [|split].
    + apply (wr_token [] (SIdent $"hidden")); [constructor| |reflexivity|].
      { do 2 eexists. split; [reflexivity|]. split; reflexivity. }
      apply wr_end. apply gap_blank; [cbn; auto|]. apply (gap_block $" for now " []); [|constructor].
      intros x y E. repeat (destruct x as [|? x]; cbn in E; [discriminate E || (injection E as <-; reflexivity)|injection E as ? E]). destruct x; discriminate.
    + apply gas_one. apply ga_bare. exists "hidden"%string. split; [cbn; auto|reflexivity].
    + intros n [E|[]]. injection E as <-. split; [intros []|split; discriminate].
  - exists [SIdent ($"expose_as"); SOpen; SIdent ($"w"); SClose]. split; [|split].
    + apply (wr_token $" " (SIdent $"expose_as")); [constructor; [cbn; auto|constructor]| |reflexivity|].
      { do 2 eexists. split; [reflexivity|]. split; reflexivity. }
      apply (wr_token [] SOpen); [constructor|exact I|exact I|].
      apply (wr_token [] (SIdent $"w")); [constructor| |reflexivity|].
      { do 2 eexists. split; [reflexivity|]. split; reflexivity. }
      apply (wr_token [] SClose); [constructor|exact I|exact I|]. apply wr_end. constructor.
    + apply gas_one. apply (ga_args $"expose_as" ExposeAs [SIdent $"w"]); [exists "expose_as"%string; split; [cbn; auto|reflexivity]|].
      apply gvs_one. constructor; discriminate.
    + intros n [E|[E|[E|[E|[]]]]]; try discriminate E; injection E as <-; (split; [intros []|split; discriminate]).
Qed.

(** Processed with the command of the example above; the class is hidden, and w
    would be its name. *)
Example attributes_are_those_written_in_the_source_example : exists args' os texts st' a,
  adjust [] command = Some args' /\ reading some_arity (tl args') os /\ macro_defined header_guard os /\
  preprocess_text true [] ($"GENPYBIND(hidden /* for now */)GENPYBIND( expose_as(w)) int") = Some (map OAnnotate texts ++ [OTok (PIdent ($"int"))]) /\
  texts = [lozenge ++ $"hidden"; lozenge ++ $"expose_as(w)"] /\
  insert (fun _ => mkDecl KRecord texts false [] 0 false false false [] [] None true (Some 0)) 0 [] = Some (st', []) /\ lookup_attrs st' 0 = Some a /\
  n_visible (at_named a) = Some false /\ n_spelling (at_named a) = $"w" /\
  exists v, default_visibility (mkDecl KRecord texts false [] 0 false false false [] [] None true (Some 0)) v /\
    described (mkDecl KRecord texts false [] 0 false false false [] [] None true (Some 0)) v (concat two_annotations) a.
Proof.
  destruct annotations_are_switched_on_example as (_ & args' & os & _ & _ & E & R & _ & M). exists args', os.
  destruct (attributes_are_those_written_in_the_source some_arity [] ($"clang") (tl command) args' os true [] two_macros two_annotations ($" int") [(true, PIdent ($"int"))] [OTok (PIdent ($"int"))]
    some_arity_of_clang ltac:(discriminate) E R ltac:(split; [intros _; exact M|reflexivity]) two_macros_annotate ltac:(vm_compute; reflexivity) ltac:(vm_compute; reflexivity)) as (texts & P & D).
  assert (T : texts = [lozenge ++ $"hidden"; lozenge ++ $"expose_as(w)"]).
  { vm_compute in P. destruct texts as [|t1 [|t2 [|t3 texts]]]; cbn in P; try discriminate P. injection P as <- <-. reflexivity. }
  exists texts. subst texts.
  match type of D with _ => pose proof (D (fun _ => mkDecl KRecord [lozenge ++ $"hidden"; lozenge ++ $"expose_as(w)"] false [] 0 false false false [] [] None true (Some 0)) 0 []) as K end.
  do 2 eexists. split; [exact E|]. split; [exact R|]. split; [exact M|]. split; [vm_compute; reflexivity|]. split; [reflexivity|].
  split; [vm_compute; reflexivity|]. split; [vm_compute; reflexivity|]. split; [reflexivity|]. split; [reflexivity|].
  destruct (K _ _ eq_refl eq_refl eq_refl eq_refl) as (a & La & _ & Dv). vm_compute in La. injection La as <-. apply Dv. intros (e & [] & _).
Qed.
