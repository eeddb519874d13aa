(** * Proofs about annotations from source text to stored attributes *)
From Verif Require Import Base ParserModel ParserSpec AnnotModel AnnotSpec AnnotProofs AnnotStore AnnotFinal ModuleModel MacroModel MacroSpec MacroProofs CommandModel ActiveSpec ActiveProofs SourceSpec.

Lemma macros_carried defs srcs ls rest items o : Forall2 (annotates defs) srcs ls -> pp_lex rest = Some items -> preprocess_items true defs items = Some o ->
  exists texts, preprocess_text true defs (flat_map macro srcs ++ rest) = Some (map OAnnotate texts ++ o) /\ carried texts (concat ls) false.
Proof.
  intros H Hl Ho. induction H as [|src l srcs ls (ts & W & G & N) H (texts & P & C)].
  - exists []. cbn [flat_map map app concat]. split; [|constructor]. unfold preprocess_text. rewrite Hl. exact Ho.
  - cbn [flat_map concat]. unfold preprocess_text in P. destruct (pp_lex (flat_map macro srcs ++ rest)) as [items'|] eqn:L; [|discriminate P].
    destruct (annotations_as_written_lemma defs src ts l _ items' _ W G N L P) as (text & E & D).
    exists ((lozenge ++ text) :: texts). split; [|constructor; assumption].
    unfold macro at 1. rewrite <- !app_assoc. exact E.
Qed.

Lemma has_error_app l l' : has_error (l ++ l') <-> has_error l \/ has_error l'.
Proof.
  unfold has_error. split; [intros (e & H & K); apply in_app_or in H as [H|H]; [left|right]; eauto|]. intros [(e & H & K)|(e & H & K)]; exists e; split; auto using in_or_app.
Qed.

Lemma has_error_concat ll : has_error (concat ll) <-> exists l, In l ll /\ has_error l.
Proof.
  unfold has_error. split.
  - intros (e & H & K). apply in_concat in H as (l & Hl & H). eauto.
  - intros (l & Hl & e & H & K). exists e. split; [apply in_concat; eauto|exact K].
Qed.

Lemma nth_error_Some_lt {A} (l : list A) k x : nth_error l k = Some x -> k < length l.
Proof. intros H. apply nth_error_Some. rewrite H. discriminate. Qed.

Lemma firstn_app_exact {A} (l l' : list A) : firstn (length l) (l ++ l') = l.
Proof. rewrite firstn_app, firstn_all, Nat.sub_diag. apply app_nil_r. Qed.

Lemma from_source arity rd program args args' os on defs srcs ls rest items o :
  arity_of_clang arity -> program <> $"--" -> adjust rd (program :: args) = Some args' -> reading arity (tl args') os -> (on = true <-> macro_defined header_guard os) ->
  Forall2 (annotates defs) srcs ls -> pp_lex rest = Some items -> preprocess_items on defs items = Some o ->
  exists texts, preprocess_text on defs (flat_map macro srcs ++ rest) = Some (map OAnnotate texts ++ o) /\
    forall decls i st st' ds, d_attrs (decls i) = texts -> lookup_attrs st i = None -> d_skip (decls i) = false -> insert decls i st = Some (st', ds) ->
      let ans := concat ls in
      exists a, lookup_attrs st' i = Some a /\
        (has_error ds <-> targetless_alias (decls i) \/ exists before an after, ans = before ++ an :: after /\ ~ accepted (decls i) before an) /\
        (~ has_error ds -> exists v, default_visibility (decls i) v /\ described (decls i) v ans a).
Proof.
  intros A P E R Hon H Hl Ho. rewrite (proj2 Hon (active _ _ _ _ _ _ A P E R)) in *.
  destruct (macros_carried _ _ _ _ _ _ H Hl Ho) as (texts & T & C). exists texts. split; [exact T|]. intros decls i st st' ds Ed Hn Hs Hi.
  destruct (insert_no_annotation_ignored _ _ _ _ _ Hi Hn Hs) as (a & ans & bad & La & Ca & (target & parse & per & -> & Et & Ep & Hlen & Hk) & D).
  rewrite Ed in Ca. destruct (carried_unique2 _ _ _ _ _ Ca C) as [-> ->]. exists a. split; [exact La|]. split; [|intros K; exact (proj2 (D K))].
  rewrite has_error_app, has_error_app, Et, Ep, has_error_concat. split.
  - intros [K|[K|(e & He & K)]]; [left; exact K|discriminate K|]. right. apply In_nth_error in He as (k & He).
    destruct (nth_error (concat ls) k) as [an|] eqn:Ea; [|apply nth_error_None in Ea; apply nth_error_Some_lt in He; lia].
    destruct (nth_error_split _ _ Ea) as (l1 & l2 & El & Ek). exists l1, an, l2. split; [exact El|]. apply (proj1 (Hk k an e Ea He)) in K.
    rewrite El, <- Ek, firstn_app_exact in K. exact K.
  - intros [K|(l1 & an & l2 & El & K)]; [left; exact K|]. right. right.
    assert (Ea : nth_error (concat ls) (length l1) = Some an) by (rewrite El, nth_error_app2, Nat.sub_diag by lia; reflexivity).
    destruct (nth_error per (length l1)) as [e|] eqn:He; [|apply nth_error_None in He; rewrite Hlen, El, app_length in He; cbn [length] in He; lia].
    exists e. split; [exact (nth_error_In _ _ He)|]. apply (Hk _ _ _ Ea He). rewrite El, firstn_app_exact. exact K.
Qed.
