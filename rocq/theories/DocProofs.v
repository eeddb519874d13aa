(** * Proofs about the documentation found in Python *)
From Coq Require Import Sorting.Permutation Sorting.Sorted.
From Verif Require Import Base ParserModel AnnotModel AnnotSpec AnnotStore AnnotProofs AnnotFinal CollectModel CollectSpec GraphModel GraphSpec GraphWalk GraphFinal EmitModel EmitSpec EmitProofs EmitFold EmitFinal ModuleModel ModuleSpec ModuleProofs ModuleChunks ModuleFinal
  InlineModel OrderModel OrderSpec TextModel ImportSpec ImportProofs ExecSpec ExecProofs AccessSpec AccessProofs PropertyProofs DocSpec.

(** ** Lines *)

Lemma after_app p s : after p (p ++ s) = Some s.
Proof. induction p as [|c p IH]; [reflexivity|]. cbn. rewrite Ascii.eqb_refl. exact IH. Qed.

Lemma after_common p x y : after (p ++ x) (p ++ y) = after x y.
Proof. induction p as [|c p IH]; [reflexivity|]. cbn. rewrite Ascii.eqb_refl. exact IH. Qed.

Lemma after_inv p : forall s r, after p s = Some r -> s = p ++ r.
Proof.
  induction p as [|c p IH]; intros s r; cbn; [congruence|]. destruct s as [|d s]; [discriminate|]. destruct (Ascii.eqb c d) eqn:E; [|discriminate].
  intros H. apply Ascii.eqb_eq in E. subst d. f_equal. auto.
Qed.

Lemma one_line_app a b : one_line (a ++ b) <-> one_line a /\ one_line b.
Proof. unfold one_line. rewrite in_app_iff. tauto. Qed.

Lemma first_break a : forall b x y, one_line a -> one_line b -> a ++ line_end :: x = b ++ line_end :: y -> a = b.
Proof.
  induction a as [|c a IH]; intros [|d b] x y Ha Hb E; cbn in E; [reflexivity|injection E as E _; destruct Hb; left; auto|injection E as E _; destruct Ha; left; auto|].
  injection E as -> E. f_equal. eapply IH; [| |exact E]; intros H; [apply Ha|apply Hb]; right; exact H.
Qed.

Lemma lines_one x : one_line x -> lines x = [x].
Proof.
  induction x as [|c x IH]; intros H; [reflexivity|]. cbn [lines]. destruct (Ascii.eqb c line_end) eqn:E; [apply Ascii.eqb_eq in E; destruct H; left; auto|].
  rewrite IH; [reflexivity|]. intros K. apply H. right. exact K.
Qed.

Lemma lines_break x s : one_line x -> lines (x ++ line_end :: s) = x :: lines s.
Proof.
  induction x as [|c x IH]; intros H; [reflexivity|]. cbn [lines app]. destruct (Ascii.eqb c line_end) eqn:E; [apply Ascii.eqb_eq in E; destruct H; left; auto|].
  rewrite IH; [reflexivity|]. intros K. apply H. right. exact K.
Qed.

Lemma unended_app s : unended (s ++ break) = Some s.
Proof. induction s as [|c s IH]; [reflexivity|]. cbn [unended app]. destruct (s ++ break) as [|d r] eqn:E; [destruct s; discriminate E|]. rewrite IH. reflexivity. Qed.

(** Lines separated by empty ones. *)
Fixpoint joined (l : list str) : str := match l with [] => [] | [x] => x | x :: r => x ++ break ++ break ++ joined r end.

Lemma joined_cons x y r : joined (x :: y :: r) = x ++ break ++ break ++ joined (y :: r).
Proof. reflexivity. Qed.

Lemma joined_app a b : a <> [] -> b <> [] -> joined (a ++ b) = joined a ++ break ++ break ++ joined b.
Proof.
  intros Ha Hb. induction a as [|x [|y a] IH]; [destruct (Ha eq_refl)| |].
  - destruct b as [|z b]; [destruct (Hb eq_refl)|reflexivity].
  - cbn [app]. rewrite !joined_cons. cbn [app] in IH. rewrite IH by discriminate. rewrite <- !app_assoc. reflexivity.
Qed.

Lemma separated_joined l : l <> [] -> Forall one_line l -> separated (lines (joined l)) = Some l.
Proof.
  intros Hl F. induction F as [|x r Hx F IH]; [destruct (Hl eq_refl)|]. destruct r as [|y r].
  - cbn [joined]. rewrite lines_one by exact Hx. reflexivity.
  - rewrite joined_cons. cbn [break app]. rewrite lines_break by exact Hx. cbn [lines]. rewrite Ascii.eqb_refl. cbn [separated]. rewrite IH by discriminate. reflexivity.
Qed.

(** ** Functions *)

Section Functions.
Context (tx : texts) (signature : stmt -> str).

Definition items (prefix n : str) (t : stmt) : list str := (prefix ++ n ++ signature t) :: match comment_of tx t with [] => [] | c => [c] end.

Lemma paragraph_items prefix n t : paragraph tx signature prefix n t = joined (items prefix n t) ++ break.
Proof. unfold paragraph, items. destruct (comment_of tx t) as [|c r]; cbn [joined]; rewrite <- ?app_assoc; [reflexivity|]. reflexivity. Qed.

Fixpoint all_items (n : str) (k : nat) (l : list stmt) : list str := match l with [] => [] | t :: r => items (number_of k) n t ++ all_items n (S k) r end.

Lemma paragraphs_items n : forall l k, l <> [] -> paragraphs tx signature n k l = joined (all_items n k l) ++ break.
Proof.
  induction l as [|t [|t' l] IH]; intros k Hl; [destruct (Hl eq_refl)| |].
  - cbn [paragraphs all_items]. rewrite app_nil_r. apply paragraph_items.
  - change (paragraphs tx signature n k (t :: t' :: l)) with (paragraph tx signature (number_of k) n t ++ break ++ paragraphs tx signature n (S k) (t' :: l)).
    change (all_items n k (t :: t' :: l)) with (items (number_of k) n t ++ all_items n (S k) (t' :: l)).
    rewrite joined_app by discriminate. rewrite IH by discriminate. rewrite paragraph_items, <- !app_assoc. reflexivity.
Qed.

Lemma number_one_line k : one_line (number_of k).
Proof.
  unfold number_of. apply one_line_app. split; [|intros [H|[H|[]]]; discriminate H].
  intros H. apply (proj1 (Forall_forall _ _) (decimal_digits (N.of_nat k))) in H. discriminate H.
Qed.

Section Readable.
Context (n : str).

Definition good (t : stmt) : Prop := (one_line (signature t) /\ (exists r, signature t = $"(" ++ r) /\ signature t <> generic) /\ one_line (comment_of tx t) /\ unlike_overloads n (comment_of tx t).

Lemma all_items_lines : one_line n -> forall l k, (forall t, In t l -> good t) -> Forall one_line (all_items n k l).
Proof.
  intros Hn. induction l as [|t l IH]; intros k G; cbn [all_items]; [constructor|]. apply Forall_app. split; [|apply IH; intros t' H; apply G; right; exact H].
  destruct (G t (or_introl eq_refl)) as ((Hs & _) & Hc & _). unfold items. constructor.
  - apply one_line_app. split; [apply number_one_line|]. apply one_line_app. auto.
  - destruct (comment_of tx t); constructor; [exact Hc|constructor].
Qed.

Lemma grouped_items : forall l k, (forall t, In t l -> good t) -> grouped n k (all_items n k l) = Some (map (fun t => (signature t, comment_of tx t)) l).
Proof.
  induction l as [|t l IH]; intros k G; [reflexivity|]. cbn [all_items items app]. destruct (G t (or_introl eq_refl)) as (_ & _ & Hu).
  assert (Gl : forall t', In t' l -> good t') by (intros t' H; apply G; right; exact H). unfold items. cbn [app grouped].
  rewrite app_assoc, after_app. cbn [map]. destruct (comment_of tx t) as [|c r].
  - cbn [app]. destruct l as [|t' l]; [reflexivity|]. pose proof (IH (S k) Gl) as E. destruct (Gl t' (or_introl eq_refl)) as ((_ & (q & Hq) & _) & _).
    destruct (all_items n (S k) (t' :: l)) as [|i is] eqn:Ei; [discriminate Ei|]. assert (Hi : i = number_of (S k) ++ n ++ signature t') by (cbn in Ei; congruence).
    assert (A : after (number_of (S k) ++ n ++ $"(") i = Some q) by (rewrite Hi, Hq, !after_common; apply after_app). rewrite A, E. reflexivity.
  - cbn [app]. destruct (after (number_of (S k) ++ n ++ $"(") (c :: r)) as [q|] eqn:A; [destruct (Hu _ _ A)|]. rewrite IH by exact Gl. reflexivity.
Qed.
End Readable.

Theorem function_read n l : l <> [] -> readable tx signature n l -> read_function n (function_doc tx signature n l) = Some (map (fun t => (signature t, comment_of tx t)) l).
Proof.
  intros Hl [Hn Hs Hc]. assert (G : forall t, In t l -> good n t) by (intros t H; split; auto). unfold read_function.
  assert (Two : forall t t' r, l = t :: t' :: r -> function_doc tx signature n l = (n ++ generic ++ break ++ overloaded ++ break ++ break) ++ paragraphs tx signature n 1 l)
    by (intros t t' r ->; cbn [function_doc]; rewrite <- !app_assoc; reflexivity).
  destruct l as [|t [|t' l]]; [destruct (Hl eq_refl)| |].
  - cbn [function_doc map]. destruct (G t (or_introl eq_refl)) as ((Ss & _ & Sg) & Sc & _).
    destruct (after (n ++ generic ++ break ++ overloaded ++ break ++ break) (paragraph tx signature [] n t)) as [q|] eqn:A.
    { exfalso. unfold paragraph in A. cbn [app] in A. rewrite after_common in A. apply after_inv in A. apply Sg. rewrite <- !app_assoc in A. cbn [break app] in A.
      eapply first_break; [exact Ss| |exact A]. vm_compute. intuition discriminate. }
    rewrite paragraph_items, unended_app. unfold items. cbn [app]. rewrite separated_joined.
    + destruct (comment_of tx t) as [|c r]; rewrite after_app; reflexivity.
    + discriminate.
    + constructor; [apply one_line_app; auto|]. destruct (comment_of tx t); constructor; [exact Sc|constructor].
  - rewrite (Two _ _ _ eq_refl), after_app, paragraphs_items by discriminate. rewrite unended_app, separated_joined; [apply grouped_items, G|discriminate|].
    apply all_items_lines; assumption.
Qed.
End Functions.

Lemma comment_documents tx t : documents tx t (comment_of tx t).
Proof.
  assert (D : forall f, commented tx f (docstring tx f)).
  { intros f. unfold docstring. destruct (tx_brief tx f) as [|c r] eqn:E; [|apply cm_own; [exact E|discriminate]].
    destruct (tx_primary tx f) as [p|] eqn:Ep; [eapply cm_template; [exact E|exact Ep|reflexivity]|apply cm_none; assumption]. }
  unfold documents. destruct t; cbn [bound_to comment_of]; auto.
Qed.

(** ** Enumerations *)

Lemma flat_joined (f : str * stmt -> str) vs : forall x, x ++ flat_map (fun v => break ++ break ++ f v) vs = joined (x :: map f vs).
Proof.
  induction vs as [|v vs IH]; intros x; cbn [flat_map map]; [apply app_nil_r|]. rewrite joined_cons, <- IH. rewrite <- !app_assoc. reflexivity.
Qed.

Lemma split_name c n : ~ In (ascii_of_N 32) n -> split_comment (n ++ match c with [] => [] | _ => $" : " ++ c end) = (n, c).
Proof.
  intros H. induction n as [|d n IH].
  - destruct c as [|a c]; reflexivity.
  - cbn [app split_comment]. assert (A : forall s, after ($" : ") (d :: s) = None).
    { intros s. cbn [after list_ascii_of_string]. destruct (Ascii.eqb " " d) eqn:E; [|reflexivity]. apply Ascii.eqb_eq in E. destruct H. left. subst d. reflexivity. }
    rewrite A, IH; [reflexivity|]. intros K. apply H. right. exact K.
Qed.

Lemma read_value_lines tx (vs : list (str * stmt)) : (forall v, In v vs -> ~ In (ascii_of_N 32) (fst v)) -> read_values (map (value_line tx) vs) = Some (map (fun v => (fst v, value_comment tx (snd v))) vs).
Proof.
  induction vs as [|v vs IH]; intros H; [reflexivity|]. cbn [map read_values]. rewrite IH by (intros v' K; apply H; right; exact K).
  pose proof (split_name (value_comment tx (snd v)) (fst v) (H v (or_introl eq_refl))) as E.
  assert (A : after ($"  ") (value_line tx v) = Some (fst v ++ match value_comment tx (snd v) with [] => [] | _ => $" : " ++ value_comment tx (snd v) end)).
  { unfold value_line. rewrite after_app. destruct (value_comment tx (snd v)); reflexivity. }
  rewrite A, E. reflexivity.
Qed.

Theorem enum_read tx p e : readable_enum tx e (map (fun v => (fst v, value_comment tx (snd v))) (entries p e)) ->
  read_enum (enum_doc tx p e) = Some (tx_brief tx e, map (fun v => (fst v, value_comment tx (snd v))) (entries p e)).
Proof.
  intros [[Hc Hm] Hv]. unfold read_enum, enum_doc. rewrite flat_joined.
  assert (Hl : Forall one_line (members :: map (value_line tx) (entries p e))).
  { constructor; [vm_compute; intuition discriminate|]. apply Forall_forall. intros x Hx. apply in_map_iff in Hx as (v & <- & Hin).
    destruct (Hv (fst v) (value_comment tx (snd v))) as (V1 & _ & V3); [apply in_map_iff; exists v; auto|].
    unfold value_line. apply one_line_app. split; [vm_compute; intuition discriminate|]. apply one_line_app. split; [exact V1|].
    destruct (value_comment tx (snd v)) eqn:E; [intros []|]. apply one_line_app. split; [vm_compute; intuition discriminate|exact V3]. }
  assert (Hr : read_values (map (value_line tx) (entries p e)) = Some (map (fun v => (fst v, value_comment tx (snd v))) (entries p e))).
  { apply read_value_lines. intros v Hin. eapply Hv. apply in_map_iff. exists v. split; [reflexivity|exact Hin]. }
  destruct (tx_brief tx e) as [|c r] eqn:Eb.
  - cbn [app]. rewrite separated_joined by (discriminate || exact Hl). assert (R : str_eqb members members = true) by apply Base.str_eqb_refl. rewrite R, Hr. reflexivity.
  - rewrite <- !app_assoc. rewrite <- joined_cons. rewrite separated_joined; [|discriminate|constructor; [exact Hc|exact Hl]].
    destruct (str_eqb (c :: r) members) eqn:E; [apply str_eqb_eq in E; destruct (Hm E)|]. assert (R : str_eqb members members = true) by apply Base.str_eqb_refl. rewrite R, Hr. reflexivity.
Qed.

(** ** Values of enumerations *)

Section Values.
Context (mro : nat -> list nat) (manual : nat -> object -> pystate -> option pystate) (fails : stmt -> bool).
Hypothesis (M : leaves_values manual).

Lemma setattr_entries p o n m p' : setattr mro p o n m = Some p' -> p_entries p' = p_entries p.
Proof. unfold setattr. match goal with |- context[if ?x then _ else _] => destruct x end; [discriminate|]. intros [= <-]. reflexivity. Qed.

Lemma define_entries p o n st s p' : define_function mro p o n st s = Some p' -> p_entries p' = p_entries p.
Proof.
  unfold define_function. intros E.
  repeat match type of E with
  | setattr _ _ _ _ _ = Some _ => exact (setattr_entries _ _ _ _ _ E)
  | context[match ?x with _ => _ end] => destruct x; try discriminate E
  end.
Qed.

Lemma set_all_entries (q : object) : forall (vs : list (str * stmt)) p p', fold_opt (fun p v => setattr mro p q (fst v) (MValue (snd v))) vs p = Some p' -> p_entries p' = p_entries p.
Proof.
  induction vs as [|v vs IH]; intros p p' E; cbn [fold_opt] in E; [congruence|]. destruct (setattr mro p q (fst v) (MValue (snd v))) as [p1|] eqn:E1; [|discriminate E].
  rewrite (IH _ _ E). eapply setattr_entries, E1.
Qed.

Definition is_enum (o : object) (e : nat) : bool := match o with Enum k => Nat.eqb k e | _ => false end.

Lemma statement_entries types o scope p s p' e : statement mro manual fails types o scope p s = Some p' ->
  entries p' e = entries p e ++ if is_enum o e then values_of [s] else [].
Proof.
  unfold statement. destruct (fails s); [discriminate|].
  assert (No : values_of [s] = [] -> entries p' e = entries p e -> entries p' e = entries p e ++ if is_enum o e then values_of [s] else [])
    by (intros -> ->; destruct (is_enum o e); symmetry; apply app_nil_r).
  intros E. destruct s; try (apply No; [reflexivity|]; first [apply entries_same; solve [eapply setattr_entries, E|eapply define_entries, E]|eapply M, E|
    match type of E with context[if ?x then _ else _] => destruct x; [injection E as <-; reflexivity|discriminate E] end|injection E as <-; reflexivity|idtac]).
  - destruct o as [path|c|k]; try discriminate E. match type of E with context[if ?x then _ else _] => destruct x; [discriminate E|] end.
    match type of E with context[setattr ?a ?b ?c ?d ?g] => destruct (setattr a b c d g) as [q|] eqn:Eq; [|discriminate E] end. injection E as <-.
    apply setattr_entries in Eq. rewrite entries_snoc, Eq. cbn [is_enum]. unfold entries at 1. cbn. reflexivity.
  - destruct o as [path|c|k]; try discriminate E. destruct scope as [q|]; [|discriminate E]. apply entries_same. eapply set_all_entries, E.
Qed.

Lemma body_entries types o scope e : forall body p p', fold_opt (statement mro manual fails types o scope) body p = Some p' ->
  entries p' e = entries p e ++ if is_enum o e then values_of body else [].
Proof.
  induction body as [|s body IH]; intros p p' E; cbn [fold_opt] in E.
  - injection E as <-. destruct (is_enum o e); symmetry; apply app_nil_r.
  - destruct (statement mro manual fails types o scope p s) as [p1|] eqn:E1; [|discriminate E]. rewrite (IH _ _ E), (statement_entries _ _ _ _ _ _ e E1), <- app_assoc.
    f_equal. destruct (is_enum o e); [|reflexivity]. change (s :: body) with ([s] ++ body). unfold values_of. rewrite flat_map_app. reflexivity.
Qed.

Definition added (s : ImportSpec.state) (k : nat) (e : entry) : list (str * stmt) :=
  match value s (ex_id e) with Some o => if is_enum o k then values_of (ex_body e) else [] | None => [] end.

Lemma calls_entries files intros s all k : filter is_definition (concat files) = map definition all -> NoDup (map ex_id all) ->
  forall l p p', incl l all -> fold_opt (call mro manual fails files intros s) (map (fun e => (ex_id e, ex_id e)) l) p = Some p' -> entries p' k = entries p k ++ flat_map (added s k) l.
Proof.
  intros Hd Nd. induction l as [|e l IH]; intros p p' Hi E; cbn [map fold_opt] in E; [injection E as <-; symmetry; apply app_nil_r|].
  match type of E with context[call ?a ?b ?c ?d ?f ?g ?h ?i] => destruct (call a b c d f g h i) as [p1|] eqn:E1; [|discriminate E] end.
  rewrite (IH _ _ (fun x H => Hi x (or_intror H)) E). cbn [flat_map]. rewrite app_assoc. f_equal.
  unfold call in E1. cbn [fst snd] in E1. unfold added. destruct (value s (ex_id e)) as [o|]; [|discriminate E1].
  rewrite (body_found _ _ _ Hd Nd (Hi _ (or_introl eq_refl))) in E1. exact (body_entries _ _ _ _ _ _ _ E1).
Qed.

Lemma manual_entries k : forall post p p', fold_opt (fun p l => manual l (Mod []) p) post p = Some p' -> entries p' k = entries p k.
Proof.
  induction post as [|l post IH]; intros p p' E; cbn [fold_opt] in E; [congruence|]. destruct (manual l (Mod []) p) as [p1|] eqn:E1; [|discriminate E].
  rewrite (IH _ _ E). eapply M, E1.
Qed.
End Values.

Lemma execute_enum default_holder s i s' : execute default_holder s i = Some s' -> value s (fst i) = None /\ exists o, s_variables s' = (fst i, o) :: s_variables s /\
  match snd i with NEnum e _ _ _ => o = Enum e | _ => True end.
Proof.
  unfold execute. destruct (value s (fst i)) as [v|] eqn:Ev; [discriminate|]. destruct (value s (intro_parent (snd i))) as [o|]; [|discriminate]. intros E. split; [reflexivity|].
  destruct (snd i); unfold register in E; repeat match type of E with context[match ?x with _ => _ end] => destruct x; try discriminate E end; injection E as <-; eexists; (split; [reflexivity|]); first [exact I|reflexivity].
Qed.

Lemma import_enum default_holder intros : forall s0 s, fold_opt (execute default_holder) intros s0 = Some s ->
  (forall id o, value s0 id = Some o -> value s id = Some o) /\
  (forall id e q k d, In (id, NEnum e q k d) intros -> value s id = Some (Enum e)) /\
  NoDup (map fst intros) /\ forall id, In id (map fst intros) -> value s0 id = None.
Proof.
  induction intros as [|i l IH]; cbn [fold_opt]; intros s0 s E; [injection E as <-; split; [auto|split; [intros id t q k d []|split; [constructor|intros id []]]]|].
  destruct (execute default_holder s0 i) as [s1|] eqn:E1; [|discriminate E]. destruct (IH _ _ E) as (K & I & N & Z). destruct (execute_enum _ _ _ _ E1) as (Hn & o & Hv & Ho).
  assert (Hs1 : forall id, value s1 id = if str_eqb (fst i) id then Some o else value s0 id) by (intros id; unfold value; rewrite Hv; cbn; destruct (str_eqb (fst i) id); reflexivity).
  split; [|split; [|split]].
  - intros id o' H. apply K. rewrite Hs1. destruct (str_eqb (fst i) id) eqn:Ei; [|exact H]. apply str_eqb_eq in Ei. congruence.
  - intros id t q k d [->|H]; [|eauto]. apply K. rewrite Hs1. cbn [fst snd] in *. rewrite Base.str_eqb_refl, Ho. reflexivity.
  - cbn [map]. constructor; [|exact N]. intros H. specialize (Z _ H). rewrite Hs1, Base.str_eqb_refl in Z. discriminate Z.
  - cbn [map]. intros id [<-|H]; [exact Hn|]. specialize (Z _ H). rewrite Hs1 in Z. destruct (str_eqb (fst i) id); [discriminate Z|exact Z].
Qed.

(** ** Bodies of enumerations *)

Lemma no_values_elsewhere u x e i a n j : (forall k, e <> XEnum k) -> ~ EmitSpec.bound u x e i a (SValue n j).
Proof.
  intros He H. destruct e as [|k|k|r q]; cbn [EmitSpec.bound] in H; [| |destruct (He k eq_refl)|]; inversion H; subst;
    match goal with K : bound_function _ _ _ _ (SValue _ _) |- _ => inversion K | K : bound_alias _ _ _ _ (SValue _ _) |- _ => inversion K end.
Qed.

Lemma values_in l n t : In (n, t) (values_of l) -> exists i, t = SValue n i /\ In (SValue n i) l.
Proof.
  unfold values_of. intros H. apply in_flat_map in H as (s & Hs & H). destruct s; cbn in H; try solve [destruct H]. destruct H as [H|[]]. injection H as <- <-. eauto.
Qed.

Lemma no_values l : (forall n i, ~ In (SValue n i) l) -> values_of l = [].
Proof. intros H. destruct (values_of l) as [|[n t] r] eqn:E; [reflexivity|]. destruct (values_in l n t) as (i & _ & Hi); [rewrite E; left; reflexivity|]. destruct (H _ _ Hi). Qed.

Lemma values_app a b : values_of (a ++ b) = values_of a ++ values_of b.
Proof. apply flat_map_app. Qed.

Lemma filter_sorted {A} (R : A -> A -> Prop) f l : StronglySorted R l -> StronglySorted R (filter f l).
Proof.
  induction 1 as [|x l S IH F]; cbn [filter]; [constructor|]. destruct (f x); [|exact IH]. constructor; [exact IH|].
  apply Forall_forall. intros y Hy. apply filter_In in Hy. apply (proj1 (Forall_forall _ _) F y), Hy.
Qed.

Lemma filter_expand u w l : proper_enumerators u w -> filter (x_enumerator (w_extra w)) (flat_map (expand (w_extra w)) l) = filter (x_enumerator (w_extra w)) l.
Proof.
  intros P. induction l as [|i l IH]; [reflexivity|]. cbn [flat_map]. rewrite filter_app, IH. unfold expand. destruct (x_specializations (w_extra w) i) as [l'|] eqn:E; [|cbn [filter]; destruct (x_enumerator (w_extra w) i); reflexivity].
  assert (F : filter (x_enumerator (w_extra w)) l' = []).
  { destruct (filter (x_enumerator (w_extra w)) l') as [|j r] eqn:F; [reflexivity|]. assert (Hj : In j (filter (x_enumerator (w_extra w)) l')) by (rewrite F; left; reflexivity).
    apply filter_In in Hj as [Hj X]. destruct (P j X) as (_ & _ & N). destruct (N _ _ E Hj). }
  rewrite F. cbn [filter]. destruct (x_enumerator (w_extra w) i) eqn:X; [|reflexivity]. destruct (P i X) as (_ & N & _). congruence.
Qed.

(** The values of enumeration [e] that are entered for declarations [l]. *)
Inductive numbered (u : unit) (b : bstate) (name : str) (e : nat) : list nat -> list (str * stmt) -> Prop :=
| nu_nil : numbered u b name e [] []
| nu_value i l a n r : visible_in u b name e i -> own_attributes u i a -> called u a i [] n -> numbered u b name e l r -> numbered u b name e (i :: l) ((n, SValue n i) :: r)
| nu_other i l r : ~ visible_in u b name e i -> numbered u b name e l r -> numbered u b name e (i :: l) r.

Lemma numbered_listed tx u b name e l r : numbered u b name e l r -> listed tx u b name e l (map (fun v : str * stmt => (fst v, value_comment tx (snd v))) r).
Proof. induction 1; cbn [map fst snd value_comment]; econstructor; eassumption. Qed.

Section Body.
Context (u : unit) (w : facts) (found : nat -> list nat) (implicit : nat -> bool) (iteration : list nat -> list nat) (name : str) (g : graph) (vis : dmap bool) (b : bstate).
Hypothesis (Se : setting u w iteration) (X : exposed u found implicit name g vis b) (P : proper_enumerators u w).
Context (e : entry) (st' : storage) (rs : list ereport).
Hypothesis (B : body_of u w vis (bs_annotations b) st' e rs) (Fa : faithful u (bs_annotations b)) (Hg : In (ex_context e) (g_nodes g)).

Lemma enum_body : kind u (ex_context e) = KEnum ->
  exists l, enumerators u w b (ex_context e) l /\ numbered u b name (ex_context e) l (values_of (ex_body e)).
Proof.
  intros K. destruct B as (x & st1 & st2 & Hc & D & _ & _ & Ff). pose proof Hc as Hx. unfold create in Hx. rewrite K in Hx. injection Hx as <-.
  set (x := XEnum (ex_context e)) in *. pose proof (define_spec _ _ _ _ _ _ _ _ _ D) as DS.
  destruct DS as [(parts & final & Eb & F & _ & Hf) H1 _ H3 _ _ _ _ _].
  set (c := ex_context e) in *. set (dv := lookup_vis vis c) in *.
  exists (filter (x_enumerator (w_extra w)) (flat_map (expand (w_extra w)) (looked_up u w c x))). split.
  - split.
    + rewrite (filter_expand u) by exact P. apply filter_sorted. unfold looked_up, declarations. rewrite K, app_nil_r. apply (sort_sorted u).
    + intros i. rewrite filter_In. split.
      * intros [Hi Xi]. split; [exists x; auto|exact Xi].
      * intros [(x' & Hc' & Hi) Xi]. rewrite Hc in Hc'. injection Hc' as <-. auto.
  - rewrite Eb, values_app. assert (Hfi : values_of final = []) by (cbn [x] in Hf; destruct Hf as [-> | ->]; reflexivity). rewrite Hfi, app_nil_r. clear Hfi Hf Eb.
    assert (Fa1 : forall i a, is_tag_kind (kind u i) = false -> lookup_attrs st2 i = Some a -> own_attributes u i a) by (intros i a Hk Ha; exact (define_faithful _ _ _ _ _ _ _ _ _ D (Ff Fa) i a Hk Ha)).
    assert (Own : forall i, In i (flat_map (expand (w_extra w)) (looked_up u w c x)) -> is_tag_kind (kind u i) = false -> d_skip (u_decls u i) = false -> exists a, own_attributes u i a /\ lookup_attrs st2 i = Some a).
    { intros i Hi Hk Hs. destruct (lookup_attrs st1 i) as [a|] eqn:El; [exists a; split; [exact (Ff Fa i a Hk El)|exact (H1 _ _ El)]|exact (H3 i Hi Hs El)]. }
    clear H1 H3 D Ff. revert F Own. generalize (flat_map (expand (w_extra w)) (looked_up u w c x)) as l. intros l F. induction F as [|i part l parts [Nd Hp] F IH]; intros Own; [constructor|].
    assert (IH' := IH (fun j Hj => Own j (or_intror Hj))). clear IH. cbn [filter concat]. rewrite values_app.
    assert (One : forall t, In t part -> exists n a, t = SValue n i /\ x_enumerator (w_extra w) i = true /\ lookup_attrs st2 i = Some a /\ shown dv a /\ called u a i [] n).
    { intros t Ht. apply Hp in Ht as (a & Ha & Sh & Hb). cbn in Hb. destruct Hb as [n Xi Hn]. exists n, a. auto. }
    destruct (x_enumerator (w_extra w) i) eqn:Xi.
    2: { destruct part as [|t part]; [exact IH'|]. destruct (One t (or_introl eq_refl)) as (n & a & _ & Q & _). discriminate Q. }
    destruct (P i Xi) as (Hk & _). destruct part as [|t part].
    + cbn [values_of flat_map map app]. apply nu_other; [|exact IH']. intros V.
      assert (Hs : d_skip (u_decls u i) = false) by (destruct V as [V|[V _]]; exact (proj1 V)).
      destruct (Own i (or_introl eq_refl) Hk Hs) as (a & Ho & Ha). destruct (called_exists u a i []) as (n & Hn). apply (proj2 (Hp (SValue n i))).
      exists a. split; [exact Ha|]. split; [eapply visible_shown; eassumption|]. constructor; assumption.
    + destruct (One t (or_introl eq_refl)) as (n & a & -> & _ & Ha & Sh & Hn).
      assert (Hpart : part = []).
      { destruct part as [|t' part]; [reflexivity|]. exfalso. destruct (One t' (or_intror (or_introl eq_refl))) as (n' & a' & -> & _ & Ha' & _ & Hn').
        rewrite Ha in Ha'. injection Ha' as <-. rewrite (called_unique _ _ _ _ _ _ Hn' Hn) in Nd. inversion Nd as [|? ? Nin _]. apply Nin. left. reflexivity. }
      subst part. cbn [values_of flat_map app]. assert (Ho : own_attributes u i a) by auto. eapply nu_value; [|exact Ho|exact Hn|exact IH'].
      pose proof (own_says _ _ _ Ho) as Hs. unfold visible_in. destruct Sh as [V|[V Dv]]; rewrite V in Hs; [left; exact Hs|right]. split; [exact Hs|]. eapply lookup_visible; eassumption.
Qed.

Lemma other_body : kind u (ex_context e) <> KEnum -> values_of (ex_body e) = [].
Proof.
  intros K. apply no_values. intros n i Hi. destruct B as (x & st1 & st2 & Hc & D & _). destruct (proj1 (in_parts _ _ _ _ _ _ _ _ _ D (SValue n i) eq_refl) Hi) as (j & _ & a & _ & _ & Hb).
  revert Hb. apply no_values_elsewhere. intros k ->. apply K. unfold create in Hc. destruct (kind u (ex_context e)); try discriminate Hc; [reflexivity|].
  destruct (create_policy u (bs_annotations b) (w_hierarchy w) (ex_context e)); discriminate Hc.
Qed.
End Body.

(** ** The module *)

Lemma flat_map_one {A B} (f : A -> list B) (l : list A) a : NoDup l -> In a l -> (forall x, In x l -> x <> a -> f x = []) -> flat_map f l = f a.
Proof.
  induction l as [|x l IH]; intros Nd Ha H; [destruct Ha|]. inversion Nd as [|? ? Nx Nd']. subst. cbn [flat_map]. destruct Ha as [->|Ha].
  - assert (Z : flat_map f l = []).
    { assert (Hz : forall x, In x l -> f x = []) by (intros x Hx; apply H; [right; exact Hx|intros ->; auto]). clear - Hz. induction l as [|y l IH]; [reflexivity|].
      cbn. rewrite (Hz y (or_introl eq_refl)), IH; [reflexivity|]. intros x Hx. apply Hz. right. exact Hx. }
    rewrite Z. apply app_nil_r.
  - rewrite (H x (or_introl eq_refl)) by (intros ->; auto). apply IH; auto. intros y Hy. apply H. right. exact Hy.
Qed.

Section Module.
Context (default_holder : str -> bool) (mro : nat -> list nat) (manual : nat -> object -> pystate -> option pystate) (fails : stmt -> bool).
Context (u : unit) (w : facts) (found : nat -> list nat) (implicit : nat -> bool) (iteration : list nat -> list nat).
Context (n : nat) (name : str) (b : bstate) (files : list (list item)) (rs : list ereport) (st' : storage).
Hypothesis (Se : setting u w iteration) (Hn : 0 < n) (HG : generate u w found implicit iteration n name = Some (RGraph b (EWritten files rs st'))).
Context (m : item) (s : ImportSpec.state) (p : pystate).
Hypothesis (Hm : In m (concat files)) (R : run_module mro manual fails default_holder files m = Some (s, p)).

Lemma enumerations_entered : leaves_values manual -> proper_enumerators u w ->
  exists g vis, exposed u found implicit name g vis b /\ forall e, In e (g_nodes g) -> kind u e = KEnum ->
    exists l, enumerators u w b e l /\ numbered u b name e l (entries p e).
Proof.
  intros M P. destruct (run_written _ _ _ _ _ Se _ _ _ _ _ _ Hn HG) as (g & vis & order & all & chunks & post & X & G & Ly & Hlen & _).
  assert (Hf : 0 < length files) by lia. destruct (layout_definitions _ _ _ _ _ Ly Hf) as [Hd Hmo].
  destruct (exposed_graph _ _ _ _ _ Se _ _ _ _ X) as (T & _ & _ & Fa & _). exists g, vis. split; [exact X|]. intros k Hk Kk.
  unfold run_module in R. destruct m as [|name' intros calls post'|]; try discriminate R.
  assert (Hin : In (IModule name' intros calls post') (filter is_module (concat files))) by (apply filter_In; auto).
  rewrite Hmo in Hin. destruct Hin as [Hin|[]]. injection Hin as <- Hi Hcalls _.
  destruct (import default_holder intros) as [s0|] eqn:Ei; [|discriminate R].
  destruct (fold_opt (call mro manual fails files intros s0) calls (initial s0)) as [p0|] eqn:E0; [|discriminate R].
  destruct (fold_opt (fun p l => manual l (Mod []) p) post' p0) as [p1|] eqn:E1; [|discriminate R]. injection R as -> ->.
  destruct (import_enum _ _ _ _ Ei) as (_ & Ie & Nd & _). rewrite <- Hi, map_map in Nd. cbn [fst] in Nd. rewrite <- Hcalls in E0.
  assert (Nc : NoDup (map ex_context all)).
  { eapply blocks_nodup; [exact (ge_blocks _ _ _ _ _ _ _ _ _ _ _ G)|]. destruct (ge_order _ _ _ _ _ _ _ _ _ _ _ G) as [Pm _]. eapply Permutation_NoDup; [exact Pm|]. exact (tl_nodes _ _ T). }
  assert (Hc : In k (map ex_context all)).
  { eapply blocks_keeps; [exact (ge_blocks _ _ _ _ _ _ _ _ _ _ _ G)| |rewrite Kk; discriminate]. destruct (ge_order _ _ _ _ _ _ _ _ _ _ _ G) as [Pm _]. eapply Permutation_in; eassumption. }
  apply in_map_iff in Hc as (e & <- & He). destruct (ge_bodies _ _ _ _ _ _ _ _ _ _ _ G) as (rss & Fb & _).
  assert (En : entries p (ex_context e) = values_of (ex_body e)).
  { rewrite (manual_entries manual M _ _ _ _ E1), (calls_entries mro manual fails M files intros s all (ex_context e) Hd Nd all _ _ (fun x H => H) E0).
    change (entries (initial s) (ex_context e)) with (@nil (str * stmt)). cbn [app].
    assert (Ad : added s (ex_context e) e = values_of (ex_body e)).
    { unfold added. destruct (ge_introduces _ _ _ _ _ _ _ _ _ _ _ G e He) as [I _]. unfold introduces in I. rewrite Kk in I. destruct I as (pa & nn & bb & It & _).
      rewrite (Ie (ex_id e) (ex_context e) pa nn bb); [cbn [is_enum]; rewrite Nat.eqb_refl; reflexivity|]. rewrite <- Hi, <- It. apply in_map_iff. exists e. auto. }
    rewrite <- Ad. apply flat_map_one; [eapply NoDup_map_inv; exact Nd|exact He|]. intros e' He' Hne. destruct (forall2_in_l _ _ _ _ Fb He') as (r & _ & B').
    unfold added. destruct (value s (ex_id e')) as [o|] eqn:Ev; [|reflexivity]. destruct (is_enum o (ex_context e)) eqn:Eo; [|reflexivity].
    assert (D : {kind u (ex_context e') = KEnum} + {kind u (ex_context e') <> KEnum}) by (destruct (kind u (ex_context e')); try (right; discriminate); left; reflexivity).
    destruct D as [Ke|Ke]; [|eapply other_body; eassumption]. exfalso.
    destruct (ge_introduces _ _ _ _ _ _ _ _ _ _ _ G e' He') as [I _]. unfold introduces in I. rewrite Ke in I. destruct I as (pa & nn & bb & It & _).
    rewrite (Ie (ex_id e') (ex_context e') pa nn bb) in Ev; [|rewrite <- Hi, <- It; apply in_map_iff; exists e'; auto]. injection Ev as <-. cbn [is_enum] in Eo. apply Nat.eqb_eq in Eo.
    apply Hne. clear - Nc He He' Eo. induction all as [|a l IH]; [destruct He|]. cbn [map] in Nc. inversion Nc as [|? ? Na Nl]. subst.
    destruct He as [->|He], He' as [->|He']; [reflexivity| | |auto].
    - destruct Na. rewrite <- Eo. apply in_map, He'.
    - destruct Na. rewrite Eo. apply in_map, He. }
  destruct (forall2_in_l _ _ _ _ Fb He) as (r & _ & B).
  rewrite En. exact (enum_body u w found implicit iteration name g vis b Se X P e st' r B Fa Hk Kk).
Qed.

Theorem enumerations_documented tx : leaves_values manual -> proper_enumerators u w ->
  exists g vis, exposed u found implicit name g vis b /\ forall e, In e (g_nodes g) -> kind u e = KEnum ->
    exists l vs, enumerators u w b e l /\ listed tx u b name e l vs /\ (readable_enum tx e vs -> read_enum (enum_doc tx p e) = Some (tx_brief tx e, vs)).
Proof.
  intros M P. destruct (enumerations_entered M P) as (g & vis & X & H). exists g, vis. split; [exact X|]. intros e He K. destruct (H e He K) as (l & Hl & Nu). exists l. eexists.
  split; [exact Hl|]. split; [exact (numbered_listed tx _ _ _ _ _ _ Nu)|]. apply enum_read.
Qed.

Theorem functions_documented tx signature : adds_nothing manual ->
  exists g vis, exposed u found implicit name g vis b /\ forall o k static l, own p o k = Some (MFunction static l) ->
    (forall t f, In t l -> bound_to t = Some f -> is_tag_kind (kind u f) = false -> exists c, In c (g_nodes g) /\ declared_in u w b c f /\ visible_in u b name c f) /\
    (l <> [] -> readable tx signature k l -> exists docs, read_function k (function_doc tx signature k l) = Some docs /\
      Forall2 (fun t d => fst d = signature t /\ documents tx t (snd d)) l docs).
Proof.
  intros M. destruct (usable_visible _ _ _ _ _ _ _ _ _ _ _ _ _ _ _ _ _ _ Se Hn HG M R) as (g & vis & X & H). exists g, vis. split; [exact X|]. intros o k static l Ho. split.
  - intros t f Ht Hb Hk. apply H; [exact Hk|]. exists t. split; [left; exists o, k, (MFunction static l); auto|]. destruct t; try discriminate Hb; injection Hb as ->; reflexivity.
  - intros Hl Rd. eexists. split; [apply function_read; assumption|]. clear. induction l as [|t l IH]; constructor; [|exact IH]. split; [reflexivity|apply comment_documents].
Qed.
End Module.

(** Comments of visible functions are shown. *)
Theorem comments_found default_holder mro manual fails u w found implicit iteration n name b files rs st' tx signature : setting u w iteration -> nested_blocks u -> 0 < n ->
  generate u w found implicit iteration n name = Some (RGraph b (EWritten files rs st')) ->
  exists g vis order all chunks post, exposed u found implicit name g vis b /\
    generated u w g vis (bs_annotations b) name rs st' order all post /\ layout name post all chunks files /\
    let intros := map (fun e => (ex_id e, ex_intro e)) all in
    let m := IModule name intros (map (fun e => (ex_id e, ex_id e)) all) post in
    filter is_module (concat files) = [m] /\
    (NoDup (map fst intros) -> agreeing_blocks u (bs_annotations b) g -> distinct_names u (bs_annotations b) g -> usable_bases default_holder w intros ->
     exists cs, contributions u (bs_annotations b) g all cs /\
       (no_clashes mro u (bs_annotations b) g cs -> executable manual fails all post ->
        exists s p, run_module mro manual fails default_holder files m = Some (s, p) /\
          forall c o x i a k, In c (map ex_context all) -> located u (bs_annotations b) g c o -> create u (bs_annotations b) (w_hierarchy w) c = Some x ->
            In i (flat_map (expand (w_extra w)) (looked_up u w c x)) -> supports_function (u_decls u i) = true -> own_attributes u i a -> visible_in u b name c i ->
            ordinary u (w_extra w) x i a k -> (forall q, x <> XEnum q) ->
            exists static l, own p o k = Some (MFunction static l) /\
              (readable tx signature k l -> exists docs t d, read_function k (function_doc tx signature k l) = Some docs /\ In t l /\ bound_to t = Some i /\ In (signature t, d) docs /\ commented tx i d))).
Proof.
  intros S NB Hn HG. destruct (run_members default_holder mro manual fails _ _ _ _ _ _ _ _ _ _ _ S NB Hn HG) as (g & vis & order & all & chunks & post & X & G & Ly & Hm & H).
  exists g, vis, order, all, chunks, post. split; [exact X|]. split; [exact G|]. split; [exact Ly|]. intros intros m. split; [exact Hm|].
  intros Nd Ag Di Ba. destruct (H Nd Ag Di Ba) as (cs & C & H'). exists cs. split; [exact C|]. intros NC Ex. destruct (H' NC Ex) as (s & p & R & _ & I & J).
  exists s, p. split; [exact R|]. intros c o x i a k Hc Hl Hx Hi Hsf Ho V Or Hne. apply in_map_iff in Hc as (e & <- & He).
  destruct (exposed_graph _ _ _ _ _ S _ _ _ _ X) as (T & K & _ & Fa & _).
  assert (Hk : is_tag_kind (kind u i) = false) by (unfold supports_function in Hsf; unfold kind; destruct (d_kind (u_decls u i)); try discriminate Hsf; reflexivity).
  destruct (ge_bodies _ _ _ _ _ _ _ _ _ _ _ G) as (rss & Fb & _). destruct (forall2_in_l _ _ _ _ Fb He) as (r & _ & Hbody).
  destruct (body_statements _ _ _ _ _ _ _ Hbody Fa) as (x' & Hx' & Hst). rewrite Hx in Hx'. injection Hx' as <-.
  assert (Hb : exists t st, EmitSpec.bound u (w_extra w) x i a t /\ bound_to t = Some i /\ defines t = Some k /\ overload t = Some st).
  { destruct (describes_exists (w_extra w) i (at_function a)) as (args & Hargs).
    destruct Or as [k' n' -> Hx0 Hn0|n' He0 Hf0 Hk0 Hd0 Hp0 Ho0 Hn0|n' He0 Hr0 Hk0 Hm0 Hn0|r0 p0 n' -> Hk0 Hm0 Hn0|r0 p0 -> Hk0 Hmv Hd Hab].
    - destruct (Hne k' eq_refl).
    - exists (SFunction (is_method u i && d_static (u_decls u i)) n' i args (at_function a)), (is_method u i && d_static (u_decls u i)).
      assert (Hb : bound_function u (w_extra w) i a (SFunction (is_method u i && d_static (u_decls u i)) n' i args (at_function a))).
      { constructor; auto. apply static_iff; assumption. }
      split; [|split; [reflexivity|split; reflexivity]].
      destruct x as [|q|q|r0 p0]; cbn [EmitSpec.bound]; [apply ns_function, Hb..| |apply rec_function; [eapply Ho0; reflexivity|exact Hb]]. destruct (Hne q eq_refl).
    - exfalso. unfold supports_function in Hsf. unfold kind in Hk0. rewrite Hk0 in Hsf. discriminate Hsf.
    - exfalso. unfold supports_function in Hsf. unfold kind in Hk0. destruct Hk0 as [Hk0|Hk0]; rewrite Hk0 in Hsf; discriminate Hsf.
    - exists (SInit i (map pm_type (fi_params (x_fn (w_extra w) i))) args (at_function a)), false.
      split; [|split; [reflexivity|split; reflexivity]]. apply rec_init; assumption. }
  destruct Hb as (t & st & Hb & Hbt & Hdt & Hot).
  assert (Ht : In t (ex_body e)).
  { eapply Hst; try eassumption. eapply visible_shown; try eassumption. eapply entry_context_node; eassumption. }
  destruct (J e o t k He Hl Ht Hdt) as (v & Hv & Hr). pose proof (I o k) as Co. rewrite Hv in Co. destruct v as [v|static l|t']; cbn [reaches] in Hr.
  - destruct Hr.
  - exists static, l. split; [exact Hv|]. intros Rd. exists (map (fun t => (signature t, comment_of tx t)) l), t, (comment_of tx t).
    split; [apply function_read; [intros ->; destruct Hr|exact Rd]|]. split; [exact Hr|]. split; [exact Hbt|]. split; [apply in_map_iff; exists t; auto|].
    pose proof (comment_documents tx t) as Dt. unfold documents in Dt. rewrite Hbt in Dt. exact Dt.
  - exfalso. subst t'. destruct Co as (_ & _ & Co). congruence.
Qed.

(** Comments do not usually begin with a number. *)
Lemma words_unlike n c : match c with [] => True | d :: _ => is_digit_char d = false end -> unlike_overloads n c.
Proof.
  intros H k s A. unfold number_of in A. pose proof (decimal_digits (N.of_nat k)) as D. pose proof (decimal_nonempty (N.of_nat k)) as E.
  destruct (decimal (N.of_nat k)) as [|d r]; [destruct (E eq_refl)|]. inversion D as [|? ? Hd _]. cbn [app after] in A. destruct c as [|d' c]; [discriminate A|].
  destruct (Ascii.eqb d d') eqn:Ed; [|discriminate A]. apply Ascii.eqb_eq in Ed. subst d'. congruence.
Qed.
