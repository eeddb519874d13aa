(** * Proofs about the hierarchy of classes in Python *)
From Coq Require Import Sorting.Permutation.
From Verif Require Import Base ParserModel AnnotModel AnnotSpec CollectModel CollectSpec GraphModel GraphSpec OrderModel OrderSpec InlineModel InlineSpec InlineProofs EmitModel EmitSpec ModuleModel ModuleSpec ModuleProofs ModuleFinal ImportSpec ImportProofs MroSpec.

(** ** Merging *)

Lemma in_advance x y l : In y (advance x l) -> In y l.
Proof. destruct l as [|z t]; cbn [advance]; [auto|]. destruct (Nat.eqb x z); [right; assumption|auto]. Qed.

Lemma in_unless x y l : In y l -> y = x \/ In y (advance x l).
Proof.
  destruct l as [|z t]; cbn [advance]; [intros []|]. destruct (Nat.eqb x z) eqn:E; [|auto].
  apply Nat.eqb_eq in E as <-. intros [<-|H]; auto.
Qed.

Lemma merges_in ls r : merges ls r -> forall y, In y r <-> exists l, In l ls /\ In y l.
Proof.
  induction 1 as [ls H|ls x r N _ IH]; intros y.
  - split; [intros []|intros (l & Hl & Hy)]. rewrite (H l Hl) in Hy. exact Hy.
  - cbn [In]. rewrite IH. split.
    + intros [<-|(l & Hl & Hy)].
      * destruct N as (be & t & af & -> & _). exists (x :: t). split; [apply in_elt|left; reflexivity].
      * apply in_map_iff in Hl as (l0 & <- & Hl). exists l0. split; [exact Hl|]. exact (in_advance _ _ _ Hy).
    + intros (l & Hl & Hy). destruct (in_unless x y l Hy) as [->|H]; [left; reflexivity|].
      right. exists (advance x l). split; [now apply in_map|exact H].
Qed.

Lemma free_gone x ls : free ls x -> forall l, In l (map (advance x) ls) -> ~ In x l.
Proof.
  intros F l Hl Hx. apply in_map_iff in Hl as (l0 & <- & Hl). specialize (F l0 Hl). destruct l0 as [|y t]; cbn [advance tl] in *; [exact Hx|].
  destruct (Nat.eqb x y) eqn:E; [exact (F Hx)|]. destruct Hx as [->|Hx]; [now rewrite Nat.eqb_refl in E|exact (F Hx)].
Qed.

Lemma merges_distinct ls r : merges ls r -> NoDup r.
Proof.
  induction 1 as [ls H|ls x r N M IH]; [constructor|]. constructor; [|exact IH]. intro Hx. rewrite (merges_in _ _ M) in Hx. destruct Hx as (l & Hl & Hx).
  destruct N as (be & t & af & E & F & _). exact (free_gone _ _ F l Hl Hx).
Qed.

(** *** Lists without common elements *)

Inductive headed : list (list nat) -> list nat -> Prop :=
| headed_none : headed [] []
| headed_cons b t ls bs : headed ls bs -> headed ((b :: t) :: ls) (b :: bs).

Lemma headed_in ls bs : headed ls bs -> forall x, In x bs -> In x (concat ls).
Proof. induction 1 as [|b t ls bs H IH]; intros x; [intros []|]. cbn [concat]. rewrite in_app_iff. intros [<-|Hx]; [left; left; reflexivity|right; auto]. Qed.

Lemma in_repeat_nil k (l : list nat) : In l (repeat [] k) -> l = [].
Proof. intro H. exact (repeat_spec _ _ _ H). Qed.

Lemma map_advance_nil x k : map (advance x) (repeat [] k) = repeat [] k.
Proof. induction k as [|k IH]; [reflexivity|]. cbn. now rewrite IH. Qed.

Lemma map_advance_other x ls : ~ In x (concat ls) -> map (advance x) ls = ls.
Proof.
  induction ls as [|l ls IH]; [reflexivity|]. cbn [concat map]. rewrite in_app_iff. intro H. rewrite IH by tauto. f_equal.
  destruct l as [|y t]; [reflexivity|]. cbn [advance]. destruct (Nat.eqb x y) eqn:E; [|reflexivity]. apply Nat.eqb_eq in E as <-. destruct H. left. left. reflexivity.
Qed.

Lemma in_tl (x : nat) l : In x (tl l) -> In x l.
Proof. destruct l; [auto|right; assumption]. Qed.

Lemma step_next k x t todo bs : ~ In x t -> ~ In x (concat todo) -> ~ In x (tl bs) -> next (repeat [] k ++ (x :: t) :: todo ++ [bs]) x.
Proof.
  intros Ht Hc Hb. exists (repeat [] k), t, (todo ++ [bs]). split; [reflexivity|]. split.
  - intros l Hl Hx. apply in_app_iff in Hl as [Hl|[<-|Hl]].
    + apply in_repeat_nil in Hl as ->. destruct Hx.
    + exact (Ht Hx).
    + apply in_app_iff in Hl as [Hl|[<-|[]]]; [|exact (Hb Hx)]. apply Hc, in_concat. exists l. split; [exact Hl|exact (in_tl _ _ Hx)].
  - intros y t' Hy. apply in_repeat_nil in Hy. discriminate.
Qed.

Lemma merge_disjoint todo : forall k cur bs, NoDup (cur ++ concat todo) -> headed todo bs -> merges (repeat [] k ++ cur :: todo ++ [bs]) (cur ++ concat todo).
Proof.
  induction todo as [|l todo IHt]; intros k cur; (induction cur as [|x cur IHc]; intros bs N H).
  - inversion H; subst. apply merges_done. intros l Hl. apply in_app_iff in Hl as [Hl|[<-|[<-|[]]]]; [exact (in_repeat_nil _ _ Hl)|reflexivity|reflexivity].
  - cbn [app] in *. inversion N as [|? ? N1 N2]; subst. inversion H; subst. apply merges_next.
    + apply (step_next k x cur [] []); [rewrite app_nil_r in N1; exact N1|intros []|intros []].
    + rewrite map_app, map_advance_nil. cbn [map advance]. rewrite Nat.eqb_refl. apply (IHc []); assumption.
  - inversion H as [|b t ls bs0 H0]; subst. clear H. cbn [concat app] in *. inversion N as [|? ? N1 N2]; subst. apply merges_next.
    + assert (E : repeat [] k ++ [] :: (b :: t) :: todo ++ [b :: bs0] = repeat [] (S k) ++ (b :: t) :: todo ++ [b :: bs0]).
      { change (@repeat (list nat) [] (S k)) with ([] :: @repeat (list nat) [] k). rewrite repeat_cons, <- app_assoc. reflexivity. }
      rewrite E. rewrite in_app_iff in N1. apply step_next; [tauto|tauto|]. cbn [tl]. intro Hb. apply N1. right. exact (headed_in _ _ H0 _ Hb).
    + rewrite map_app, map_advance_nil. cbn [map advance]. rewrite map_app. cbn [map advance]. rewrite Nat.eqb_refl. rewrite in_app_iff in N1.
      rewrite (map_advance_other b todo) by tauto.
      assert (E : repeat [] k ++ [] :: t :: todo ++ [bs0] = repeat [] (S k) ++ t :: todo ++ [bs0]).
      { change (@repeat (list nat) [] (S k)) with ([] :: @repeat (list nat) [] k). rewrite repeat_cons, <- app_assoc. reflexivity. }
      rewrite E. apply IHt; assumption.
  - cbn [app] in *. inversion N as [|? ? N1 N2]; subst. rewrite in_app_iff in N1. apply merges_next.
    + apply (step_next k x cur (l :: todo) bs); [tauto|cbn [concat]; tauto|]. intro Hb. apply in_tl in Hb. apply N1. right. exact (headed_in _ _ H _ Hb).
    + rewrite map_app, map_advance_nil. cbn [map]. rewrite map_app. cbn [map].
      change (advance x l :: map (advance x) todo ++ [advance x bs]) with (map (advance x) (l :: todo) ++ [advance x bs]). rewrite map_advance_other by (cbn [concat]; tauto).
      assert (E : advance x bs = bs).
      { inversion H as [|b t ls bs0 H0]; subst. cbn [advance]. destruct (Nat.eqb x b) eqn:Eb; [|reflexivity]. apply Nat.eqb_eq in Eb as <-. destruct N1. right. left. reflexivity. }
      rewrite E. cbn [advance]. rewrite Nat.eqb_refl. apply IHc; assumption.
Qed.

Lemma merge_bases ls bs : NoDup (concat ls) -> headed ls bs -> merges (ls ++ [bs]) (concat ls).
Proof.
  intros N H. destruct H as [|b t ls bs H].
  - apply merges_done. intros l [<-|[]]. reflexivity.
  - cbn [concat app] in *. inversion N as [|? ? N1 N2]; subst. rewrite in_app_iff in N1. apply merges_next.
    + apply (step_next 0); [tauto|tauto|]. cbn [tl]. intro Hb. apply N1. right. exact (headed_in _ _ H _ Hb).
    + cbn [map advance]. rewrite Nat.eqb_refl, map_app. cbn [map advance]. rewrite Nat.eqb_refl, map_advance_other by tauto. apply (merge_disjoint ls 0 t bs); assumption.
Qed.

(** *** Common root *)

Section Root.
Context (root : nat).
Definition rooted (ls : list (list nat)) : list (list nat) := map (fun l => l ++ [root]) ls.
Definition covered (ls : list (list nat)) (bs : list nat) : Prop := ls <> [] /\ (forall x, In x bs -> In x (concat ls)) /\ ~ In root (concat ls).

Lemma tl_rooted l y : In y (tl (l ++ [root])) <-> In y (tl l) \/ (l <> [] /\ y = root).
Proof. destruct l as [|z t]; cbn [app tl]; [cbn; split; [intros []|intros [[]|[H _]]; destruct (H eq_refl)]|]. rewrite in_app_iff. cbn. intuition congruence. Qed.

Lemma free_rooted ls bs x : x <> root -> free (rooted ls ++ [bs]) x <-> free (ls ++ [bs]) x.
Proof.
  intro Nx. unfold free, rooted. split; intros F l Hl Hx; apply in_app_iff in Hl as [Hl|Hl].
  - apply (F (l ++ [root])); [apply in_app_iff; left; apply in_map_iff; exists l; auto|]. apply tl_rooted. left. exact Hx.
  - apply (F l); [apply in_app_iff; right; exact Hl|exact Hx].
  - apply in_map_iff in Hl as (l0 & <- & Hl). apply tl_rooted in Hx as [Hx|[_ Hx]]; [|exact (Nx Hx)]. apply (F l0); [apply in_app_iff; left; exact Hl|exact Hx].
  - apply (F l); [apply in_app_iff; right; exact Hl|exact Hx].
Qed.

Lemma root_free ls bs : covered ls bs -> free (rooted ls ++ [bs]) root -> concat ls = [].
Proof.
  intros (_ & _ & Nr) F. destruct (concat ls) as [|x r] eqn:E; [reflexivity|]. exfalso. assert (Hx : In x (concat ls)) by (rewrite E; left; reflexivity).
  apply in_concat in Hx as (l & Hl & Hx). apply (F (l ++ [root])); [apply in_app_iff; left; apply in_map_iff; exists l; auto|]. apply tl_rooted. right. split; [intros ->; destruct Hx|reflexivity].
Qed.

Lemma advance_rooted x ls : x <> root -> map (advance x) (rooted ls) = rooted (map (advance x) ls).
Proof.
  intro Nx. unfold rooted. rewrite !map_map. apply map_ext. intro l. destruct l as [|y t]; cbn [app advance].
  - destruct (Nat.eqb x root) eqn:E; [apply Nat.eqb_eq in E; congruence|reflexivity].
  - destruct (Nat.eqb x y); reflexivity.
Qed.

Lemma covered_step ls bs x : covered ls bs -> free (ls ++ [bs]) x -> covered (map (advance x) ls) (advance x bs).
Proof.
  intros (N & C & R) F. split; [destruct ls; [congruence|discriminate]|]. split.
  - intros y Hy. assert (Ny : y <> x). { intros ->. apply (free_gone x (ls ++ [bs]) F (advance x bs)); [|exact Hy]. rewrite map_app. apply in_app_iff. right. left. reflexivity. }
    apply in_advance in Hy. specialize (C y Hy). apply in_concat in C as (l & Hl & Hy'). destruct (in_unless x y l Hy') as [E|H]; [congruence|].
    apply in_concat. exists (advance x l). split; [now apply in_map|exact H].
  - intro H. apply R. apply in_concat in H as (l & Hl & Hr). apply in_map_iff in Hl as (l0 & <- & Hl). apply in_concat. exists l0. split; [exact Hl|exact (in_advance _ _ _ Hr)].
Qed.

Lemma next_in ls bs x : covered ls bs -> next (ls ++ [bs]) x -> In x (concat ls).
Proof.
  intros (_ & C & _) (be & t & af & E & _). assert (Hl : In (x :: t) (ls ++ [bs])) by (rewrite E; apply in_elt).
  apply in_app_iff in Hl as [Hl|[->|[]]]; [apply in_concat; exists (x :: t); split; [exact Hl|left; reflexivity]|apply C; left; reflexivity].
Qed.

(** Both have the same next one. *)
Lemma split_next (all : list (list nat)) (fr : nat -> Prop) x : (exists be t af, all = be ++ (x :: t) :: af /\ fr x /\ forall y t', In (y :: t') be -> ~ fr y) <->
  fr x /\ exists i, (exists t, nth_error all i = Some (x :: t)) /\ forall j y t', j < i -> nth_error all j = Some (y :: t') -> ~ fr y.
Proof.
  split.
  - intros (be & t & af & -> & F & Nb). split; [exact F|]. exists (length be). split.
    + exists t. rewrite nth_error_app2 by lia. now rewrite Nat.sub_diag.
    + intros j y t' Hj Ej. apply (Nb y t'). rewrite nth_error_app1 in Ej by exact Hj. exact (nth_error_In _ _ Ej).
  - intros (F & i & (t & Ei) & Nb). destruct (nth_error_split _ _ Ei) as (be & af & -> & Hl). exists be, t, af. split; [reflexivity|]. split; [exact F|].
    intros y t' Hy. apply In_nth_error in Hy as (j & Ej). assert (Hj : j < length be) by (apply nth_error_Some; congruence). apply (Nb j y t'); [lia|]. rewrite nth_error_app1 by exact Hj. exact Ej.
Qed.

Lemma nth_rooted ls bs i l : nth_error (rooted ls ++ [bs]) i = Some l <-> (i < length ls /\ exists l0, nth_error ls i = Some l0 /\ l = l0 ++ [root]) \/ (i = length ls /\ l = bs).
Proof.
  unfold rooted. destruct (lt_eq_lt_dec i (length ls)) as [[H|H]|H].
  - rewrite nth_error_app1 by (rewrite map_length; exact H). rewrite nth_error_map. destruct (nth_error ls i) as [l0|] eqn:E.
    + cbn [option_map]. split; [intros [= <-]; left; split; [exact H|exists l0; auto]|intros [(_ & l1 & [= <-] & ->)|[-> _]]; [reflexivity|lia]].
    + apply nth_error_None in E. lia.
  - subst i. rewrite nth_error_app2 by (rewrite map_length; lia). rewrite map_length, Nat.sub_diag. cbn. split; [intros [= <-]; auto|intros [[X _]|[_ ->]]; [lia|reflexivity]].
  - split; [|intros [[X _]|[X _]]; lia]. intro E. assert (X : i < length (map (fun l0 => l0 ++ [root]) ls ++ [bs])) by (apply nth_error_Some; congruence). rewrite app_length, map_length in X. cbn in X. lia.
Qed.

Lemma nth_plain (ls : list (list nat)) bs i l : nth_error (ls ++ [bs]) i = Some l <-> (i < length ls /\ nth_error ls i = Some l) \/ (i = length ls /\ l = bs).
Proof.
  destruct (lt_eq_lt_dec i (length ls)) as [[H|H]|H].
  - rewrite nth_error_app1 by exact H. split; [auto|intros [[_ E]|[X _]]; [exact E|lia]].
  - subst i. rewrite nth_error_app2 by lia. rewrite Nat.sub_diag. cbn. split; [intros [= <-]; auto|intros [[X _]|[_ ->]]; [lia|reflexivity]].
  - split; [|intros [[X _]|[X _]]; lia]. intro E. assert (X : i < length (ls ++ [bs])) by (apply nth_error_Some; congruence). rewrite app_length in X. cbn in X. lia.
Qed.

Lemma next_rooted ls bs x : covered ls bs -> x <> root -> (next (rooted ls ++ [bs]) x <-> next (ls ++ [bs]) x).
Proof.
  intros C Nx. unfold next. rewrite !split_next. rewrite (free_rooted ls bs x Nx). split; intros (F & i & (t & Ei) & Nb); (split; [exact F|]); exists i; split.
  - apply nth_rooted in Ei as [(H & l0 & E & El)|[-> <-]].
    + destruct l0 as [|z l0]; [cbn in El; congruence|]. injection El as <- _. exists l0. apply nth_plain. left. auto.
    + exists t. apply nth_plain. right. auto.
  - intros j y t' Hj Ej. apply nth_plain in Ej as [[H Ej]|[-> _]].
    + assert (Ny : y <> root). { intros ->. destruct C as (_ & _ & R). apply R, in_concat. exists (root :: t'). split; [exact (nth_error_In _ _ Ej)|left; reflexivity]. }
      rewrite <- (free_rooted ls bs y Ny). apply (Nb j y (t' ++ [root]) Hj). apply nth_rooted. left. split; [exact H|]. exists (y :: t'). auto.
    + apply nth_rooted in Ei as [[X _]|[X _]]; lia.
  - apply nth_plain in Ei as [[H Ei]|[-> <-]].
    + exists (t ++ [root]). apply nth_rooted. left. split; [exact H|]. exists (x :: t). auto.
    + exists t. apply nth_rooted. right. auto.
  - assert (Hx : In x (concat ls)).
    { apply (next_in ls bs x C). unfold next. apply split_next. split; [exact F|]. exists i. split; [exists t; exact Ei|exact Nb]. }
    intros j y t' Hj Ej. apply nth_rooted in Ej as [(H & l0 & Ej & El)|[-> _]].
    + destruct l0 as [|z l0].
      * cbn in El. injection El as -> _. intro Fr. rewrite (root_free ls bs C Fr) in Hx. destruct Hx.
      * injection El as <- ->. assert (Ny : y <> root). { intros ->. destruct C as (_ & _ & R). apply R, in_concat. exists (root :: l0). split; [exact (nth_error_In _ _ Ej)|left; reflexivity]. }
        rewrite (free_rooted ls bs y Ny). apply (Nb j y l0 Hj). apply nth_plain. left. auto.
    + apply nth_plain in Ei as [[X _]|[X _]]; lia.
Qed.

Lemma all_empty ls bs : covered ls bs -> concat ls = [] -> bs = [] /\ forall l, In l ls -> l = [].
Proof.
  intros (_ & C & _) E. split; [destruct bs as [|x bs]; [reflexivity|]; specialize (C x (or_introl eq_refl)); rewrite E in C; destruct C|].
  intros l Hl. destruct l as [|x l]; [reflexivity|]. assert (X : In x (concat ls)) by (apply in_concat; exists (x :: l); split; [exact Hl|left; reflexivity]). rewrite E in X. destruct X.
Qed.

Lemma merges_root ls : ls <> [] -> (forall l, In l ls -> l = []) -> forall r, merges (rooted ls ++ [[]]) r <-> r = [root].
Proof.
  intros N H. assert (E : rooted ls = repeat [root] (length ls)).
  { unfold rooted. clear N. induction ls as [|l ls IH]; [reflexivity|]. cbn [map length repeat]. rewrite (H l (or_introl eq_refl)), IH; [reflexivity|]. intros x Hx. apply H. right. exact Hx. }
  rewrite E. destruct (length ls) as [|k] eqn:Ek; [apply length_zero_iff_nil in Ek; congruence|]. clear.
  assert (Ad : map (advance root) (repeat [root] (S k) ++ [[]]) = repeat [] (S k) ++ [[]]).
  { rewrite map_app. f_equal. induction (S k) as [|m IH]; [reflexivity|]. cbn [repeat map advance]. now rewrite Nat.eqb_refl, IH. }
  assert (El : forall l, In l (repeat [root] (S k) ++ [[]]) -> l = [root] \/ l = []).
  { intros l Hl. apply in_app_iff in Hl as [Hl|[<-|[]]]; [left; exact (repeat_spec _ _ _ Hl)|right; reflexivity]. }
  assert (Dn : forall l, In l (repeat ([] : list nat) (S k) ++ [[]]) -> l = []).
  { intros l Hl. apply in_app_iff in Hl as [Hl|[<-|[]]]; [exact (repeat_spec _ _ _ Hl)|reflexivity]. }
  intro r. split.
  - intro M. inversion M as [ls' D|ls' x r' Nx M']; subst.
    + specialize (D [root] (or_introl eq_refl)). discriminate D.
    + destruct Nx as (be & t & af & Es & _). assert (Hx : In (x :: t) (repeat [root] (S k) ++ [[]])) by (rewrite Es; apply in_elt). destruct (El _ Hx) as [X|X]; [|discriminate X]. injection X as -> ->.
      rewrite Ad in M'. inversion M' as [ls' D|ls' y r'' Ny M'']; subst; [reflexivity|]. destruct Ny as (be' & t' & af' & Es' & _).
      assert (Hy : In (y :: t') (repeat ([] : list nat) (S k) ++ [[]])) by (rewrite Es'; apply in_elt). discriminate (Dn _ Hy).
  - intros ->. apply merges_next; [|rewrite Ad; now apply merges_done]. exists [], [], (repeat [root] k ++ [[]]). split; [reflexivity|]. split; [|intros y t' []].
    intros l Hl. destruct (El l Hl) as [-> | ->]; intros [].
Qed.

Lemma merges_rooted ls0 r : (exists ls bs, ls0 = ls ++ [bs] /\ covered ls bs /\ merges ls0 r) -> forall ls bs, ls0 = ls ++ [bs] -> covered ls bs -> merges (rooted ls ++ [bs]) (r ++ [root]).
Proof.
  intros (_ & _ & _ & _ & M). induction M as [ls0 D|ls0 x r Nx M IH]; intros ls bs E C; subst ls0.
  - assert (Eb : bs = []) by (apply D, in_app_iff; right; left; reflexivity). subst bs. apply merges_root; [exact (proj1 C)| |reflexivity]. intros l Hl. apply D, in_app_iff. left. exact Hl.
  - assert (Rx : x <> root). { intros ->. apply (next_in ls bs root C) in Nx. destruct C as (_ & _ & R). exact (R Nx). }
    assert (F : free (ls ++ [bs]) x) by (destruct Nx as (? & ? & ? & _ & F & _); exact F).
    cbn [app]. apply merges_next; [now apply next_rooted|]. rewrite map_app, advance_rooted by exact Rx. apply IH; [rewrite map_app; reflexivity|]. now apply covered_step.
Qed.

Lemma rooted_merges all r : merges all r -> forall ls bs, all = rooted ls ++ [bs] -> covered ls bs -> exists r0, r = r0 ++ [root] /\ merges (ls ++ [bs]) r0.
Proof.
  induction 1 as [all D|all x r Nx M IH]; intros ls bs E C; subst all.
  - exfalso. destruct C as (N & _). destruct ls as [|l ls]; [congruence|]. specialize (D (l ++ [root]) (or_introl eq_refl)). destruct l; discriminate D.
  - destruct (Nat.eq_dec x root) as [->|Rx].
    + assert (F : free (rooted ls ++ [bs]) root) by (destruct Nx as (? & ? & ? & _ & F & _); exact F). apply (root_free ls bs C) in F. destruct (all_empty ls bs C F) as [-> He].
      exists []. assert (X := proj1 (merges_root ls (proj1 C) He (root :: r)) (merges_next _ _ _ Nx M)). injection X as ->. split; [reflexivity|].
      apply merges_done. intros l Hl. apply in_app_iff in Hl as [Hl|[<-|[]]]; [exact (He l Hl)|reflexivity].
    + apply (next_rooted ls bs x C Rx) in Nx. assert (F : free (ls ++ [bs]) x) by (destruct Nx as (? & ? & ? & _ & F & _); exact F).
      destruct (IH (map (advance x) ls) (advance x bs)) as (r0 & -> & M0).
      * rewrite map_app, advance_rooted by exact Rx. reflexivity.
      * now apply covered_step.
      * exists (x :: r0). split; [reflexivity|]. apply merges_next; [exact Nx|]. rewrite map_app. exact M0.
Qed.

(** Leaving out a class that is the last one in the order of each base makes no difference. *)
Lemma root_irrelevant ls bs : ls <> [] -> (forall x, In x bs -> In x (concat ls)) -> ~ In root (concat ls) ->
  forall r, merges (rooted ls ++ [bs]) r <-> exists r0, r = r0 ++ [root] /\ merges (ls ++ [bs]) r0.
Proof.
  intros N C R r. assert (Cv : covered ls bs) by (split; auto). split.
  - intro M. exact (rooted_merges _ _ M ls bs eq_refl Cv).
  - intros (r0 & -> & M). apply (merges_rooted (ls ++ [bs]) r0); [exists ls, bs; auto|reflexivity|exact Cv].
Qed.
End Root.

(** ** Creating classes *)

Fixpoint class_records (intros : list (str * introducer)) : list nat :=
  match intros with
  | (_, NClass t _ _ _) :: l => ct_record t :: class_records l
  | _ :: l => class_records l
  | [] => []
  end.

Lemma class_records_in intros r : In r (class_records intros) <-> introduced_class intros r.
Proof.
  unfold introduced_class. induction intros as [|[id i] l IH]; cbn [class_records].
  - split; [intros []|intros (? & ? & ? & ? & ? & [] & _)].
  - destruct i as [p|p n|e p n d|t p n d]; cbn [In]; rewrite IH; split.
    all: try (intros (id' & t' & p' & n' & d' & H & E); exists id', t', p', n', d'; split; [right; exact H|exact E]).
    all: try (intros (id' & t' & p' & n' & d' & [H|H] & E); [discriminate H|exists id', t', p', n', d'; split; [exact H|exact E]]).
    + intros [<-|(id' & t' & p' & n' & d' & H & E)]; [exists id, t, p, n, d; split; [left; reflexivity|reflexivity]|exists id', t', p', n', d'; split; [right; exact H|exact E]].
    + intros (id' & t' & p' & n' & d' & [H|H] & E); [injection H as <- <- <- <- <-; left; exact E|right; exists id', t', p', n', d'; split; [exact H|exact E]].
Qed.

Lemma creates_keys ms intros ms' : creates ms intros ms' -> map fst ms' = rev (class_records intros) ++ map fst ms.
Proof.
  induction 1 as [ms|ms id i intros ms' N C IH|ms id t p n d intros ls r ms' H1 H2 H3 C IH].
  - reflexivity.
  - cbn [class_records]. destruct i as [q|q n|e q n d|t q n d]; try exact IH. destruct (N t q n d eq_refl).
  - cbn [class_records rev]. rewrite IH. cbn [map fst]. now rewrite <- app_assoc.
Qed.

Lemma creates_keeps ms intros ms' : creates ms intros ms' -> forall x, In x ms -> In x ms'.
Proof. induction 1; intros x Hx; [exact Hx|auto|]. apply IHcreates. right. exact Hx. Qed.

Lemma creates_app l1 : forall ms l2 ms', creates ms (l1 ++ l2) ms' <-> exists mid, creates ms l1 mid /\ creates mid l2 ms'.
Proof.
  induction l1 as [|x l1 IH]; intros ms l2 ms'; cbn [app].
  - split; [intro H; exists ms; split; [constructor|exact H]|intros (mid & H1 & H2)]. inversion H1; subst. exact H2.
  - split.
    + intro H. inversion H as [|? ? ? ? ? H1 H2|? ? ? ? ? ? ? ls r ? H1 H2 H3 H4]; subst.
      * apply IH in H2 as (mid & A & B). exists mid. split; [now apply creates_other|exact B].
      * apply IH in H4 as (mid & A & B). exists mid. split; [eapply creates_class; eauto|exact B].
    + intros (mid & H & B). inversion H as [|? ? ? ? ? H1 H2|? ? ? ? ? ? ? ls r ? H1 H2 H3 H4]; subst.
      * apply creates_other; [exact H1|]. apply IH. eauto.
      * eapply creates_class; eauto. apply IH. eauto.
Qed.

Lemma functional {A} (ms : list (nat * A)) : NoDup (map fst ms) -> forall k x y, In (k, x) ms -> In (k, y) ms -> x = y.
Proof.
  induction ms as [|[k0 z] ms IH]; cbn [map fst]; intros N k x y; [intros []|]. inversion N as [|? ? N1 N2]; subst. intros [E|H] [F|H'].
  - congruence.
  - injection E as -> ->. destruct N1. exact (in_map fst _ _ H').
  - injection F as -> ->. destruct N1. exact (in_map fst _ _ H).
  - exact (IH N2 k x y H H').
Qed.

Lemma derives_trans h a p b q c : derives h a p b -> derives h b q c -> derives h a (p ++ q) c.
Proof. induction 1 as [r s Hs|r s p b Hs _ IH]; intro H; cbn [app]; apply derives_step; auto. Qed.

Lemma public_app p q : public_path p -> public_path q -> public_path (p ++ q).
Proof. intros H1 H2 s Hs. apply in_app_iff in Hs as [Hs|Hs]; auto. Qed.

Lemma derives_lower h : acyclic h -> forall r p b, derives h r p b -> h_height h b < h_height h r.
Proof. intros A r p b. induction 1 as [r s Hs|r s p b Hs _ IH]; specialize (A _ _ Hs); lia. Qed.

Lemma lists_derived h inl hid e c b : lists h inl hid e c b -> publicly_derived h c b.
Proof.
  induction 1 as [r s H1 H2 H3 H4 H5|r s b H1 H2 H3 H4 H5 (p & Hp & Pp)].
  - exists [s]. split; [now constructor|]. intros x [<-|[]]. exact H2.
  - exists (s :: p). split; [now constructor|]. intros x [<-|Hx]; auto.
Qed.

Lemma publicly_trans h a b c : publicly_derived h a b -> publicly_derived h b c -> publicly_derived h a c.
Proof. intros (p & Hp & Pp) (q & Hq & Pq). exists (p ++ q). split; [eapply derives_trans; eauto|now apply public_app]. Qed.

Section Classes.
Context (u : unit) (st : storage) (h : hierarchy) (exposed : nat -> Prop) (intros : list (str * introducer)).

Definition bases_of (t : pyclass) : Prop :=
  exists pol, create_policy u st h (ct_record t) = Some pol /\
    (forall b, In b (ct_bases t) <-> lists h (fun i => should_inline pol i = true) (fun i => should_hide pol i = true) exposed (ct_record t) b) /\
    listing h (fun i => should_inline pol i = true) (fun i => should_hide pol i = true) exposed (h_direct h (ct_record t)) (ct_bases t).

Hypothesis A : acyclic h.
Hypothesis B : forall id t p n d, In (id, NClass t p n d) intros -> bases_of t.
Hypothesis N : NoDup (class_records intros).

(** *** Subclasses are derived classes *)

Definition sound (ms : list (nat * list nat)) : Prop :=
  forall c m, In (c, m) ms -> NoDup m /\ exists r, m = c :: r /\ forall b, In b r -> publicly_derived h c b /\ In b (map fst ms).

Lemma sound_class ms t ls r : sound ms -> bases_of t -> Forall2 (fun b m => In (b, m) ms) (ct_bases t) ls -> merges (ls ++ [ct_bases t]) r ->
  sound ((ct_record t, ct_record t :: r) :: ms).
Proof.
  intros S (pol & _ & Hl & _) F M.
  assert (X : forall b, In b r -> publicly_derived h (ct_record t) b /\ In b (map fst ms)).
  { intros b Hb. rewrite (merges_in _ _ M) in Hb. destruct Hb as (l & Hl' & Hb). apply in_app_iff in Hl' as [Hl'|[<-|[]]].
    - assert (Y : exists b0, In b0 (ct_bases t) /\ In (b0, l) ms).
      { clear -F Hl'. induction F as [|x m bs ls Hx F IH]; [destruct Hl'|]. destruct Hl' as [<-|Hl']; [exists x; split; [left; reflexivity|exact Hx]|].
        destruct (IH Hl') as (b0 & H1 & H2). exists b0. split; [right; exact H1|exact H2]. }
      destruct Y as (b0 & H1 & H2). apply Hl in H1. apply lists_derived in H1. destruct (S _ _ H2) as (_ & r0 & -> & Hr). destruct Hb as [<-|Hb].
      + split; [exact H1|exact (in_map fst _ _ H2)].
      + destruct (Hr b Hb) as [Hd Hk]. split; [exact (publicly_trans _ _ _ _ H1 Hd)|exact Hk].
    - split; [apply (lists_derived _ _ _ _ _ _ (proj1 (Hl b) Hb))|]. clear -F Hb. induction F as [|x m bs ls Hx F IH]; [destruct Hb|].
      destruct Hb as [<-|Hb]; [exact (in_map fst _ _ Hx)|exact (IH Hb)]. }
  intros c m [E|H].
  - injection E as <- <-. split.
    + constructor; [|exact (merges_distinct _ _ M)]. intro Hb. destruct (X _ Hb) as [(p & Hp & _) _]. apply (derives_lower _ A) in Hp. lia.
    + exists r. split; [reflexivity|]. intros b Hb. destruct (X b Hb) as [H1 H2]. split; [exact H1|right; exact H2].
  - destruct (S c m H) as (Hd & r0 & -> & Hr). split; [exact Hd|]. exists r0. split; [reflexivity|]. intros b Hb. destruct (Hr b Hb) as [H1 H2]. split; [exact H1|right; exact H2].
Qed.

Lemma creates_sound ms l ms' : creates ms l ms' -> (forall x, In x l -> In x intros) -> sound ms -> sound ms'.
Proof.
  induction 1 as [ms|ms id i l ms' Ni C IH|ms id t p n d l ls r ms' H1 H2 H3 C IH]; intros I S; [exact S| |].
  - apply IH; [intros x Hx; apply I; right; exact Hx|exact S].
  - apply IH; [intros x Hx; apply I; right; exact Hx|]. apply (sound_class ms t ls r S); [apply (B id t p n d), I; left; reflexivity|exact H2|exact H3].
Qed.

Lemma in_forall2 ms (bs : list nat) ls : Forall2 (fun (b : nat) (m : list nat) => In (b, m) ms) bs ls -> forall b, In b bs -> exists m, In m ls /\ In (b, m) ms.
Proof.
  induction 1 as [|x m bs ls Hx F IH]; intros b; [intros []|]. intros [<-|Hb]; [exists m; split; [left; reflexivity|exact Hx]|].
  destruct (IH b Hb) as (m' & H1 & H2). exists m'. split; [right; exact H1|exact H2].
Qed.

(** Conversely *)
Lemma plain_subclass ms : creates [] intros ms -> forall c b, plainly_derived u st h exposed c b ->
  (forall x, exposed x -> kind u x = KRecord -> introduced_class intros x) -> (forall r s, In s (h_direct h r) -> kind u (sp_base s) = KRecord) ->
  introduced_class intros c -> subclass ms c b.
Proof.
  intros C c b D Hx Hk. assert (Nk : NoDup (map fst ms)). { rewrite (creates_keys _ _ _ C), app_nil_r. apply NoDup_rev, N. }
  assert (S := creates_sound _ _ _ C (fun x H => H) (fun c m (H : In (c, m) []) => match H with end)).
  induction D as [c|c s b Hs Hp He Hr Hh D IH]; intro Hc.
  - assert (K : In c (map fst ms)). { rewrite (creates_keys _ _ _ C), app_nil_r. apply -> in_rev. now apply class_records_in. }
    apply in_map_iff in K as ((c' & m) & E & Hm). cbn in E. subst c'. exists m. split; [exact Hm|]. destruct (S _ _ Hm) as (_ & r & -> & _). left. reflexivity.
  - destruct (IH (Hx _ He (Hk _ _ Hs))) as (mb & Hmb & Hb).
    destruct Hc as (id & t & p & n & d & Hin & Et). assert (Hin' := Hin). apply in_split in Hin' as (l1 & l2 & El). rewrite El in C. apply creates_app in C as (mid & C1 & C2).
    inversion C2 as [|? ? ? ? ? Ni|? ? ? ? ? ? ? ls r ? H1 H2 H3 H4]; subst; [destruct (Ni _ _ _ _ eq_refl)|].
    destruct (B _ _ _ _ _ Hin) as (pol & Hpol & Hl & _). destruct (policy_general h A u st (ct_record t)) as (pol' & Ep & P1 & P2 & _). assert (pol' = pol) by congruence. subst pol'.
    assert (Hbase : In (sp_base s) (ct_bases t)).
    { apply Hl. apply lists_direct; [exact Hs|exact Hp| | |exact He].
      - intro E. apply P1 in E. exact (Hh E).
      - intro E. apply P2 in E as [E _]. exact (Hr E). }
    exists (ct_record t :: r). split; [apply (creates_keeps _ _ _ H4); left; reflexivity|]. right. rewrite (merges_in _ _ H3).
    destruct (in_forall2 _ _ _ H2 _ Hbase) as (m & Hm & Hmid). exists m. split; [apply in_app_iff; left; exact Hm|].
    assert (m = mb). { apply (functional ms Nk (sp_base s)); [|exact Hmb]. apply (creates_keeps _ _ _ H4). right. exact Hmid. } subst m. exact Hb.
Qed.

(** *** Creation succeeds *)

Hypothesis Un : unambiguous h exposed.
Hypothesis Di : distinct_bases h.

(** Bases of bases, in the order of [ms]. *)
Lemma listing_from inl hid ds l : listing h inl hid exposed ds l -> forall b, In b l -> exists s p, In s ds /\ public_path (s :: p) /\ exposed b /\
  ((p = [] /\ b = sp_base s) \/ derives h (sp_base s) p b).
Proof.
  induction 1 as [|s ds l H _ IH|s ds l H1 H2 H3 H4 _ IH|s ds l1 l2 H1 H2 H3 _ IH1 _ IH2]; intros b Hb.
  - destruct Hb.
  - destruct (IH b Hb) as (s' & p & Hs & X). exists s', p. split; [right; exact Hs|exact X].
  - destruct Hb as [<-|Hb].
    + exists s, []. split; [left; reflexivity|]. split; [intros x [<-|[]]; exact H1|]. split; [exact H4|left; split; reflexivity].
    + destruct (IH b Hb) as (s' & p & Hs & X). exists s', p. split; [right; exact Hs|exact X].
  - apply in_app_iff in Hb as [Hb|Hb].
    + destruct (IH1 b Hb) as (s' & p & Hs & Pp & He & X). exists s, (s' :: p). split; [left; reflexivity|].
      split; [intros x [<-|Hx]; [exact H1|exact (Pp x Hx)]|]. split; [exact He|]. right. destruct X as [[-> ->]|X]; [now apply derives_direct|now apply derives_step].
    + destruct (IH2 b Hb) as (s' & p & Hs & X). exists s', p. split; [right; exact Hs|exact X].
Qed.

Lemma Forall2_split {X Y} (P : X -> Y -> Prop) (l1 l2 : list X) : forall ys, Forall2 P (l1 ++ l2) ys -> exists y1 y2, ys = y1 ++ y2 /\ Forall2 P l1 y1 /\ Forall2 P l2 y2.
Proof.
  induction l1 as [|x l1 IH]; cbn [app]; intros ys F; [exists [], ys; split; [reflexivity|split; [constructor|exact F]]|].
  inversion F as [|? y ? ys' H F']; subst. destruct (IH _ F') as (y1 & y2 & -> & F1 & F2). exists (y :: y1), y2. split; [reflexivity|split; [constructor; assumption|exact F2]].
Qed.

Lemma from_order ms bs ls : sound ms -> Forall2 (fun (b : nat) (m : list nat) => In (b, m) ms) bs ls -> forall x, In x (concat ls) -> exists b, In b bs /\ (x = b \/ publicly_derived h b x) /\ In x (map fst ms).
Proof.
  intros S. induction 1 as [|b m bs ls Hb F IH]; cbn [concat]; intros x Hx; [destruct Hx|]. apply in_app_iff in Hx as [Hx|Hx].
  - destruct (S _ _ Hb) as (_ & r & -> & Hr). exists b. split; [left; reflexivity|]. destruct Hx as [<-|Hx]; [split; [left; reflexivity|exact (in_map fst _ _ Hb)]|].
    destruct (Hr x Hx) as [H1 H2]. split; [right; exact H1|exact H2].
  - destruct (IH x Hx) as (b' & H1 & H2). exists b'. split; [right; exact H1|exact H2].
Qed.

(** Path that begins with [s]. *)
Lemma reached inl hid ms ds l ls c : sound ms -> (forall s, In s ds -> In s (h_direct h c)) -> listing h inl hid exposed ds l -> Forall2 (fun (b : nat) (m : list nat) => In (b, m) ms) l ls ->
  forall x, In x (concat ls) -> exists s p, In s ds /\ public_path (s :: p) /\ derives h c (s :: p) x /\ In x (map fst ms).
Proof.
  intros S I L F x Hx. destruct (from_order ms l ls S F x Hx) as (b & Hb & Hbx & Hk). destruct (listing_from _ _ _ _ L b Hb) as (s & p & Hs & Pp & _ & Hp).
  assert (Db : derives h c (s :: p) b) by (destruct Hp as [[-> ->]|Hp]; [apply derives_direct, I, Hs|apply derives_step; [apply I, Hs|exact Hp]]).
  destruct Hbx as [->|(q & Hq & Pq)]; [exists s, p; auto|]. exists s, (p ++ q). split; [exact Hs|]. split; [apply (public_app (s :: p) q); assumption|].
  split; [exact (derives_trans _ _ _ _ _ _ Db Hq)|exact Hk].
Qed.

Lemma nodup_app (l1 l2 : list nat) : NoDup l1 -> NoDup l2 -> (forall x, In x l1 -> ~ In x l2) -> NoDup (l1 ++ l2).
Proof.
  induction l1 as [|x l1 IH]; cbn [app]; intros N1 N2 D; [exact N2|]. inversion N1 as [|? ? H1 H2]; subst. constructor.
  - rewrite in_app_iff. intros [H|H]; [exact (H1 H)|exact (D x (or_introl eq_refl) H)].
  - apply IH; [exact H2|exact N2|]. intros y Hy. exact (D y (or_intror Hy)).
Qed.

Lemma orders_disjoint inl hid ms : sound ms -> (forall x, In x (map fst ms) -> exposed x) -> forall ds l, listing h inl hid exposed ds l ->
  forall c, (forall s, In s ds -> In s (h_direct h c)) -> NoDup ds -> forall ls, Forall2 (fun (b : nat) (m : list nat) => In (b, m) ms) l ls -> NoDup (concat ls).
Proof.
  intros S Ex ds l L. induction L as [|s ds l H L IH|s ds l H1 H2 H3 H4 L IH|s ds l1 l2 H1 H2 H3 L1 IH1 L2 IH2]; intros c I Nd ls F.
  - inversion F; subst. constructor.
  - inversion Nd; subst. apply (IH c); [intros x Hx; apply I; right; exact Hx|assumption|exact F].
  - inversion Nd as [|? ? N1 N2]; subst. inversion F as [|? m ? ls' Hm F']; subst. cbn [concat]. destruct (S _ _ Hm) as (Nm & r & -> & Hr).
    assert (I' : forall s0, In s0 ds -> In s0 (h_direct h c)) by (intros x Hx; apply I; right; exact Hx).
    apply nodup_app; [exact Nm|exact (IH c I' N2 _ F')|].
    intros x Hx Hc. destruct (reached _ _ _ _ _ _ c S I' L F' x Hc) as (s' & p' & Hs' & Pp' & Dp' & Kx).
    assert (Y : exists p, derives h c (s :: p) x /\ public_path (s :: p)).
    { destruct Hx as [<-|Hx]; [exists []; split; [apply derives_direct, I; left; reflexivity|intros y [<-|[]]; exact H1]|].
      destruct (Hr x Hx) as [(p & Hp & Pp) _]. exists p. split; [apply derives_step; [apply I; left; reflexivity|exact Hp]|]. intros y [<-|Hy]; auto. }
    destruct Y as (p & Dp & Pp). assert (E := Un c _ _ x (Ex x Kx) Dp Dp' Pp Pp'). injection E as <- _. exact (N1 Hs').
  - inversion Nd as [|? ? N1 N2]; subst. destruct (Forall2_split _ _ _ _ F) as (ls1 & ls2 & -> & F1 & F2). rewrite concat_app.
    assert (I' : forall s0, In s0 ds -> In s0 (h_direct h c)) by (intros x Hx; apply I; right; exact Hx).
    apply nodup_app; [exact (IH1 (sp_base s) (fun x Hx => Hx) (Di _) _ F1)|exact (IH2 c I' N2 _ F2)|].
    intros x Hx Hc. destruct (reached _ _ _ _ _ _ c S I' L2 F2 x Hc) as (s' & p' & Hs' & Pp' & Dp' & Kx).
    destruct (reached _ _ _ _ _ _ (sp_base s) S (fun x Hx => Hx) L1 F1 x Hx) as (s1 & p1 & Hs1 & Pp1 & Dp1 & _).
    assert (D1 : derives h c (s :: s1 :: p1) x) by (apply derives_step; [apply I; left; reflexivity|exact Dp1]).
    assert (P1 : public_path (s :: s1 :: p1)) by (intros y [<-|Hy]; [exact H1|exact (Pp1 y Hy)]).
    assert (E := Un c _ _ x (Ex x Kx) D1 Dp' P1 Pp'). injection E as <- _. exact (N1 Hs').
Qed.

Lemma orders_headed ms : sound ms -> forall bs ls, Forall2 (fun (b : nat) (m : list nat) => In (b, m) ms) bs ls -> headed ls bs.
Proof. intros S bs ls. induction 1 as [|b m bs ls Hb F IH]; [constructor|]. destruct (S _ _ Hb) as (_ & r & -> & _). now constructor. Qed.

Lemma orders_exist (ms : list (nat * list nat)) bs : (forall b, In b bs -> In b (map fst ms)) -> exists ls, Forall2 (fun b m => In (b, m) ms) bs ls.
Proof.
  induction bs as [|b bs IH]; intro H; [exists []; constructor|]. destruct IH as (ls & F); [intros x Hx; apply H; right; exact Hx|].
  assert (Hb := H b (or_introl eq_refl)). apply in_map_iff in Hb as ((b' & m) & E & Hm). cbn in E. subst b'. exists (m :: ls). now constructor.
Qed.

Lemma nodup_concat_heads ls bs : headed ls bs -> NoDup (concat ls) -> NoDup bs.
Proof.
  induction 1 as [|b t ls bs H IH]; intro Nd; [constructor|]. cbn [concat app] in Nd. inversion Nd as [|? ? N1 N2]; subst. constructor.
  - intro Hb. apply N1, in_app_iff. right. exact (headed_in _ _ H _ Hb).
  - apply IH. clear -N2. induction t as [|x t IH]; [exact N2|]. cbn [app] in N2. inversion N2. auto.
Qed.

Hypothesis Ei : forall x, introduced_class intros x -> exposed x.
(** Bases are created before. *)
Hypothesis Be : forall l1 id t p n d l2, intros = l1 ++ (id, NClass t p n d) :: l2 -> forall b, In b (ct_bases t) -> introduced_class l1 b.

Lemma creates_succeeds l2 : forall l1 ms, intros = l1 ++ l2 -> creates [] l1 ms -> exists ms', creates ms l2 ms' /\
  forall id t p n d, In (id, NClass t p n d) l2 -> exists ls, Forall2 (fun b m => In (b, m) ms') (ct_bases t) ls /\ In (ct_record t, ct_record t :: concat ls) ms'.
Proof.
  induction l2 as [|[id i] l2 IH]; intros l1 ms E C.
  { exists ms. split; [constructor|intros id t p n d []]. }
  assert (Hsub : forall x, In x l1 -> In x intros) by (intros x Hx; rewrite E; apply in_app_iff; left; exact Hx).
  assert (S := creates_sound _ _ _ C Hsub (fun c m (H : In (c, m) []) => match H with end)).
  assert (Kms : forall x, In x (map fst ms) <-> introduced_class l1 x).
  { intro x. rewrite (creates_keys _ _ _ C), app_nil_r, <- in_rev. apply class_records_in. }
  assert (E' : intros = (l1 ++ [(id, i)]) ++ l2) by (rewrite <- app_assoc; exact E).
  assert (Other : (forall t p n d, i <> NClass t p n d) -> exists ms', creates ms ((id, i) :: l2) ms' /\
    forall id' t p n d, In (id', NClass t p n d) ((id, i) :: l2) -> exists ls, Forall2 (fun b m => In (b, m) ms') (ct_bases t) ls /\ In (ct_record t, ct_record t :: concat ls) ms').
  { intro Ni. destruct (IH (l1 ++ [(id, i)]) ms E') as (ms' & C' & H').
    - apply creates_app. exists ms. split; [exact C|]. apply creates_other; [exact Ni|constructor].
    - exists ms'. split; [now apply creates_other|]. intros id' t p n d [X|X]; [injection X as _ X; destruct (Ni _ _ _ _ X)|exact (H' _ _ _ _ _ X)]. }
  destruct i as [q|q m|e q m d|t q m d]; [apply Other; discriminate|apply Other; discriminate|apply Other; discriminate|]. clear Other.
  assert (Hb : forall b, In b (ct_bases t) -> In b (map fst ms)) by (intros b Hb; apply Kms; exact (Be _ _ _ _ _ _ _ E b Hb)).
  destruct (orders_exist ms _ Hb) as (ls & F).
  assert (Hin : In (id, NClass t q m d) intros) by (rewrite E; apply in_elt).
  destruct (B _ _ _ _ _ Hin) as (pol & Hpol & Hl & Hls).
  assert (Ex : forall x, In x (map fst ms) -> exposed x).
  { intros x Hx. apply Ei. apply Kms in Hx. destruct Hx as (id' & t' & p' & n' & d' & H1 & H2). exists id', t', p', n', d'. split; [apply Hsub, H1|exact H2]. }
  assert (Nc := orders_disjoint _ _ ms S Ex _ _ Hls (ct_record t) (fun x Hx => Hx) (Di _) ls F).
  assert (Hh := orders_headed ms S _ _ F).
  assert (M := merge_bases _ _ Nc Hh). assert (Nb := nodup_concat_heads _ _ Hh Nc).
  destruct (IH (l1 ++ [(id, NClass t q m d)]) ((ct_record t, ct_record t :: concat ls) :: ms) E') as (ms' & C' & H').
  - apply creates_app. exists ms. split; [exact C|]. eapply creates_class; [exact Nb|exact F|exact M|constructor].
  - exists ms'. split; [eapply creates_class; [exact Nb|exact F|exact M|exact C']|]. intros id' t' p' n' d' [X|X]; [|exact (H' _ _ _ _ _ X)].
    injection X as <- <- <- <- <-. exists ls. split; [|apply (creates_keeps _ _ _ C'); left; reflexivity].
    assert (K : forall x, In x ms -> In x ms') by (intros x Hx; apply (creates_keeps _ _ _ C'); right; exact Hx). revert F K. clear.
    intros F K. induction F as [|b mm bs ls Hb F IH]; [constructor|]. constructor; [exact (K _ Hb)|exact IH].
Qed.
End Classes.

(** ** Generated modules *)

Section Generated.
Context (u : unit) (w : facts) (found : nat -> list nat) (implicit : nat -> bool) (iteration : list nat -> list nat) (Se : setting u w iteration)
  (n : nat) (name : str) (b : bstate) (files : list (list item)) (rs : list ereport) (st' : storage) (Hn : 0 < n)
  (HG : generate u w found implicit iteration n name = Some (RGraph b (EWritten files rs st')))
  (intros : list (str * introducer)) (calls : list (str * str)) (post : list nat) (Hin : In (IModule name intros calls post) (concat files)).

Lemma written_classes : exists g, (forall x, introduced_class intros x -> In x (g_nodes g)) /\ (forall x, In x (g_nodes g) -> kind u x = KRecord -> introduced_class intros x) /\
  NoDup (class_records intros) /\ (forall id t p m d, In (id, NClass t p m d) intros -> bases_of u (bs_annotations b) (w_hierarchy w) (fun i => In i (g_nodes g)) t /\ kind u (ct_record t) = KRecord) /\
  (forall id e p m d, In (id, NEnum e p m d) intros -> kind u e = KEnum).
Proof.
  destruct (run_written _ _ _ _ _ Se _ _ _ _ _ _ Hn HG) as (g & vis & order & all & chunks & post' & X & G & Ly & Hlen & _).
  destruct (exposed_graph _ _ _ _ _ Se _ _ _ _ X) as (T & _). exists g.
  assert (Hf : 0 < length files) by lia. destruct (layout_definitions _ _ _ _ _ Ly Hf) as [_ Hm].
  assert (Hi : In (IModule name intros calls post) (filter is_module (concat files))) by (apply filter_In; split; [exact Hin|reflexivity]).
  rewrite Hm in Hi. destruct Hi as [E|[]]. injection E as Ei _ _.
  assert (Cl : forall e t p m d, In e all -> ex_intro e = NClass t p m d -> ex_context e = ct_record t /\ kind u (ct_record t) = KRecord /\ bases_of u (bs_annotations b) (w_hierarchy w) (fun i => In i (g_nodes g)) t).
  { intros e t p m d He Ee. destruct (ge_introduces _ _ _ _ _ _ _ _ _ _ _ G e He) as (Hint & _). unfold introduces in Hint. rewrite Ee in Hint.
    destruct (kind u (ex_context e)) eqn:Ke; try (destruct Hint as (x & Hx); discriminate); try (destruct Hint as (x & y & z & Hx & _); discriminate); try contradiction.
    destruct Hint as (t0 & p0 & n0 & d0 & Et & _ & Hrec & _ & _ & pol & Hpol & Hlist & Hls). injection Et as <- _ _ _. rewrite <- Hrec in Ke, Hpol, Hlist, Hls. split; [symmetry; exact Hrec|]. split; [exact Ke|]. exists pol. auto. }
  split; [|split; [|split; [|split]]].
  - intros x (id & t & p & m & d & H & <-). rewrite <- Ei in H. apply in_map_iff in H as (e & Ee & He). injection Ee as _ Ee.
    destruct (Cl _ _ _ _ _ He Ee) as (Ec & _). rewrite <- Ec. exact (entry_context_node _ _ _ _ _ _ _ _ _ _ _ G e He).
  - intros x Hx Kx. assert (Hc : In x (map ex_context all)).
    { apply (blocks_keeps _ _ _ _ (ge_blocks _ _ _ _ _ _ _ _ _ _ _ G)); [|rewrite Kx; discriminate]. destruct (ge_order _ _ _ _ _ _ _ _ _ _ _ G) as [Hp _]. apply (Permutation_in _ Hp), Hx. }
    apply in_map_iff in Hc as (e & Ee & He). destruct (ge_introduces _ _ _ _ _ _ _ _ _ _ _ G e He) as (Hint & _). unfold introduces in Hint. rewrite Ee, Kx in Hint.
    destruct Hint as (t & p & m & d & Et & _ & Hrec & _). exists (ex_id e), t, p, m, d. split; [|exact Hrec]. rewrite <- Ei. apply in_map_iff. exists e. split; [now rewrite Et|exact He].
  - assert (U : forall e f, In e all -> In f all -> ex_context e = ex_context f -> e = f) by (intros e f He Hf0; exact (context_unique _ _ _ _ _ _ _ _ _ _ _ T G e f He Hf0)).
    assert (Nd := NoDup_map_inv _ _ (contexts_nodup _ _ _ _ _ _ _ _ _ _ _ T G)).
    rewrite <- Ei. clear Hm Ly Hlen Hf Ei Hin. assert (I : forall e, In e all -> In e all) by auto. revert I Nd. generalize all at 1 3 4 as l. induction l as [|e l IH]; intros I Nd; [constructor|].
    inversion Nd as [|? ? N1 N2]; subst. assert (Hl : NoDup (class_records (map (fun e => (ex_id e, ex_intro e)) l))) by (apply IH; [intros f Hf; apply I; right; exact Hf|exact N2]).
    cbn [map class_records]. destruct (ex_intro e) as [p|p m|x p m d|t p m d] eqn:Ee; try exact Hl. constructor; [|exact Hl].
    rewrite class_records_in. intros (id & t' & p' & m' & d' & H & Et). apply in_map_iff in H as (f & Ef & Hf). injection Ef as _ Ef.
    assert (He : In e all) by (apply I; left; reflexivity). assert (Hf' : In f all) by (apply I; right; exact Hf).
    assert (e = f). { apply U; [exact He|exact Hf'|]. rewrite (proj1 (Cl _ _ _ _ _ He Ee)), (proj1 (Cl _ _ _ _ _ Hf' Ef)). symmetry. exact Et. } subst f. exact (N1 Hf).
  - intros id t p m d H. rewrite <- Ei in H. apply in_map_iff in H as (e & Ee & He). injection Ee as _ Ee. destruct (Cl _ _ _ _ _ He Ee) as (_ & K & Bt). auto.
  - intros id x p m d H. rewrite <- Ei in H. apply in_map_iff in H as (e & Ee & He). injection Ee as _ Ee. destruct (ge_introduces _ _ _ _ _ _ _ _ _ _ _ G e He) as (Hint & _). unfold introduces in Hint. rewrite Ee in Hint.
    destruct (kind u (ex_context e)) eqn:Ke; try (destruct Hint as (y & Hx); discriminate); try contradiction.
    + destruct Hint as (p0 & n0 & b0 & E0 & _). injection E0 as -> _ _ _. exact Ke.
    + destruct Hint as (? & ? & ? & ? & E0 & _). discriminate E0.
Qed.

Lemma plainly_ext st h (e1 e2 : nat -> Prop) c x : (forall y, e1 y -> e2 y) -> plainly_derived u st h e1 c x -> plainly_derived u st h e2 c x.
Proof. intros E. induction 1; [constructor|eapply plainly_base; eauto]. Qed.

Theorem subclasses ms : creates [] intros ms ->
  (forall c x, subclass ms c x -> introduced_class intros c /\ introduced_class intros x /\ (c = x \/ publicly_derived (w_hierarchy w) c x)) /\
  (forall c x, introduced_class intros c -> plainly_derived u (bs_annotations b) (w_hierarchy w) (introduced_class intros) c x -> subclass ms c x) /\
  (forall c, introduced_class intros c -> exists r, In (c, c :: r) ms /\ NoDup (c :: r) /\ forall m, In (c, m) ms -> m = c :: r).
Proof.
  intros C. destruct written_classes as (g & H1 & H2 & H3 & H4 & _).
  assert (S : sound (w_hierarchy w) ms).
  { eapply creates_sound; [exact (la_acyclic _ _ (se_language _ _ _ Se))|intros id t p m d H; exact (proj1 (H4 _ _ _ _ _ H))|exact C|auto|intros c m []]. }
  assert (K : forall x, In x (map fst ms) <-> introduced_class intros x).
  { intro x. rewrite (creates_keys _ _ _ C), app_nil_r, <- in_rev. apply class_records_in. }
  assert (Nk : NoDup (map fst ms)) by (rewrite (creates_keys _ _ _ C), app_nil_r; apply NoDup_rev, H3).
  split; [|split].
  - intros c x (m & Hm & Hx). destruct (S _ _ Hm) as (_ & r & -> & Hr). assert (Hc : introduced_class intros c) by (apply K; exact (in_map fst _ _ Hm)). split; [exact Hc|].
    destruct Hx as [<-|Hx]; [auto|]. destruct (Hr x Hx) as [Hd Hk]. split; [now apply K|right; exact Hd].
  - intros c x Hc D. refine (plain_subclass u _ _ (fun i => In i (g_nodes g)) intros (la_acyclic _ _ (se_language _ _ _ Se)) _ H3 ms C c x _ H2 (la_bases _ _ (se_language _ _ _ Se)) Hc).
    + intros id t p m d H. exact (proj1 (H4 _ _ _ _ _ H)).
    + revert D. apply plainly_ext. exact H1.
  - intros c Hc. apply K in Hc. apply in_map_iff in Hc as ((c' & m) & E & Hm). cbn in E. subst c'. destruct (S _ _ Hm) as (Nm & r & -> & _).
    exists r. split; [exact Hm|]. split; [exact Nm|]. intros m Hm'. exact (functional ms Nk c _ _ Hm' Hm).
Qed.

(** Types that are registered have been introduced. *)
Lemma registered_introduced default_holder l : forall s, import default_holder l = Some s -> forall x, holding s x <> None -> introduced_class l x \/ exists id p m d, In (id, NEnum x p m d) l.
Proof.
  unfold import. assert (H : forall l s0 s, fold_opt (execute default_holder) l s0 = Some s -> forall x, holding s x <> None -> holding s0 x <> None \/ introduced_class l x \/ exists id p m d, In (id, NEnum x p m d) l).
  { clear. induction l as [|[id i] l IH]; cbn [fold_opt]; intros s0 s E x Hx; [injection E as <-; left; exact Hx|].
    destruct (execute default_holder s0 (id, i)) as [s1|] eqn:E1; [|discriminate E].
    destruct (IH _ _ E x Hx) as [H|[(id' & t & p & m & d & H & Et)|(id' & p & m & d & H)]].
    2:{ right. left. exists id', t, p, m, d. split; [right; exact H|exact Et]. }
    2:{ right. right. exists id', p, m, d. right. exact H. }
    unfold execute in E1. cbn [fst snd] in E1. destruct (value s0 id); [discriminate|]. destruct (value s0 (intro_parent i)) as [o|]; [|discriminate].
    assert (R : forall n r bs df c, register s0 o n r bs df c id = Some s1 -> x = r \/ holding s0 x <> None).
    { intros n r bs df c. unfold register. destruct (attribute s0 o n); [discriminate|]. destruct (holding s0 r); [discriminate|]. destruct (forallb _ bs); [|discriminate].
      intros [= <-]. unfold holding in H. cbn [s_types find fst] in H. destruct (Nat.eqb r x) eqn:Er; [left; symmetry; apply Nat.eqb_eq, Er|right; exact H]. }
    destruct i as [q|q n|e q n d|t q n d].
    - injection E1 as <-. left. exact H.
    - destruct o; [|discriminate|discriminate]. injection E1 as <-. left. exact H.
    - destruct (R _ _ _ _ _ E1) as [->|Hh]; [right; right; exists id, q, n, d; left; reflexivity|left; exact Hh].
    - destruct (R _ _ _ _ _ E1) as [->|Hh]; [right; left; exists id, t, q, n, d; split; [left; reflexivity|reflexivity]|left; exact Hh]. }
  intros s E x Hx. destruct (H _ _ _ E x Hx) as [X|X]; [destruct (X eq_refl)|exact X].
Qed.

Lemma fold_opt_app {A B} (f : A -> B -> option A) l1 : forall l2 a, fold_opt f (l1 ++ l2) a = match fold_opt f l1 a with Some a' => fold_opt f l2 a' | None => None end.
Proof. induction l1 as [|x l1 IH]; intros l2 a; cbn [app fold_opt]; [reflexivity|]. destruct (f a x); [apply IH|reflexivity]. Qed.

Theorem hierarchy_created default_holder s : import default_holder intros = Some s -> unambiguous (w_hierarchy w) (introduced_class intros) -> distinct_bases (w_hierarchy w) ->
  exists ms, creates [] intros ms /\
    forall id t p m d, In (id, NClass t p m d) intros -> exists ls, Forall2 (fun x l => In (x, l) ms) (ct_bases t) ls /\ In (ct_record t, ct_record t :: concat ls) ms.
Proof.
  intros I Un Di. destruct written_classes as (g & H1 & H2 & H3 & H4 & H5). assert (L := se_language _ _ _ Se).
  (* classes of the graph are introduced *)
  set (e := fun i => introduced_class intros i).
  assert (Lk : forall inl hid ds l, listing (w_hierarchy w) inl hid (fun i => In i (g_nodes g)) ds l -> (exists c, incl ds (h_direct (w_hierarchy w) c)) -> listing (w_hierarchy w) inl hid e ds l).
  { intros inl hid ds l. induction 1 as [|x l r H L1 IH|x l r Q1 Q2 Q3 Q4 L1 IH|x l r1 r2 Q1 Q2 Q3 L1 IH1 L2 IH2]; intros (c & Hc).
    - constructor.
    - apply listing_skip; [|apply IH; exists c; intros y Hy; apply Hc; right; exact Hy]. destruct H as [H|[H|[Hx Hy]]]; [auto|auto|]. right. right. split; [exact Hx|]. intro He. apply Hy, H1, He.
    - apply listing_take; [exact Q1|exact Q2|exact Q3| |apply IH; exists c; intros y Hy; apply Hc; right; exact Hy].
      apply H2; [exact Q4|]. apply (la_bases _ _ L c), Hc. left. reflexivity.
    - apply listing_inlined; [exact Q1|exact Q2|exact Q3|apply IH1; exists (sp_base x); apply incl_refl|apply IH2; exists c; intros y Hy; apply Hc; right; exact Hy]. }
  assert (Bk : forall id t p m d, In (id, NClass t p m d) intros -> bases_of u (bs_annotations b) (w_hierarchy w) e t).
  { intros id t p m d H. destruct (H4 _ _ _ _ _ H) as [(pol & P1 & P2 & P3) _]. exists pol. split; [exact P1|]. split; [|apply Lk; [exact P3|exists (ct_record t); apply incl_refl]].
    intro x. rewrite P2. split.
    - clear -H2 L. induction 1 as [r s K1 K2 K3 K4 K5|r s y K1 K2 K3 K4 K5 IH]; [apply lists_direct; auto|eapply lists_inlined; eauto]. apply H2; [exact K5|exact (la_bases _ _ L _ _ K1)].
    - apply lists_mono. exact H1. }
  refine (creates_succeeds u (bs_annotations b) (w_hierarchy w) e intros (la_acyclic _ _ L) Bk Un Di (fun x H => H) _ intros [] [] eq_refl (creates_none [])).
  intros l1 id t p m d l2 E x Hx. rewrite E in I. unfold import in I. rewrite fold_opt_app in I. destruct (fold_opt (execute default_holder) l1 _) as [s1|] eqn:E1; [|discriminate I].
  cbn [fold_opt] in I. destruct (execute default_holder s1 (id, NClass t p m d)) as [s2|] eqn:E2; [|discriminate I].
  unfold execute in E2. cbn [fst snd] in E2. destruct (value s1 id); [discriminate|]. destruct (value s1 (intro_parent _)) as [o|]; [|discriminate]. unfold register in E2.
  destruct (attribute s1 o m); [discriminate|]. destruct (holding s1 (ct_record t)); [discriminate|]. destruct (forallb _ (ct_bases t)) eqn:Ef; [|discriminate].
  rewrite forallb_forall in Ef. specialize (Ef x Hx). destruct (registered_introduced default_holder l1 s1 E1 x) as [R|(id' & q & m' & d' & R)].
  - destruct (holding s1 x); [discriminate|discriminate Ef].
  - exact R.
  - assert (Hin' : In (id, NClass t p m d) intros) by (rewrite E; apply in_elt). destruct (H4 _ _ _ _ _ Hin') as [(pol & _ & P2 & _) _]. apply P2 in Hx.
    destruct (listed_base_is_class u _ _ _ _ _ _ Hx (la_bases _ _ L)) as [_ Kx]. assert (Ke : kind u x = KEnum) by (apply (H5 id' x q m' d'); rewrite E; apply in_app_iff; left; exact R). congruence.
Qed.
End Generated.
