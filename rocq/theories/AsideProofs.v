(** * Proofs about what hiding a single declaration changes in Python *)
From Verif Require Import Base ParserModel AnnotModel AnnotSpec CollectModel GraphModel GraphSpec OrderModel InlineModel EmitModel EmitSpec ModuleModel ModuleSpec LocalSpec LocalProofs HideSpec HideProofs ImportSpec ExecSpec ExecProofs AsideSpec.

Section Aside.
Context (i : nat) (names : str -> Prop) (mro : nat -> list nat) (manual : nat -> object -> pystate -> option pystate) (fails : stmt -> bool).
Hypothesis Hm : indifferent i names manual.

Lemma setattr_inv p o n m q : setattr mro p o n m = Some q -> q = mkPy ((o, n, m) :: p_members p) (p_entries p).
Proof. unfold setattr. destruct (_ && _); [discriminate|]. intros [= <-]. reflexivity. Qed.

Definition appended (old : option member) (static : bool) (s : stmt) : member :=
  match old with Some (MFunction _ l) => MFunction static (l ++ [s]) | _ => MFunction static [s] end.

Lemma define_inv p o n static s q : define_function mro p o n static s = Some q -> q = mkPy ((o, n, appended (own p o n) static s) :: p_members p) (p_entries p).
Proof.
  unfold define_function, appended. destruct (own p o n) as [[v|st l|v]|].
  2:{ destruct (Bool.eqb st static); [apply setattr_inv|discriminate]. }
  all: destruct (getattr mro p o n) as [[v'|st' l'|v']|]; try apply setattr_inv; destruct (private n); try discriminate; apply setattr_inv.
Qed.

Lemma own_members p ms es o n : own (mkPy ms es) o n = own (mkPy ms (p_entries p)) o n.
Proof. reflexivity. Qed.

Lemma alike_set p p' o n m m' : alike i names p p' -> (~ names n -> m' = m) ->
  alike i names (mkPy ((o, n, m) :: p_members p) (p_entries p)) (mkPy ((o, n, m') :: p_members p') (p_entries p')).
Proof.
  intros (H1 & H2 & H3) E. split; [|split; assumption]. intros o' n' N. rewrite !own_cons. destruct (same_object o o' && str_eqb n n') eqn:K; [|exact (H1 o' n' N)].
  apply place_eq in K. destruct K as [_ ->]. rewrite (E N). reflexivity.
Qed.

Lemma alike_only p p' o n m : alike i names p p' -> names n -> alike i names (mkPy ((o, n, m) :: p_members p) (p_entries p)) p'.
Proof.
  intros (H1 & H2 & H3) E. split; [|split; assumption]. intros o' n' N. rewrite own_cons. destruct (same_object o o' && str_eqb n n') eqn:K; [|exact (H1 o' n' N)].
  apply place_eq in K. destruct K as [_ ->]. destruct (N E).
Qed.

Lemma alike_entries p p' e : alike i names p p' -> entries p' e = filter (fun v => negb (binds i (snd v))) (entries p e) /\ forall v, In v (entries p e) -> binds i (snd v) = true -> names (fst v).
Proof.
  intros (_ & H2 & H3). unfold entries. split.
  - rewrite H2. clear. induction (p_entries p) as [|[k v] l IH]; [reflexivity|]. cbn [filter snd fst]. destruct (binds i (snd v)) eqn:B; destruct (Nat.eqb k e) eqn:K; cbn [negb filter map fst snd]; rewrite ?K, ?B; cbn [negb map filter snd]; rewrite ?B; cbn [negb]; rewrite IH; reflexivity.
  - intros v Hv B. apply in_map_iff in Hv. destruct Hv as ([k w] & <- & Hw). apply filter_In in Hw. exact (H3 _ (proj1 Hw) B).
Qed.

Lemma alike_exports o : forall l p p' q q', alike i names p p' -> (forall v, In v l -> binds i (snd v) = true -> names (fst v)) ->
  fold_opt (fun p v => setattr mro p o (fst v) (MValue (snd v))) l p = Some q ->
  fold_opt (fun p v => setattr mro p o (fst v) (MValue (snd v))) (filter (fun v => negb (binds i (snd v))) l) p' = Some q' -> alike i names q q'.
Proof.
  induction l as [|v l IH]; intros p p' q q' H Hl E E'; cbn [fold_opt filter] in E, E'.
  - injection E as <-. injection E' as <-. exact H.
  - destruct (setattr mro p o (fst v) (MValue (snd v))) as [p1|] eqn:S1; [|discriminate E]. apply setattr_inv in S1. subst p1.
    assert (Hl' : forall w, In w l -> binds i (snd w) = true -> names (fst w)) by (intros w Hw; apply Hl; right; exact Hw).
    destruct (binds i (snd v)) eqn:B; cbn [negb] in E'.
    + exact (IH _ _ _ _ (alike_only _ _ _ _ _ H (Hl v (or_introl eq_refl) B)) Hl' E E').
    + cbn [fold_opt] in E'. destruct (setattr mro p' o (fst v) (MValue (snd v))) as [p2|] eqn:S2; [|discriminate E']. apply setattr_inv in S2. subst p2.
      exact (IH _ _ _ _ (alike_set _ _ _ _ _ _ H (fun _ => eq_refl)) Hl' E E').
Qed.

Lemma alike_other types o scope s p p' q q' : binds i s = false -> alike i names p p' ->
  statement mro manual fails types o scope p s = Some q -> statement mro manual fails types o scope p' s = Some q' -> alike i names q q'.
Proof.
  intros B H. unfold statement. destruct (fails s); [discriminate|].
  assert (A : forall n m, setattr mro p o n m = Some q -> setattr mro p' o n m = Some q' -> alike i names q q').
  { intros n m E E'. apply setattr_inv in E. apply setattr_inv in E'. subst. exact (alike_set _ _ _ _ _ _ H (fun _ => eq_refl)). }
  assert (D : forall n static t, define_function mro p o n static t = Some q -> define_function mro p' o n static t = Some q' -> alike i names q q').
  { intros n static t E E'. apply define_inv in E. apply define_inv in E'. subst. apply alike_set; [exact H|]. intros N. rewrite (proj1 H o n N). reflexivity. }
  destruct s; try (apply A); try (apply D).
  - intros E E'. exact (Hm _ _ _ _ _ _ H E E').
  - destruct (existsb _ types); [|discriminate]. intros [= <-] [= <-]. exact H.
  - destruct o as [m|c|e]; try discriminate. destruct (alike_entries _ _ e H) as [_ _].
    match goal with |- context [setattr mro p ?o ?n ?m] => destruct (existsb _ (entries p e)); [discriminate|]; destruct (existsb _ (entries p' e)); [discriminate|];
      destruct (setattr mro p o n m) as [p1|] eqn:S1; [|discriminate]; destruct (setattr mro p' o n m) as [p2|] eqn:S2; [|discriminate] end.
    cbn [option_map]. intros [= <-] [= <-]. apply setattr_inv in S1. apply setattr_inv in S2. subst p1 p2. cbn [p_members p_entries].
    match goal with |- alike i names (mkPy (?x :: _) _) _ => destruct x as [[o1 n1] m1] eqn:X end. injection X as <- <- <-.
    destruct H as (H1 & H2 & H3). split; [|split]; cbn [p_entries].
    + intros o' n' N. rewrite !own_cons. destruct (_ && _); [reflexivity|exact (H1 o' n' N)].
    + rewrite filter_app, H2. cbn [filter snd]. rewrite B. reflexivity.
    + intros v Hv Bv. apply in_app_iff in Hv. destruct Hv as [Hv|[<-|[]]]; [exact (H3 v Hv Bv)|]. cbn [snd] in Bv. rewrite B in Bv. discriminate Bv.
  - destruct o as [m|c|e]; try discriminate. destruct scope as [k|]; [|discriminate]. destruct (alike_entries _ _ e H) as [E1 E2]. rewrite E1. exact (alike_exports k _ _ _ _ _ H E2).
  - intros [= <-] [= <-]. exact H.
Qed.

Lemma alike_own types o scope s p p' q : binds i s = true -> (forall n, gives s n -> names n) -> alike i names p p' ->
  statement mro manual fails types o scope p s = Some q -> alike i names q p'.
Proof.
  intros B G H. unfold statement. destruct (fails s); [discriminate|].
  assert (A : forall n m, gives s n -> setattr mro p o n m = Some q -> alike i names q p').
  { intros n m Hn E. apply setattr_inv in E. subst. exact (alike_only _ _ _ _ _ H (G n Hn)). }
  assert (D : forall n static t, gives s n -> define_function mro p o n static t = Some q -> alike i names q p').
  { intros n static t Hn E. apply define_inv in E. subst. exact (alike_only _ _ _ _ _ H (G n Hn)). }
  destruct s; try discriminate B; try (apply A; left; reflexivity); try (apply D; left; reflexivity).
  destruct o as [m|c|e]; try discriminate. destruct (existsb _ (entries p e)); [discriminate|].
  match goal with |- context [setattr mro p ?o ?n ?m] => destruct (setattr mro p o n m) as [p1|] eqn:S1; [|discriminate]; pose proof (G n (or_intror (Logic.ex_intro _ _ eq_refl))) as N0 end.
  cbn [option_map]. intros [= <-]. apply setattr_inv in S1. subst p1. cbn [p_members p_entries]. destruct H as (H1 & H2 & H3). split; [|split]; cbn [p_entries].
  - intros o' n' N. rewrite own_cons. destruct (_ && _) eqn:K; [|exact (H1 o' n' N)]. apply place_eq in K. destruct K as [_ <-]. destruct (N N0).
  - rewrite filter_app, H2. cbn [filter snd]. rewrite B. cbn [negb]. rewrite app_nil_r. reflexivity.
  - intros v Hv Bv. apply in_app_iff in Hv. destruct Hv as [Hv|[<-|[]]]; [exact (H3 v Hv Bv)|exact N0].
Qed.

Lemma alike_body types o scope : forall body p p' q q', (forall s n, In s body -> binds i s = true -> gives s n -> names n) -> alike i names p p' ->
  fold_opt (statement mro manual fails types o scope) body p = Some q -> fold_opt (statement mro manual fails types o scope) (unbound i body) p' = Some q' -> alike i names q q'.
Proof.
  induction body as [|s body IH]; intros p p' q q' G H E E'; cbn [fold_opt unbound filter] in E, E'; [injection E as <-; injection E' as <-; exact H|].
  destruct (statement mro manual fails types o scope p s) as [p1|] eqn:S1; [|discriminate E].
  assert (G' : forall t n, In t body -> binds i t = true -> gives t n -> names n) by (intros t n Ht; apply G; right; exact Ht).
  destruct (binds i s) eqn:B; cbn [negb] in E'.
  - exact (IH _ _ _ _ G' (alike_own _ _ _ _ _ _ _ B (fun n => G s n (or_introl eq_refl) B) H S1) E E').
  - cbn [fold_opt] in E'. destruct (statement mro manual fails types o scope p' s) as [p2|] eqn:S2; [|discriminate E']. exact (IH _ _ _ _ G' (alike_other _ _ _ _ _ _ _ _ B H S1 S2) E E').
Qed.

Lemma body_named_unbound files id : body_named (map (map (unbound_item i)) files) id = option_map (unbound i) (body_named files id).
Proof.
  unfold body_named. rewrite <- concat_map. induction (concat files) as [|x l IH]; [reflexivity|]. cbn [map first_some].
  destruct x; cbn [unbound_item]; try exact IH. destruct (str_eqb _ id); [reflexivity|exact IH].
Qed.

Lemma body_named_in files id body : body_named files id = Some body -> exists n p, In (IDefine n p body) (concat files).
Proof. intros H. apply first_some_in in H. destruct H as (x & Hx & E). destruct x; try discriminate E. destruct (str_eqb _ id); [|discriminate E]. injection E as ->. eauto. Qed.

Lemma alike_calls files intros s : (forall n, name_of i files n -> names n) -> forall calls p p' q q', alike i names p p' ->
  fold_opt (call mro manual fails files intros s) calls p = Some q -> fold_opt (call mro manual fails (map (map (unbound_item i)) files) intros s) calls p' = Some q' -> alike i names q q'.
Proof.
  intros G. induction calls as [|c calls IH]; intros p p' q q' H E E'; cbn [fold_opt] in E, E'; [injection E as <-; injection E' as <-; exact H|].
  destruct (call mro manual fails files intros s p c) as [p1|] eqn:C1; [|discriminate E]. destruct (call mro manual fails (map (map (unbound_item i)) files) intros s p' c) as [p2|] eqn:C2; [|discriminate E'].
  refine (IH _ _ _ _ _ E E'). unfold call in C1, C2. destruct (value s (snd c)) as [o|]; [|discriminate C1]. rewrite body_named_unbound in C2.
  destruct (body_named files (fst c)) as [body|] eqn:Bn; [|discriminate C1]. cbn [option_map] in C2. destruct (body_named_in _ _ _ Bn) as (id & x & Hin).
  refine (alike_body _ _ _ body _ _ _ _ _ H C1 C2). intros t n Ht Bt Gt. apply G. exists id, x, body, t. auto.
Qed.

Lemma alike_posts : forall posts p p' q q', alike i names p p' -> fold_opt (fun p l => manual l (Mod []) p) posts p = Some q -> fold_opt (fun p l => manual l (Mod []) p) posts p' = Some q' -> alike i names q q'.
Proof.
  induction posts as [|l posts IH]; intros p p' q q' H E E'; cbn [fold_opt] in E, E'; [injection E as <-; injection E' as <-; exact H|].
  destruct (manual l (Mod []) p) as [p1|] eqn:C1; [|discriminate E]. destruct (manual l (Mod []) p') as [p2|] eqn:C2; [|discriminate E']. exact (IH _ _ _ _ (Hm _ _ _ _ _ _ H C1 C2) E E').
Qed.

Lemma alike_module default_holder files m s p s' p' : (forall n, name_of i files n -> names n) ->
  run_module mro manual fails default_holder files m = Some (s, p) -> run_module mro manual fails default_holder (map (map (unbound_item i)) files) m = Some (s', p') -> s' = s /\ alike i names p p'.
Proof.
  intros G. unfold run_module. destruct m as [|nm intros calls post|]; [discriminate| |discriminate].
  destruct (import default_holder intros) as [s0|]; [|discriminate].
  destruct (fold_opt (call mro manual fails files intros s0) calls (initial s0)) as [q|] eqn:C1; [|discriminate]. destruct (fold_opt (call mro manual fails (map (map (unbound_item i)) files) intros s0) calls (initial s0)) as [q'|] eqn:C2; [|intros _; discriminate].
  destruct (fold_opt _ post q) as [r|] eqn:P1; [|discriminate]. destruct (fold_opt _ post q') as [r'|] eqn:P2; [|intros _; discriminate]. cbn [option_map]. intros [= <- <-] [= <- <-]. split; [reflexivity|].
  refine (alike_posts _ _ _ _ _ _ P1 P2). refine (alike_calls files intros s0 G calls _ _ _ _ _ C1 C2). split; [reflexivity|]. split; [reflexivity|intros v []].
Qed.
End Aside.

Lemma aside u i texts a a' w found implicit iteration n name b files rs st b' files' rs' st' default_holder mro manual fails m s p s' p' :
  placed u -> leaf u i -> i <> u_root u -> valid_with u i a -> valid_with (reannotated u i texts) i a' -> hidden a a' -> bound_by_itself a ->
  has_annotations (u_decls (reannotated u i texts) i) true = has_annotations (u_decls u i) true -> accompanied u found implicit i ->
  generate u w found implicit iteration n name = Some (RGraph b (EWritten files rs st)) ->
  generate (reannotated u i texts) w found implicit iteration n name = Some (RGraph b' (EWritten files' rs' st')) ->
  indifferent i (name_of i files) manual ->
  run_module mro manual fails default_holder files m = Some (s, p) -> run_module mro manual fails default_holder files' m = Some (s', p') ->
  s' = s /\ alike i (name_of i files) p p'.
Proof.
  intros P L N V V' H M Ha Hac G G' I R R'.
  destruct (generate_sim u i texts L N P a a' V V' H M Ha w found implicit iteration n name Hac _ G) as (r' & E & S). rewrite G' in E. injection E as <-. destruct S as (-> & _).
  exact (alike_module i (name_of i files) mro manual fails I default_holder files m s p s' p' (fun k K => K) R R').
Qed.
