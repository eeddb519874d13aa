(** * Proofs about Python expressions with operators *)
From Verif Require Import Base ParserModel AnnotModel AnnotSpec AnnotProofs AnnotStore AnnotFinal CollectModel CollectSpec GraphModel GraphSpec GraphFinal OrderModel InlineModel EmitModel EmitSpec EmitProofs EmitFold EmitFinal
  ModuleModel ModuleSpec ModuleProofs ModuleFinal ImportSpec ImportProofs ExecSpec ExecProofs AccessSpec AccessProofs InvalidSpec InvalidProofs FindProofs DispatchSpec DispatchProofs OperSpec.

(** ** Names of functions *)

Section Named.
Context (mro : nat -> list nat) (manual : nat -> object -> pystate -> option pystate) (fails : stmt -> bool).
Context (M : defines_nothing manual) (P : stmt -> Prop).

Definition named (p : pystate) : Prop := forall o n static l t, own p o n = Some (MFunction static l) -> In t l -> P t /\ defines t = Some n.

Lemma named_set p o n m p' : setattr mro p o n m = Some p' -> named p -> (forall static l t, m = MFunction static l -> In t l -> P t /\ defines t = Some n) -> named p'.
Proof.
  unfold setattr. destruct (_ && _); [discriminate|]. intros [= <-] H Hm o' n' static l t Ho Ht. rewrite own_cons in Ho.
  destruct (same_object o o' && str_eqb n n') eqn:E.
  - apply andb_true_iff in E as [_ E]. apply str_eqb_eq in E as <-. injection Ho as ->. exact (Hm _ _ _ eq_refl Ht).
  - destruct p. exact (H _ _ _ _ _ Ho Ht).
Qed.

Lemma named_function p o n static s p' : define_function mro p o n static s = Some p' -> named p -> P s -> defines s = Some n -> named p'.
Proof.
  intros D H Hs Hd. assert (One : forall q, setattr mro p o n (MFunction static [s]) = Some q -> named q).
  { intros q E. eapply named_set; [exact E|exact H|]. intros st l t [= <- <-] [<-|[]]. auto. }
  unfold define_function in D. destruct (own p o n) as [[v|f l|t]|] eqn:Eo.
  - destruct (getattr mro p o n) as [[| |]|]; try destruct (private n); try discriminate D; exact (One _ D).
  - destruct (Bool.eqb f static); [|discriminate D]. eapply named_set; [exact D|exact H|]. intros st l' t [= <- <-] Ht. apply in_app_iff in Ht as [Ht|[<-|[]]]; [|auto].
    eapply H; eassumption.
  - destruct (getattr mro p o n) as [[| |]|]; try destruct (private n); try discriminate D; exact (One _ D).
  - destruct (getattr mro p o n) as [[| |]|]; try destruct (private n); try discriminate D; exact (One _ D).
Qed.

Lemma named_exports q vs : forall p p', fold_opt (fun p v => setattr mro p q (fst v) (MValue (snd v))) vs p = Some p' -> named p -> named p'.
Proof.
  induction vs as [|v vs IH]; cbn [fold_opt]; intros p p' E H; [injection E as <-; exact H|].
  destruct (setattr mro p q (fst v) (MValue (snd v))) as [p1|] eqn:E1; [|discriminate E]. eapply IH; [exact E|].
  eapply named_set; [exact E1|exact H|]. discriminate.
Qed.

Lemma named_statement types o scope p s p' : statement mro manual fails types o scope p s = Some p' -> named p -> P s -> named p'.
Proof.
  unfold statement. destruct (fails s); [discriminate|]. intros E H Hs. destruct s;
    try (eapply named_set; [exact E|exact H|discriminate]);
    try (eapply named_function; [exact E|exact H|exact Hs|reflexivity]).
  - intros o' n' static l t Ho Ht. apply (M _ _ _ _ E) in Ho. eapply H; eassumption.
  - destruct (existsb _ _); [|discriminate E]. injection E as <-. exact H.
  - destruct o as [|c|e]; try discriminate E. destruct (existsb _ _); [discriminate E|].
    destruct (setattr mro p (Enum e) spelling (MValue (SValue spelling i))) as [q|] eqn:Eq; [|discriminate E]. injection E as <-.
    assert (Hq : named q) by (eapply named_set; [exact Eq|exact H|discriminate]). intros o' n' static l t Ho Ht. eapply Hq; eassumption.
  - destruct o as [|c|e]; try discriminate E. destruct scope as [q|]; [|discriminate E]. eapply named_exports; [exact E|exact H].
  - injection E as <-. exact H.
Qed.

Lemma named_body types o scope body : forall p p', fold_opt (statement mro manual fails types o scope) body p = Some p' -> named p -> (forall s, In s body -> P s) -> named p'.
Proof.
  induction body as [|s body IH]; cbn [fold_opt]; intros p p' E H Hb; [injection E as <-; exact H|].
  destruct (statement mro manual fails types o scope p s) as [p1|] eqn:E1; [|discriminate E]. eapply IH; [exact E| |intros x Hx; apply Hb; now right].
  eapply named_statement; [exact E1|exact H|]. apply Hb. now left.
Qed.

Context (files : list (list item)).
Hypothesis F : forall id q body s, In (IDefine id q body) (concat files) -> In s body -> P s.

Lemma named_call intros s p c p' : call mro manual fails files intros s p c = Some p' -> named p -> named p'.
Proof.
  unfold call. destruct (value s (snd c)) as [o|]; [|discriminate]. destruct (body_named files (fst c)) as [body|] eqn:Eb; [|discriminate]. intros E H.
  apply first_some_in in Eb as (i & Hi & Ei). destruct i as [| |id q body']; try discriminate Ei. destruct (str_eqb id (fst c)); [|discriminate Ei]. injection Ei as ->.
  eapply named_body; [exact E|exact H|]. intros t Ht. exact (F _ _ _ _ Hi Ht).
Qed.

Lemma named_calls intros s cs : forall p p', fold_opt (call mro manual fails files intros s) cs p = Some p' -> named p -> named p'.
Proof.
  induction cs as [|c cs IH]; cbn [fold_opt]; intros p p' E H; [injection E as <-; exact H|].
  destruct (call mro manual fails files intros s p c) as [p1|] eqn:E1; [|discriminate E]. eapply IH; [exact E|]. eapply named_call; eassumption.
Qed.

Lemma named_manual o post : forall p p', fold_opt (fun p l => manual l o p) post p = Some p' -> named p -> named p'.
Proof.
  induction post as [|l post IH]; cbn [fold_opt]; intros p p' E H; [injection E as <-; exact H|].
  destruct (manual l o p) as [p1|] eqn:E1; [|discriminate E]. eapply IH; [exact E|]. intros o' n' static l' t Ho Ht. apply (M _ _ _ _ E1) in Ho. eapply H; eassumption.
Qed.

Lemma named_initial s : named (initial s).
Proof.
  intros o n static l t Ho Ht. unfold own, initial in Ho. cbn [p_members] in Ho.
  destruct (find _ _) as [x|] eqn:Ef; [|discriminate Ho]. injection Ho as E. apply find_some in Ef as [Hx _]. apply in_map_iff in Hx as (y & <- & _). discriminate E.
Qed.

Lemma named_module default_holder m s p : run_module mro manual fails default_holder files m = Some (s, p) -> named p.
Proof.
  unfold run_module. destruct m as [|name intros calls post|]; try discriminate. destruct (import default_holder intros) as [s0|]; [|discriminate].
  destruct (fold_opt (call mro manual fails files intros s0) calls (initial s0)) as [p0|] eqn:E0; [|discriminate].
  destruct (fold_opt (fun p l => manual l (Mod []) p) post p0) as [p1|] eqn:E1; [|discriminate]. intros [= <- <-].
  eapply named_manual; [exact E1|]. eapply named_calls; [exact E0|]. apply named_initial.
Qed.
End Named.

(** ** Special methods *)

Lemma method_for_sound form n : method_for form = Some n -> In form (forms_of n).
Proof. destruct form as [k|k []], k; vm_compute; intros E; first [discriminate E|injection E as <-; vm_compute; auto]. Qed.

Lemma opkind_eqb_refl k : opkind_eqb k k = true.
Proof. destruct k; reflexivity. Qed.

Lemma unary_method k n : method_for (Unary k) = Some n -> n = unary_name k /\ never_emitted k = false /\ k <> OStar /\ k <> OAmp.
Proof. destruct k; vm_compute; intros E; first [discriminate E|injection E as <-; repeat split; discriminate]. Qed.
Lemma binary_method k left n : method_for (Binary k left) = Some n -> n = binary_name k (negb left) /\ never_emitted k = false.
Proof. destruct k, left; vm_compute; intros E; first [discriminate E|injection E as <-; split; reflexivity]. Qed.

(** ** Calls *)

Section Calls.
Context {V : Type} (is_none : V -> bool) (default : nat -> nat -> V) (pass : type -> bool -> V -> bool) (rest : stmt -> nat -> bool -> V -> bool) (x : extra).
Notation accepts := (by_type pass rest).

Lemma try_same o convert pos kw s t bi : try is_none default accepts x o convert pos kw s = Some (t, bi) -> t = s.
Proof. unfold try. destruct (bind_for _ _ _ _ _ _ _); [|discriminate]. destruct (loads _ _ _ _ _ _); [|discriminate]. intros [= <- _]. reflexivity. Qed.

Lemma dispatch_tried o l pos kw t bi : dispatch is_none default accepts x o l pos kw = Some (t, bi) -> In t l /\ exists convert, try is_none default accepts x o convert pos kw t = Some (t, bi).
Proof.
  assert (H : forall convert (q : stmt -> bool) l, first_some (fun s => if q s then try is_none default accepts x o convert pos kw s else None) l = Some (t, bi) ->
    In t l /\ exists convert, try is_none default accepts x o convert pos kw t = Some (t, bi)).
  { intros convert q l' F. apply first_some_iff in F as (before & s & after & -> & E & _). destruct (q s); [|discriminate E]. assert (t = s) as -> by (eapply try_same, E).
    split; [apply in_elt|eauto]. }
  assert (H' : forall convert l, first_some (try is_none default accepts x o convert pos kw) l = Some (t, bi) ->
    In t l /\ exists convert, try is_none default accepts x o convert pos kw t = Some (t, bi)).
  { intros convert l' F. exact (H convert (fun _ => true) l' F). }
  unfold dispatch. destruct l as [|s1 [|s2 l]].
  - discriminate.
  - intros E. assert (t = s1) as -> by (eapply try_same, E). split; [now left|eauto].
  - destruct (first_some (try is_none default accepts x o false pos kw) (s1 :: s2 :: l)) as [[t' b']|] eqn:F; [intros [= -> ->]; exact (H' _ _ F)|apply H].
Qed.

Lemma dispatch_some o l pos kw t r : In t l -> convertible default o t = true \/ l = [t] -> try is_none default accepts x o true pos kw t = Some r -> dispatch is_none default accepts x o l pos kw <> None.
Proof.
  intros Ht Hc E. destruct l as [|s1 [|s2 l]]; [destruct Ht| |].
  - destruct Ht as [->|[]]. cbn. rewrite E. discriminate.
  - destruct Hc as [Hc|Hc]; [|discriminate Hc]. unfold dispatch. destruct (first_some (try is_none default accepts x o false pos kw) (s1 :: s2 :: l)); [discriminate|].
    intros F. rewrite first_some_none in F. specialize (F t Ht). cbn in F. rewrite Hc, E in F. discriminate F.
Qed.

(** Binary and unary operators. *)
Lemma try_binary o convert n i l ta tb a c : la_types l = [ta; tb] ->
  try is_none default accepts x o convert [a; c] [] (SOperator n i l) = if pass ta convert a && pass tb convert c then Some (SOperator n i l, mkBinding [a; c] [] []) else None.
Proof.
  intros E. unfold try, bind_for, bind, formals, collects. cbn [function_of]. rewrite E. cbn. unfold refused. cbn. rewrite !andb_false_r. cbn. rewrite E. cbn.
  rewrite !andb_true_r. reflexivity.
Qed.
Lemma try_unary o convert n i l ta a : la_types l = [ta] ->
  try is_none default accepts x o convert [a] [] (SOperator n i l) = if pass ta convert a then Some (SOperator n i l, mkBinding [a] [] []) else None.
Proof.
  intros E. unfold try, bind_for, bind, formals, collects. cbn [function_of]. rewrite E. cbn. unfold refused. cbn. rewrite !andb_false_r. cbn. rewrite E. cbn.
  rewrite !andb_true_r. reflexivity.
Qed.
Lemma dispatch_direct_some o l pos kw t r : In t l -> (forall c, try is_none default accepts x o c pos kw t = Some r) -> dispatch is_none default accepts x o l pos kw <> None.
Proof.
  intros Ht E. destruct l as [|s1 [|s2 l]]; [destruct Ht| |].
  - destruct Ht as [->|[]]. cbn. rewrite E. discriminate.
  - unfold dispatch. destruct (first_some (try is_none default accepts x o false pos kw) (s1 :: s2 :: l)) eqn:F; [discriminate|].
    rewrite first_some_none in F. specialize (E false). rewrite (F t Ht) in E. discriminate E.
Qed.
(** Other numbers of arguments. *)
Lemma try_length o convert n i l pos : length pos <> length (la_types l) -> try is_none default accepts x o convert pos [] (SOperator n i l) = None.
Proof.
  intros H. unfold try, bind_for, bind. cbn [formals collects function_of negb andb]. rewrite map_length. destruct (Nat.ltb (length (la_types l)) (length pos)) eqn:E; [reflexivity|].
  apply Nat.ltb_ge in E. destruct (positional is_none [] (map (fun _ => plain) (la_types l)) pos); [|reflexivity].
  assert (R : remaining is_none [] (skipn (length pos) (map (fun _ : type => @plain V) (la_types l))) = None); [|rewrite R; reflexivity].
  assert (E' : length pos < length (la_types l)) by lia. clear - E'. revert pos E'. induction (la_types l) as [|t ts IH]; intros pos E'; [cbn in E'; lia|].
  destruct pos as [|v pos]; [reflexivity|]. cbn. apply IH. cbn in E'. lia.
Qed.
End Calls.

(** ** Operators of classes *)

Section Module.
Context (u : unit) (w : facts) (found : nat -> list nat) (implicit : nat -> bool) (iteration : list nat -> list nat) (name : str) (b : bstate) (g : graph) (vis : dmap bool).
Context (rs : list ereport) (st' : storage) (order : list nat) (all : list entry) (post : list nat).
Hypothesis (Se : setting u w iteration) (X : exposed u found implicit name g vis b) (G : generated u w g vis (bs_annotations b) name rs st' order all post).
Notation operator_of := (operator_of u w b name).
Notation x := (w_extra w).

Lemma operator_not_tag i : supports_operator (u_decls u i) = true -> is_tag_kind (kind u i) = false.
Proof. unfold supports_operator, kind. destruct (d_kind (u_decls u i)); try discriminate; reflexivity. Qed.

(** What is emitted stems from a visible operator. *)
Lemma entry_operator e n i l : In e all -> In (SOperator n i l) (ex_body e) -> consistent u x i ->
  exists k types, operator_of (ex_context e) i k types /\ la_operator l = k /\
    ((exists t, types = [t] /\ n = unary_name k /\ la_types l = [t] /\ la_operands l = [Lhs]) \/
     (exists t1 t2, types = [t1; t2] /\ n = binary_name k false /\ la_types l = [t1; t2] /\ la_operands l = [Lhs; Rhs]) \/
     (exists t1 t2, types = [t1; t2] /\ n = binary_name k true /\ la_types l = [t2; t1] /\ la_operands l = [Rhs; Lhs])).
Proof.
  intros He Hin Co. destruct (ge_bodies _ _ _ _ _ _ _ _ _ _ _ G) as (rss & Fb & _).
  destruct (forall2_in_l _ _ _ _ Fb He) as (r & _ & x0 & st1 & st2 & Hc & D & X1 & X2 & Ff).
  destruct (exposed_graph _ _ _ _ _ Se _ _ _ _ X) as (_ & _ & _ & Fa & _).
  assert (Hnode : In (ex_context e) (g_nodes g)) by (eapply entry_context_node; eassumption).
  apply (in_parts _ _ _ _ _ _ _ _ _ D (SOperator n i l) eq_refl) in Hin as (j & Hj & a & Ha & Sh & Hb).
  assert (i = j) as <- by (eapply bound_mentions; [exact Hb|reflexivity]).
  assert (Hx : exists q0, x0 = XRecord (ex_context e) q0 /\ kind u (ex_context e) = KRecord).
  { unfold create in Hc. destruct (kind u (ex_context e)) eqn:K; try discriminate Hc;
      try (injection Hc as <-; exfalso; cbn in Hb; inversion Hb; subst; match goal with H : bound_function _ _ _ _ _ |- _ => inversion H | H : bound_alias _ _ _ _ _ |- _ => inversion H end).
    destruct (create_policy u (bs_annotations b) (w_hierarchy w) (ex_context e)); [|discriminate Hc]. injection Hc as <-. eauto. }
  destruct Hx as (q0 & -> & K). cbn in Hb. destruct (operator_shape _ _ _ _ _ _ _ Hb Co) as (k & types & Hk & Hops & _ & Hd & Hl & _ & Hcases).
  exists k, types. assert (Hs : supports_operator (u_decls u i) = true /\ ~ (k = OLessLess /\ kind u i = KFunction OtherOperator /\ fi_pointee (x_fn x i) = Named true)).
  { inversion Hb as [? ? H|? H| | | | | |k' types' n' l' Hk' Hd' Hsup Hos Hne Hops' Hun Hl' Hn' En]; subst.
    - destruct (not_operator_def _ _ _ _ _ _ _ H).
    - destruct (not_operator_alias _ _ _ _ _ _ _ H).
    - cbn [la_operator] in *. auto. }
  destruct Hs as [Hs Hp]. assert (Hki := operator_not_tag i Hs).
  assert (Hoa : own_attributes u i a) by exact (define_faithful _ _ _ _ _ _ _ _ _ D (Ff Fa) i a Hki Ha).
  assert (Sy := own_says _ _ _ Hoa).
  split; [|split; [exact Hl|]].
  - constructor; try assumption.
    + exists (XRecord (ex_context e) q0). auto.
    + destruct Sh as [W|[W Dv]]; rewrite W in Sy; [left; exact Sy|right]. split; [exact Sy|]. eapply lookup_visible; eassumption.
  - destruct Hcases as [(t & H1 & _ & _ & H2 & H3 & H4)|[(t1 & t2 & H1 & _ & H2 & H3 & H4)|(t1 & t2 & H1 & _ & H2 & H3 & H4)]].
    + left. exists t. auto.
    + right. left. exists t1, t2. auto.
    + right. right. exists t1, t2. auto.
Qed.

(** Visible operators are emitted. *)
Lemma operator_entry e i k types : In e all -> operator_of (ex_context e) i k types -> never_emitted k = false -> ~ (length types = 1 /\ (k = OStar \/ k = OAmp)) ->
  In (SOperator (match types with lhs :: _ :: _ => binary_name k (negb (core_eqb (ty_core lhs) (CRecord (ex_context e)))) | _ => unary_name k end) i
       (mkLambda (match types with [lhs; rhs] => if core_eqb (ty_core lhs) (CRecord (ex_context e)) then [lhs; rhs] else [rhs; lhs] | _ => types end)
          (fi_result (x_fn x i)) k (match types with [lhs; rhs] => if core_eqb (ty_core lhs) (CRecord (ex_context e)) then [Lhs; Rhs] else [Rhs; Lhs] | _ => [Lhs] end)))
    (ex_body e).
Proof.
  intros He [K (x0 & C & Hi) Vi Sup Sy Cal Pr Ops] Hne Hun. destruct (ge_bodies _ _ _ _ _ _ _ _ _ _ _ G) as (rss & Fb & _).
  destruct (forall2_in_l _ _ _ _ Fb He) as (r & _ & B). destruct (exposed_graph _ _ _ _ _ Se _ _ _ _ X) as (_ & _ & _ & Fa & _).
  assert (Hnode : In (ex_context e) (g_nodes g)) by (eapply entry_context_node; eassumption).
  destruct B as (x' & st1 & st2 & C' & D & X1 & X2 & Ff). rewrite C in C'. injection C' as <-.
  destruct (define_spec _ _ _ _ _ _ _ _ _ D) as [_ H1 _ H3 _ _ _ _ _]. assert (Hki := operator_not_tag i Sup).
  assert (Hs : d_skip (u_decls u i) = false) by (destruct Vi as [[Hs _]|[[Hs _] _]]; exact Hs).
  assert (Hl : exists a, own_attributes u i a /\ lookup_attrs st2 i = Some a).
  { destruct (lookup_attrs st1 i) as [a|] eqn:El; [|apply H3; assumption]. exists a. split; [apply (Ff Fa i a Hki El)|apply H1, El]. }
  destruct Hl as (a & Ho & Hl). assert (Sh := visible_shown _ _ _ _ _ _ _ _ _ _ _ _ Se X Hnode Ho Vi).
  assert (Hx : exists q0, x0 = XRecord (ex_context e) q0).
  { unfold create in C. rewrite K in C. destruct (create_policy u (bs_annotations b) (w_hierarchy w) (ex_context e)); [|discriminate C]. injection C as <-. eauto. }
  destruct Hx as (q0 & ->). apply (in_parts _ _ _ _ _ _ _ _ _ D); [reflexivity|]. exists i. split; [exact Hi|]. exists a. split; [exact Hl|]. split; [exact Sh|]. cbn.
  eapply rec_operator; try eassumption; reflexivity.
Qed.
End Module.

(** ** Expressions *)

Lemma orelse_left {W} (r1 r2 : py_result W) : returns_value r1 -> returns_value (orelse r1 r2).
Proof. destruct r1; cbn; tauto. Qed.
Lemma orelse_right {W} (r1 r2 : py_result W) : r1 <> Raises -> returns_value r2 -> returns_value (orelse r1 r2).
Proof. destruct r1; cbn; tauto. Qed.

Lemma ordered_value {W} (comparison special same another : bool) (l r : py_result W) : l <> Raises -> r <> Raises ->
  returns_value l \/ (returns_value r /\ (comparison = true \/ same = false)) ->
  returns_value (if comparison then (if special then orelse r l else orelse l r) else if same then l else if special && another then orelse r l else orelse l r).
Proof.
  intros Hl Hr [H|[H [-> | ->]]].
  - destruct comparison, special, same, another; cbn [andb]; first [exact H|apply orelse_left, H|apply orelse_right; assumption].
  - destruct special; [apply orelse_left, H|apply orelse_right; assumption].
  - destruct comparison, special, another; cbn [andb]; first [apply orelse_left, H|apply orelse_right; assumption].
Qed.

Section Expressions.
Context (default_holder : str -> bool) (mro : nat -> list nat) (manual : nat -> object -> pystate -> option pystate) (fails : stmt -> bool).
Context (u : unit) (w : facts) (found : nat -> list nat) (implicit : nat -> bool) (iteration : list nat -> list nat) (n : nat) (name : str) (b : bstate).
Context (files : list (list item)) (rs : list ereport) (st' : storage) (m : item) (s : ImportSpec.state) (p : pystate).
Hypothesis (Se : setting u w iteration) (Hn : 0 < n) (HG : generate u w found implicit iteration n name = Some (RGraph b (EWritten files rs st'))).
Hypothesis (M : defines_nothing manual) (R : run_module mro manual fails default_holder files m = Some (s, p)).
Hypothesis (Co : forall i, supports_operator (u_decls u i) = true -> consistent u (w_extra w) i).
Context {V : Type} (is_none : V -> bool) (default : nat -> nat -> V) (pass : type -> bool -> V -> bool) (rest : stmt -> nat -> bool -> V -> bool).
Context (class_of : V -> option nat) (foreign : str -> V -> list V -> bool).
Notation attempt := (attempt is_none default (by_type pass rest) (w_extra w) mro p class_of foreign).
Notation evaluate := (evaluate is_none default (by_type pass rest) (w_extra w) mro p class_of foreign).
Notation evaluate_unary := (evaluate_unary is_none default (by_type pass rest) (w_extra w) mro p class_of foreign).

Lemma getattr_own r k v : getattr mro p (Class r) k = Some v -> exists c, own p (Class c) k = Some v.
Proof.
  unfold getattr, inherited. destruct (own p (Class r) k) as [v'|] eqn:E; [intros [= ->]; eauto|]. intros F. apply first_some_in in F as (c & _ & Hc). eauto.
Qed.

Lemma supports_operators e nn i l : In (SOperator nn i l) (ex_body e) -> (exists vis st2 r, body_of u w vis (bs_annotations b) st2 e r) -> supports_operator (u_decls u i) = true.
Proof.
  intros Hin (vis & st2 & r & x0 & st1 & st3 & _ & D & _ & _ & _). destruct (operator_bound _ _ _ _ _ _ _ _ _ D _ _ _ Hin) as (r' & q & a & _ & _ & _ & Hb).
  inversion Hb as [? ? H|? H| | | | | |k' types' n' l' Hk' Hd' Hsup Hos Hne Hops' Hun Hl' Hn' En]; subst; [destruct (not_operator_def _ _ _ _ _ _ _ H)|destruct (not_operator_alias _ _ _ _ _ _ _ H)|exact Hsup].
Qed.

Lemma attempt_sound form self others t bi : attempt form self others = Called t bi -> is_operator t = true ->
  exists r i k types nn l, operator_of u w b name r i k types /\ t = SOperator nn i l /\ la_operator l = k /\ In form (forms_of nn) /\
    length (self :: others) = length (la_types l) /\
    (exists o convert, try is_none default (by_type pass rest) (w_extra w) o convert (self :: others) [] t = Some (t, bi)) /\
    ((exists t, types = [t] /\ nn = unary_name k /\ la_types l = [t] /\ la_operands l = [Lhs]) \/
     (exists t1 t2, types = [t1; t2] /\ nn = binary_name k false /\ la_types l = [t1; t2] /\ la_operands l = [Lhs; Rhs]) \/
     (exists t1 t2, types = [t1; t2] /\ nn = binary_name k true /\ la_types l = [t2; t1] /\ la_operands l = [Rhs; Lhs])).
Proof.
  unfold OperSpec.attempt. destruct (method_for form) as [nn|] eqn:Em; [|discriminate]. destruct (class_of self) as [r|]; [|destruct (foreign nn self others); discriminate].
  destruct (getattr mro p (Class r) nn) as [[|static l|]|] eqn:Eg; try discriminate.
  destruct (dispatch _ _ _ _ _ l _ _) as [[t' bi']|] eqn:Ed; [|destruct l as [|s1 l]; [discriminate|destruct (is_operator s1); discriminate]]. intros [= -> ->] Hop.
  apply dispatch_tried in Ed as (Ht & convert & Et). apply getattr_own in Eg as (c & Eo).
  destruct (run_written _ _ _ _ _ Se _ _ _ _ _ _ Hn HG) as (g & vis & order & all & chunks & post & X & G & Ly & Hlen & _). assert (Hf : 0 < length files) by lia.
  destruct (named_module mro manual fails M (fun t => exists e, In e all /\ In t (ex_body e)) files) with (default_holder := default_holder) (m := m) (s := s) (p := p) (o := Class c) (n := nn) (static := static) (l := l) (t := t)
    as [(e & He & Hte) Hd]; try assumption.
  { intros id q body s0 Hi Hs. destruct (definitions_in _ _ _ _ _ Ly Hf id q body Hi) as (e & He & <-). eauto. }
  destruct t as [| | | | | |k0 i l0| | | | | |]; try discriminate Hop. injection Hd as ->.
  assert (Hs : supports_operator (u_decls u i) = true).
  { eapply supports_operators; [exact Hte|]. destruct (ge_bodies _ _ _ _ _ _ _ _ _ _ _ G) as (rss & Fb & _). destruct (forall2_in_l _ _ _ _ Fb He) as (r0 & _ & B). eauto. }
  destruct (entry_operator u w found implicit iteration name b g vis rs st' order all post Se X G e nn i l0 He Hte (Co i Hs)) as (k & types & Ho & Hk & Hcases).
  exists (ex_context e), i, k, types, nn, l0. split; [exact Ho|]. split; [reflexivity|]. split; [exact Hk|]. split; [apply method_for_sound, Em|].
  split; [|split; [eauto|exact Hcases]]. destruct (Nat.eq_dec (length (self :: others)) (length (la_types l0))) as [E|E]; [exact E|].
  rewrite (try_length is_none default pass rest (w_extra w) (Class r) convert nn i l0 _ E) in Et. discriminate Et.
Qed.

Lemma attempt_binary k left self other t bi : attempt (Binary k left) self [other] = Called t bi -> is_operator t = true ->
  exists r i k' types a c, operator_of u w b name r i k' types /\ calls pass t bi i k' types [a; c] /\
    ((k' = k /\ (a, c) = if left then (self, other) else (other, self)) \/ (mirrored k = Some k' /\ (a, c) = if left then (other, self) else (self, other))).
Proof.
  intros E Hop. destruct (attempt_sound _ _ _ _ _ E Hop) as (r & i & k' & types & nn & l & Ho & -> & Hk & Hf & Hl & (o & convert & Et) & Hc).
  destruct Hc as [(t & -> & -> & Ht & Hs)|[(t1 & t2 & -> & -> & Ht & Hs)|(t1 & t2 & -> & -> & Ht & Hs)]].
  - rewrite Ht in Hl. discriminate Hl.
  - rewrite (try_binary _ _ _ _ _ _ _ _ _ _ _ _ _ _ Ht) in Et. destruct (pass t1 convert self && pass t2 convert other) eqn:Ep; [|discriminate Et]. injection Et as <-. apply andb_true_iff in Ep as [P1 P2].
    exists r, i, k', [t1; t2], self, other. split; [exact Ho|]. split.
    + exists (binary_name k' false), l. split; [reflexivity|]. split; [exact Hk|]. split; [|exists convert; auto]. intros meaning d. unfold run_lambda. rewrite Hk, Hs. reflexivity.
    + apply binary_forms in Hf as [[= -> ->]|(k0 & [= -> ->] & Hm)]; [left|right]; cbn; auto.
  - rewrite (try_binary _ _ _ _ _ _ _ _ _ _ _ _ _ _ Ht) in Et. destruct (pass t2 convert self && pass t1 convert other) eqn:Ep; [|discriminate Et]. injection Et as <-. apply andb_true_iff in Ep as [P1 P2].
    exists r, i, k', [t1; t2], other, self. split; [exact Ho|]. split.
    + exists (binary_name k' true), l. split; [reflexivity|]. split; [exact Hk|]. split; [|exists convert; auto]. intros meaning d. unfold run_lambda. rewrite Hk, Hs. reflexivity.
    + apply binary_forms in Hf as [[= -> ->]|(k0 & [= -> ->] & Hm)]; [left|right]; cbn; auto.
Qed.

Lemma orelse_called {W} (r1 r2 : py_result W) t bi : orelse r1 r2 = Called t bi -> r1 = Called t bi \/ r2 = Called t bi.
Proof. destruct r1; cbn; auto. Qed.

Lemma attempts_of_binary k a c t bi : binary_expression is_none default (by_type pass rest) (w_extra w) mro p class_of foreign k a c = Called t bi ->
  attempt (Binary k true) a [c] = Called t bi \/ attempt (Binary k false) c [a] = Called t bi.
Proof.
  unfold binary_expression. destruct (is_comparison k), (more_special mro class_of a c), (same_class class_of a c), (provides_another mro p class_of (Binary k false) a c); cbn [andb];
    intros H; try (apply orelse_called in H; tauto); auto.
Qed.

Theorem expressions_sound k a c t bi : evaluate k a c = Called t bi -> is_operator t = true ->
  exists r i k' types a' c', operator_of u w b name r i k' types /\ performed_as k a c k' a' c' /\ calls pass t bi i k' types [a'; c'].
Proof.
  assert (A : forall k left self other, attempt (Binary k left) self [other] = Called t bi -> is_operator t = true -> (a, c) = (if left then (self, other) else (other, self)) ->
    exists r i k' types a' c', operator_of u w b name r i k' types /\ (k' = k /\ a' = a /\ c' = c \/ mirrored k = Some k' /\ a' = c /\ c' = a) /\ calls pass t bi i k' types [a'; c']).
  { intros k0 left self other E Hop Hac. destruct (attempt_binary _ _ _ _ _ _ E Hop) as (r & i & k' & types & a' & c' & Ho & Hc & Hk). exists r, i, k', types, a', c'. split; [exact Ho|]. split; [|exact Hc].
    destruct Hk as [[-> Ek]|[Hm Ek]]; destruct left; injection Ek as -> ->; injection Hac as -> ->; auto. }
  assert (B : forall k, binary_expression is_none default (by_type pass rest) (w_extra w) mro p class_of foreign k a c = Called t bi -> is_operator t = true ->
    exists r i k' types a' c', operator_of u w b name r i k' types /\ (k' = k /\ a' = a /\ c' = c \/ mirrored k = Some k' /\ a' = c /\ c' = a) /\ calls pass t bi i k' types [a'; c']).
  { intros k0 E Hop. apply attempts_of_binary in E as [E|E]; eapply A; try eassumption; reflexivity. }
  unfold OperSpec.evaluate. intros E Hop. destruct (updating k) as [k1|] eqn:Eu.
  - apply orelse_called in E as [E|E].
    + destruct (A k true a c E Hop eq_refl) as (r & i & k' & types & a' & c' & Ho & [(-> & -> & ->)|(Hm & -> & ->)] & Hc); do 6 eexists; (split; [exact Ho|]); (split; [|exact Hc]); [apply in_order|apply mirrored_for, Hm].
    + destruct (B k1 E Hop) as (r & i & k' & types & a' & c' & Ho & [(-> & -> & ->)|(Hm & -> & ->)] & Hc); do 6 eexists; (split; [exact Ho|]); (split; [|exact Hc]); [apply updates, Eu|].
      exfalso. destruct k; try discriminate Eu; injection Eu as <-; discriminate Hm.
  - destruct (B k E Hop) as (r & i & k' & types & a' & c' & Ho & [(-> & -> & ->)|(Hm & -> & ->)] & Hc); do 6 eexists; (split; [exact Ho|]); (split; [|exact Hc]); [apply in_order|apply mirrored_for, Hm].
Qed.

Theorem unary_sound k a t bi : evaluate_unary k a = Called t bi -> is_operator t = true ->
  exists r i types, operator_of u w b name r i k types /\ calls pass t bi i k types [a].
Proof.
  unfold OperSpec.evaluate_unary. intros E Hop. destruct (attempt_sound _ _ _ _ _ E Hop) as (r & i & k' & types & nn & l & Ho & -> & Hk & Hf & Hl & (o & convert & Et) & Hc).
  destruct Hc as [(t & -> & -> & Ht & Hs)|[(t1 & t2 & -> & -> & Ht & Hs)|(t1 & t2 & -> & -> & Ht & Hs)]]; [|rewrite Ht in Hl; discriminate Hl..].
  apply unary_forms in Hf as [= ->]. rewrite (try_unary _ _ _ _ _ _ _ _ _ _ _ _ Ht) in Et. destruct (pass t convert a) eqn:Ep; [|discriminate Et]. injection Et as <-.
  exists r, i, [t]. split; [exact Ho|]. exists (unary_name k'), l. split; [reflexivity|]. split; [exact Hk|]. split; [|exists convert; auto].
  intros meaning d. unfold run_lambda. rewrite Hk, Hs. reflexivity.
Qed.

(** ** Suitable operators are called *)

Lemma attempt_returns form self others : only_operators p -> attempt form self others <> Raises.
Proof.
  intros O. unfold OperSpec.attempt. destruct (method_for form) as [nn|] eqn:Em; [|discriminate]. destruct (class_of self) as [r|]; [|destruct (foreign nn self others); discriminate].
  destruct (getattr mro p (Class r) nn) as [v|] eqn:Eg; [|discriminate]. apply getattr_own in Eg as (c & Eo).
  destruct (O _ _ _ _ Eo (proj2 (forms_of_iff _ _) (method_for_sound _ _ Em))) as (static & s1 & l & -> & Hl).
  destruct (dispatch _ _ _ _ _ (s1 :: l) _ _) as [[t bi]|]; [discriminate|]. rewrite (Hl s1 (or_introl eq_refl)). discriminate.
Qed.

Lemma attempt_value form nn self others r static l t v : method_for form = Some nn -> class_of self = Some r -> own p (Class r) nn = Some (MFunction static l) -> In t l ->
  (convertible default (Class r) t = true /\ try is_none default (by_type pass rest) (w_extra w) (Class r) true (self :: others) [] t = Some v) \/
  (forall convert, try is_none default (by_type pass rest) (w_extra w) (Class r) convert (self :: others) [] t = Some v) -> returns_value (attempt form self others).
Proof.
  intros Em Hc Ho Ht Hcv. unfold OperSpec.attempt, getattr. rewrite Em, Hc, Ho.
  assert (D : dispatch is_none default (by_type pass rest) (w_extra w) (Class r) l (self :: others) [] <> None).
  { destruct Hcv as [[Hcv Et]|Et]; [exact (dispatch_some is_none default pass rest (w_extra w) (Class r) l (self :: others) [] t v Ht (or_introl Hcv) Et)|exact (dispatch_direct_some is_none default pass rest (w_extra w) (Class r) l (self :: others) [] t v Ht Et)]. }
  destruct (dispatch _ _ _ _ _ l _ _) as [[t' bi]|]; [exact I|destruct (D eq_refl)].
Qed.
End Expressions.

Theorem operators_reached default_holder mro manual fails u w found implicit iteration n name b files rs st' : setting u w iteration -> nested_blocks u -> 0 < n ->
  generate u w found implicit iteration n name = Some (RGraph b (EWritten files rs st')) ->
  exists g vis order all chunks post, exposed u found implicit name g vis b /\
    generated u w g vis (bs_annotations b) name rs st' order all post /\ layout name post all chunks files /\
    let intros := map (fun e => (ex_id e, ex_intro e)) all in
    let m := IModule name intros (map (fun e => (ex_id e, ex_id e)) all) post in
    filter is_module (concat files) = [m] /\
    (NoDup (map fst intros) -> agreeing_blocks u (bs_annotations b) g -> distinct_names u (bs_annotations b) g -> usable_bases default_holder w intros ->
     exists cs, contributions u (bs_annotations b) g all cs /\
       (no_clashes mro u (bs_annotations b) g cs -> executable manual fails all post ->
        exists s p, run_module mro manual fails default_holder files m = Some (s, p) /\
          forall V is_none default pass rest class_of foreign r i k, In r (map ex_context all) -> only_operators p ->
            let evaluates k a c := returns_value (evaluate is_none default (by_type pass rest) (w_extra w) mro p class_of foreign k a c) in
            (forall ta tb (a c : V), operator_of u w b name r i k [ta; tb] -> pass ta true a = true -> pass tb true c = true ->
               suitable class_of r k ta a c -> evaluates k a c /\ forall k', updating k' = Some k -> evaluates k' a c) /\
            (forall ta (a : V), operator_of u w b name r i k [ta] -> (forall convert, pass ta convert a = true) -> class_of a = Some r -> method_for (Unary k) <> None ->
               returns_value (evaluate_unary is_none default (by_type pass rest) (w_extra w) mro p class_of foreign k a)))).
Proof.
  intros S NB Hn HG. destruct (run_members default_holder mro manual fails _ _ _ _ _ _ _ _ _ _ _ S NB Hn HG) as (g & vis & order & all & chunks & post & X & G & Ly & Hm & H).
  exists g, vis, order, all, chunks, post. split; [exact X|]. split; [exact G|]. split; [exact Ly|]. intros intros m. split; [exact Hm|].
  intros Nd Ag Di Ba. destruct (H Nd Ag Di Ba) as (cs & C & H'). exists cs. split; [exact C|]. intros NC Ex. destruct (H' NC Ex) as (s & p & R & _ & _ & A).
  exists s, p. split; [exact R|]. intros V is_none default pass rest class_of foreign r i k Hr O evaluates.
  apply in_map_iff in Hr as (e & <- & He).
  assert (Own : forall nn i l, kind u (ex_context e) = KRecord -> In (SOperator nn i l) (ex_body e) -> (exists form, method_for form = Some nn) -> exists static l', own p (Class (ex_context e)) nn = Some (MFunction static l') /\ In (SOperator nn i l) l').
  { intros nn i0 l K Hin (form & Hf). destruct (A e (Class (ex_context e)) (SOperator nn i0 l) nn He) as (v0 & Hv0 & Hre); [constructor; exact K|exact Hin|reflexivity|].
    destruct (O _ _ _ _ Hv0 (proj2 (forms_of_iff _ _) (method_for_sound _ _ Hf))) as (static & s1 & l1 & -> & _). cbn in Hre. eauto. }
  split.
  - intros ta tb a c Op Pa Pc Su. assert (K := op_class _ _ _ _ _ _ _ _ Op).
    assert (Tr : exists left self other, method_for (Binary k left) <> None /\ class_of self = Some (ex_context e) /\ (a, c) = (if left : bool then (self, other) else (other, self)) /\
      returns_value (attempt is_none default (by_type pass rest) (w_extra w) mro p class_of foreign (Binary k left) self [other]) /\ (left = false -> is_comparison k = true \/ same_class class_of a c = false)).
    { assert (Core : forall t, core_eqb (ty_core t) (CRecord (ex_context e)) = true <-> ty_core t = CRecord (ex_context e)).
      { intros t. destruct (ty_core t) as [j|j]; cbn [core_eqb]; [rewrite Nat.eqb_eq|]; split; congruence. }
      destruct Su as [(Ta & Ca & Ma)|(Ta & Cc & Sc & Ma)].
      - destruct (method_for (Binary k true)) as [nn|] eqn:Em; [|destruct (Ma eq_refl)]. destruct (binary_method _ _ _ Em) as [Enn Hne].
        assert (Hin := operator_entry u w found implicit iteration name b g vis rs st' order all post S X G e i k [ta; tb] He Op Hne ltac:(intros [E _]; discriminate E)).
        cbv beta iota in Hin. rewrite (proj2 (Core ta) Ta) in Hin. cbn [negb] in Hin, Enn. rewrite <- Enn in Hin. destruct (Own _ _ _ K Hin (Logic.ex_intro (fun f => method_for f = Some nn) _ Em)) as (static & l' & Ho & Hl').
        exists true, a, c. split; [congruence|]. split; [exact Ca|]. split; [reflexivity|]. split; [|discriminate].
        eapply attempt_value; [exact Em|exact Ca|exact Ho|exact Hl'|]. left. split; [reflexivity|]. rewrite (try_binary _ _ _ _ _ _ _ _ _ _ ta tb); [|reflexivity]. rewrite Pa, Pc. reflexivity.
      - destruct (method_for (Binary k false)) as [nn|] eqn:Em; [|destruct (Ma eq_refl)]. destruct (binary_method _ _ _ Em) as [Enn Hne].
        assert (Hin := operator_entry u w found implicit iteration name b g vis rs st' order all post S X G e i k [ta; tb] He Op Hne ltac:(intros [E _]; discriminate E)).
        assert (Ef : core_eqb (ty_core ta) (CRecord (ex_context e)) = false) by (destruct (core_eqb _ _) eqn:E; [apply Core in E; destruct (Ta E)|reflexivity]).
        cbv beta iota in Hin. rewrite Ef in Hin. cbn [negb] in Hin, Enn. rewrite <- Enn in Hin. destruct (Own _ _ _ K Hin (Logic.ex_intro (fun f => method_for f = Some nn) _ Em)) as (static & l' & Ho & Hl').
        exists false, c, a. split; [congruence|]. split; [exact Cc|]. split; [reflexivity|]. split; [|intros _; exact Sc].
        eapply attempt_value; [exact Em|exact Cc|exact Ho|exact Hl'|]. left. split; [reflexivity|]. rewrite (try_binary _ _ _ _ _ _ _ _ _ _ tb ta); [|reflexivity]. rewrite Pa, Pc. reflexivity. }
    assert (Bin : returns_value (binary_expression is_none default (by_type pass rest) (w_extra w) mro p class_of foreign k a c)).
    { destruct Tr as (left & self & other & _ & _ & Eac & Rv & Sc). unfold binary_expression.
      assert (Nr := fun form self others => attempt_returns mro w p is_none default pass rest class_of foreign form self others O).
      apply ordered_value; [apply Nr..|]. destruct left; injection Eac as -> ->; [left; exact Rv|right; split; [exact Rv|exact (Sc eq_refl)]]. }
    split.
    + unfold evaluates, evaluate. destruct (updating k) as [k1|] eqn:Eu; [|exact Bin].
      destruct Tr as ([] & self & other & Hm0 & _ & Eac & Rv & _).
      * injection Eac as -> ->. apply orelse_left, Rv.
      * exfalso. apply Hm0. destruct k; try discriminate Eu; reflexivity.
    + intros k' Eu. unfold evaluates, evaluate. rewrite Eu. apply orelse_right; [|exact Bin]. apply attempt_returns, O.
  - intros ta a Op Pa Ca Ma. assert (K := op_class _ _ _ _ _ _ _ _ Op). destruct (method_for (Unary k)) as [nn|] eqn:Em; [|destruct (Ma eq_refl)].
    destruct (unary_method _ _ Em) as (Enn & Hne & Hst & Ham).
    assert (Hin := operator_entry u w found implicit iteration name b g vis rs st' order all post S X G e i k [ta] He Op Hne ltac:(intros [_ [E|E]]; [destruct (Hst E)|destruct (Ham E)])).
    cbv beta iota in Hin. rewrite <- Enn in Hin. destruct (Own _ _ _ K Hin (Logic.ex_intro (fun f => method_for f = Some nn) _ Em)) as (static & l' & Ho & Hl').
    unfold evaluate_unary. eapply attempt_value; [exact Em|exact Ca|exact Ho|exact Hl'|]. right. intros convert. rewrite (try_unary _ _ _ _ _ _ _ _ _ _ ta); [|reflexivity]. rewrite Pa. reflexivity.
Qed.
