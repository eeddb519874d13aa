(** * Proofs about the values of enumerations in Python *)
From Verif Require Import Base ParserModel AnnotModel AnnotSpec AnnotFinal CollectModel GraphModel GraphSpec OrderModel OrderSpec EmitModel EmitSpec ModuleModel ModuleSpec ImportSpec ExecSpec StoreSpec
  OptionSpec OptionProofs AccessSpec DocSpec DocProofs EnumSpec.
From Coq Require Import ZArith.

(** ** Operators *)

Section Operators.
Context (intros : list (str * introducer)) (scoped : nat -> bool).
Notation compare := (compare intros scoped).
Notation combine_values := (combine_values intros scoped).

Definition tag_of (v : pyvalue) : bool := match v with PMember e _ => tagged intros e | _ => false end.
Definition is_member (v : pyvalue) : Prop := match v with PMember _ _ => True | _ => False end.

Lemma holds_mirrored op a b : holds (mirrored op) b a = holds op a b.
Proof. destruct op; cbn; try reflexivity; now rewrite Z.eqb_sym. Qed.

Lemma computed_sym op a b : bitwise op -> computed op b a = computed op a b.
Proof. intros [->|[->| ->]]; cbn; [apply Z.land_comm|apply Z.lor_comm|apply Z.lxor_comm]. Qed.

Ltac by_cases := repeat match goal with |- context[if ?x then _ else _] => destruct x eqn:?; cbn end.

Lemma compare_like_cpp op v v' r : cpp_compare scoped op v v' = Some r -> (equality op \/ tag_of v = true \/ tag_of v' = true \/ (~ is_member v /\ ~ is_member v')) -> compare op v v' = Bool r.
Proof.
  unfold EnumSpec.compare, cpp_compare. destruct v as [a|e a|], v' as [b|k b|]; cbn [promoted method int_method member_method none_method tag_of is_member]; try discriminate.
  - intros [= <-] _. reflexivity.
  - unfold member_method. destruct (scoped k) eqn:Sk; [discriminate|]. intros [= <-] H. cbn [as_int equals_int].
    destruct op; cbn [mirrored holds]; try (now rewrite Z.eqb_sym); destruct (tagged intros k); try reflexivity; unfold equality in H; exfalso; destruct H as [[H|H]|[H|[H|[_ H]]]]; try discriminate H; apply H; exact I.
  - unfold member_method. destruct (scoped e) eqn:Sk; [discriminate|]. intros [= <-] H. cbn [as_int equals_int].
    destruct op; cbn [mirrored holds]; try reflexivity; destruct (tagged intros e); try reflexivity; unfold equality in H; exfalso; destruct H as [[H|H]|[H|[H|[H _]]]]; try discriminate H; apply H; exact I.
  - destruct (Nat.eqb_spec e k) as [<-|Ne].
    + intros [= <-] H. unfold member_method. rewrite Nat.eqb_refl. cbn [as_int equals_int]. destruct (scoped e), op; cbn [holds andb negb mirrored]; try (now rewrite (Z.eqb_sym a b)); try reflexivity;
        destruct (tagged intros e); try reflexivity; unfold equality in H; exfalso; destruct H as [[H|H]|[H|[H|[H _]]]]; try discriminate H; apply H; exact I.
    + destruct (scoped e) eqn:Se; [discriminate|]. destruct (scoped k) eqn:Sk; [discriminate|]. cbn [orb]. intros [= <-] H. unfold member_method. rewrite Se, Sk. cbn [as_int equals_int]. rewrite Sk.
      destruct op; cbn [holds negb mirrored]; try (now rewrite (Z.eqb_sym a b)); destruct (tagged intros e); try reflexivity; destruct (tagged intros k); try reflexivity;
        unfold equality in H; exfalso; destruct H as [[H|H]|[H|[H|[H _]]]]; try discriminate H; apply H; exact I.
  - destruct (scoped e); discriminate.
Qed.

Lemma compare_unavailable op v v' : ~ equality op -> tag_of v = false -> tag_of v' = false -> is_member v \/ is_member v' -> compare op v v' = TypeError.
Proof.
  unfold EnumSpec.compare, equality. intros Ne T T' M. destruct v as [a|e a|], v' as [b|k b|]; cbn [tag_of is_member method int_method none_method] in *; try (destruct M; contradiction); unfold member_method;
    rewrite ?T, ?T'; destruct op; try (destruct Ne; auto; fail); cbn [mirrored none_method]; rewrite ?T, ?T'; by_cases; reflexivity.
Qed.

Lemma compare_foreign v v' : cpp_compare scoped Equal v v' = None -> (v <> PNone \/ v' <> PNone) -> compare Equal v v' = Bool false /\ compare Different v v' = Bool true.
Proof.
  unfold EnumSpec.compare, cpp_compare. intros E N. destruct v as [a|e a|], v' as [b|k b|]; cbn [promoted] in E; try discriminate E; cbn [method int_method none_method mirrored]; unfold member_method; cbn [as_int equals_int].
  - destruct (scoped k); [auto|discriminate E].
  - auto.
  - destruct (scoped e); [auto|discriminate E].
  - destruct (Nat.eqb_spec e k) as [<-|Ne]; [discriminate E|]. rewrite (proj2 (Nat.eqb_neq k e)) by congruence. destruct (scoped e) eqn:Se; [auto|]. destruct (scoped k); [auto|discriminate E].
  - destruct (scoped e); auto.
  - auto.
  - destruct (scoped k); auto.
  - destruct N as [N|N]; destruct N; reflexivity.
Qed.

Lemma combine_like_cpp op v v' r : bitwise op -> cpp_combine scoped op v v' = Some r -> (tag_of v = true \/ tag_of v' = true \/ (~ is_member v /\ ~ is_member v')) -> combine_values op v v' = Int r.
Proof.
  intros Bw. unfold EnumSpec.combine_values, cpp_combine. destruct v as [a|e a|], v' as [b|k b|]; cbn [promoted]; try discriminate.
  - intros [= <-] _. reflexivity.
  - cbn [slot as_int tag_of is_member]. destruct (scoped k) eqn:Sk; [discriminate|]. intros [= <-] [H|[H|[_ H]]]; [discriminate H| |destruct (H I)]. rewrite H.
    rewrite <- (computed_sym op) by exact Bw. destruct Bw as [->|[->| ->]]; reflexivity.
  - cbn [slot as_int tag_of is_member]. destruct (scoped e) eqn:Sk; [discriminate|]. intros [= <-] [H|[H|[H _]]]; [|discriminate H|destruct (H I)]. rewrite H. destruct Bw as [->|[->| ->]]; reflexivity.
  - cbn [slot as_int tag_of is_member]. destruct (scoped e) eqn:Se; [discriminate|]. destruct (scoped k) eqn:Sk; [discriminate|]. intros [= <-] H. cbn [negb andb].
    assert (Z : combine_values op (PMember e a) (PMember k b) = Int (computed op a b)).
    { unfold EnumSpec.combine_values. cbn [slot as_int]. rewrite Se, Sk. cbn [negb andb]. assert (Cs := computed_sym op a b Bw).
      destruct (tagged intros e) eqn:Te; [destruct Bw as [->|[->| ->]]; reflexivity|]. destruct (tagged intros k) eqn:Tk; [rewrite <- Cs; destruct Bw as [->|[->| ->]]; reflexivity|].
      exfalso. destruct H as [H|[H|[H _]]]; try discriminate H. exact (H I). }
    unfold EnumSpec.combine_values in Z. cbn [slot as_int] in Z. rewrite Se, Sk in Z. exact Z.
  - destruct (scoped e); discriminate.
Qed.

Lemma combine_unavailable op v v' : (bitwise op -> tag_of v = false /\ tag_of v' = false) -> is_member v \/ is_member v' -> combine_values op v v' = TypeError.
Proof.
  intros T M. assert (D : bitwise op \/ ~ bitwise op) by (unfold bitwise; destruct op; auto; right; intros [H|[H|H]]; discriminate H).
  unfold EnumSpec.combine_values. destruct v as [a|e a|], v' as [b|k b|]; cbn [is_member] in M; try (destruct M; contradiction);
    (destruct D as [D|D]; [destruct (T D) as [T1 T2]; cbn [tag_of] in T1, T2; destruct D as [->|[->| ->]]; cbn [slot]; rewrite ?T1, ?T2, ?andb_false_r; reflexivity|
      destruct op; try reflexivity; exfalso; apply D; unfold bitwise; auto]).
Qed.

Lemma inverted_like_cpp v a : promoted scoped v = Some a -> (tag_of v = true \/ ~ is_member v) -> inverted intros scoped v = Int (Z.lnot a).
Proof.
  destruct v as [z|e z|]; cbn; [congruence| |discriminate]. destruct (scoped e); [discriminate|]. intros [= <-] [H|H]; [rewrite H; reflexivity|destruct (H I)].
Qed.

Lemma inverted_unavailable v : is_member v -> tag_of v = false -> inverted intros scoped v = TypeError.
Proof. destruct v as [z|e z|]; cbn; try contradiction. intros _ ->. rewrite andb_false_r. reflexivity. Qed.

(** ** Equality *)

(** Equal integers, of enumerations only if these are the same or not scoped. *)
Definition alike (v v' : pyvalue) : Prop :=
  match v, v' with
  | PNone, PNone => True
  | PInt a, PInt b => a = b
  | PInt a, PMember e b | PMember e b, PInt a => scoped e = false /\ a = b
  | PMember e a, PMember k b => a = b /\ (e = k \/ (scoped e = false /\ scoped k = false))
  | _, _ => False
  end.

Lemma equal_alike v v' : compare Equal v v' = Bool true <-> alike v v'.
Proof.
  unfold EnumSpec.compare. destruct v as [a|e a|], v' as [b|k b|]; cbn [method int_method none_method mirrored alike]; unfold member_method; cbn [equals_int holds].
  - rewrite <- Z.eqb_eq. split; [now intros [= ->]|now intros ->].
  - destruct (scoped k); [split; [discriminate|intros [H _]; discriminate H]|]. rewrite <- (Z.eqb_eq a b), Z.eqb_sym. split; [intros [= ->]; auto|intros [_ ->]; reflexivity].
  - split; [discriminate|contradiction].
  - destruct (scoped e); [split; [discriminate|intros [H _]; discriminate H]|]. rewrite <- (Z.eqb_eq b a), Z.eqb_sym. split; [intros [= ->]; auto|intros [_ ->]; reflexivity].
  - destruct (scoped e) eqn:Se.
    + destruct (Nat.eqb_spec k e) as [->|Ne]; cbn [andb].
      * split; [intros [= H]; apply Z.eqb_eq in H; auto|intros [-> _]; rewrite Z.eqb_refl; reflexivity].
      * split; [discriminate|]. intros [_ [->|[H _]]]; [destruct Ne; reflexivity|discriminate H].
    + destruct (scoped k) eqn:Sk; [split; [discriminate|]; intros [_ [->|[_ H]]]; [congruence|discriminate H]|].
      split; [intros [= H]; apply Z.eqb_eq in H; auto|intros [-> _]; rewrite Z.eqb_refl; reflexivity].
  - destruct (scoped e); split; try discriminate; contradiction.
  - split; [discriminate|contradiction].
  - destruct (scoped k); split; try discriminate; contradiction.
  - split; auto.
Qed.

Lemma equality_equivalence : (forall v, compare Equal v v = Bool true) /\ (forall v v', compare Equal v v' = Bool true -> compare Equal v' v = Bool true) /\
  (forall v1 v2 v3, compare Equal v1 v2 = Bool true -> compare Equal v2 v3 = Bool true -> compare Equal v1 v3 = Bool true) /\
  (forall v v', compare Equal v v' = Bool true -> hashed v = hashed v').
Proof.
  split; [|split; [|split]].
  - intros v. apply equal_alike. destruct v; cbn; auto.
  - intros v v' H. apply equal_alike in H. apply equal_alike. destruct v, v'; cbn in *; intuition congruence.
  - intros v1 v2 v3 H H'. apply equal_alike in H, H'. apply equal_alike. destruct v1, v2, v3; cbn in *; intuition congruence.
  - intros v v' H. apply equal_alike in H. destruct v, v'; cbn in *; try contradiction; try reflexivity; intuition congruence.
Qed.
End Operators.

(** ** The module *)

Section Module.
Context (u : unit) (w : facts) (found : nat -> list nat) (implicit : nat -> bool) (iteration : list nat -> list nat).
Context (n : nat) (name : str) (b : bstate) (files : list (list item)) (rs : list ereport) (st' : storage).
Hypothesis (Se : setting u w iteration) (Hn : 0 < n) (HG : generate u w found implicit iteration n name = Some (RGraph b (EWritten files rs st'))).

Section Block.
Context (nm : str) (intros : list (str * introducer)) (calls : list (str * str)) (post : list nat).
Hypothesis (Hm : In (IModule nm intros calls post) (concat files)) (In_ : independent u intros).

Lemma tag_said v : available intros v -> (tag_of intros v = true <-> said_arithmetic u v).
Proof.
  destruct v as [z|e z|]; cbn [available tag_of said_arithmetic]; [split; [discriminate|contradiction]| |split; [discriminate|contradiction]].
  intros (id & q & k & a & H). assert (S := options_as_said u w found implicit iteration n name b files rs st' Se Hn HG nm intros calls post Hm In_).
  unfold tagged. rewrite existsb_exists. split.
  - intros ([id' i] & Hi & Hx). cbn [snd] in Hx. destruct i as [| |e' q' k' a'|]; try discriminate Hx. apply andb_prop in Hx as [He Ha]. apply Nat.eqb_eq in He. subst e' a'.
    exact (S _ _ Hi).
  - intros (ans & Ca & La). destruct (S _ _ H) as (ans' & Ca' & La'). destruct (carried_unique2 _ _ _ _ _ Ca Ca') as [<- _].
    exists (id, NEnum e q k a). split; [exact H|]. cbn [snd]. rewrite Nat.eqb_refl. cbn [andb]. exact (latest_unique _ _ _ _ _ La' La).
Qed.

Lemma tag_unsaid v : available intros v -> ~ said_arithmetic u v -> tag_of intros v = false.
Proof. intros A N. destruct (tag_of intros v) eqn:E; [|reflexivity]. destruct N. apply tag_said; assumption. Qed.

Notation scoped := (x_scoped (w_extra w)).

Theorem module_comparisons v v' : available intros v -> available intros v' ->
  (forall op r, cpp_compare scoped op v v' = Some r -> equality op \/ said_arithmetic u v \/ said_arithmetic u v' -> compare intros scoped op v v' = Bool r) /\
  (cpp_compare scoped Equal v v' = None -> v <> PNone \/ v' <> PNone -> compare intros scoped Equal v v' = Bool false /\ compare intros scoped Different v v' = Bool true) /\
  (forall op, ~ equality op -> ~ said_arithmetic u v -> ~ said_arithmetic u v' -> is_member v \/ is_member v' -> compare intros scoped op v v' = TypeError).
Proof.
  intros A A'. split; [|split].
  - intros op r H Hs. apply compare_like_cpp; [exact H|]. destruct Hs as [Hs|[Hs|Hs]]; [left; exact Hs|right; left; apply (tag_said v A), Hs|right; right; left; apply (tag_said v' A'), Hs].
  - apply compare_foreign.
  - intros op Ne N N'. apply compare_unavailable; [exact Ne|exact (tag_unsaid v A N)|exact (tag_unsaid v' A' N')].
Qed.

Theorem module_operators v v' : available intros v -> available intros v' ->
  (forall op r, bitwise op -> cpp_combine scoped op v v' = Some r -> said_arithmetic u v \/ said_arithmetic u v' -> combine_values intros scoped op v v' = Int r) /\
  (forall r, promoted scoped v = Some r -> said_arithmetic u v -> inverted intros scoped v = Int (Z.lnot r)) /\
  (~ said_arithmetic u v -> ~ said_arithmetic u v' -> is_member v \/ is_member v' -> forall op, combine_values intros scoped op v v' = TypeError) /\
  (~ said_arithmetic u v -> is_member v -> inverted intros scoped v = TypeError).
Proof.
  intros A A'. split; [|split; [|split]].
  - intros op r Bw H Hs. apply combine_like_cpp; [exact Bw|exact H|]. destruct Hs as [Hs|Hs]; [left; apply (tag_said v A), Hs|right; left; apply (tag_said v' A'), Hs].
  - intros r H Hs. apply inverted_like_cpp; [exact H|]. left. apply (tag_said v A), Hs.
  - intros N N' M op. apply combine_unavailable; [|exact M]. intros _. split; [exact (tag_unsaid v A N)|exact (tag_unsaid v' A' N')].
  - intros N M. apply inverted_unavailable; [exact M|exact (tag_unsaid v A N)].
Qed.
End Block.

(** ** Names *)

Lemma numbered_name constant e z : forall l r, numbered u b name e l r ->
  match find (fun v : str * stmt => match snd v with SValue _ i => Z.eqb (constant i) z | _ => false end) r with
  | Some v => exists l1 i l2 a, l = l1 ++ i :: l2 /\ visible_in u b name e i /\ own_attributes u i a /\ called u a i [] (fst v) /\ constant i = z /\ forall j, In j l1 -> visible_in u b name e j -> constant j <> z
  | None => forall i, In i l -> visible_in u b name e i -> constant i <> z
  end.
Proof.
  induction 1 as [|i l a k r V O C _ IH|i l r V _ IH]; cbn [find snd].
  - intros i [].
  - destruct (Z.eqb_spec (constant i) z) as [E|E]; [exists [], i, l, a; repeat split; auto; intros j []|].
    destruct (find _ r) as [v|].
    + destruct IH as (l1 & j & l2 & a' & -> & V' & O' & C' & Z' & F). exists (i :: l1), j, l2, a'. repeat split; auto. intros x [<-|Hx]; auto.
    + intros x [<-|Hx]; auto.
  - destruct (find _ r) as [v|].
    + destruct IH as (l1 & j & l2 & a' & -> & V' & O' & C' & Z' & F). exists (i :: l1), j, l2, a'. repeat split; auto. intros x [<-|Hx] Vx; [destruct (V Vx)|auto].
    + intros x [<-|Hx] Vx; [destruct (V Vx)|auto].
Qed.

Theorem module_names default_holder mro manual fails m s p : In m (concat files) -> run_module mro manual fails default_holder files m = Some (s, p) -> leaves_values manual -> proper_enumerators u w ->
  exists g vis, exposed u found implicit name g vis b /\ forall e, In e (g_nodes g) -> kind u e = KEnum -> forall constant z,
    names_value u w b name constant e z (name_shown p constant e z) \/ (unnamed_value u w b name constant e z /\ name_shown p constant e z = $"???").
Proof.
  intros Hm R M P. destruct (enumerations_entered _ _ _ _ _ _ _ _ _ _ _ _ _ _ _ Se Hn HG _ _ _ Hm R M P) as (g & vis & X & H). exists g, vis. split; [exact X|].
  intros e He K constant z. destruct (H e He K) as (l & [Sl Il] & Nu). assert (Q := numbered_name constant e z l _ Nu). unfold name_shown.
  destruct (find _ (entries p e)) as [v|].
  - left. destruct Q as (l1 & i & l2 & a & -> & V & O & C & Z & F). exists l1, i, l2, a. split; [split; assumption|]. auto.
  - right. split; [|reflexivity]. intros i Di Xi V. apply Q; [apply Il; auto|exact V].
Qed.
End Module.
