(** * Proofs about calls from Python *)
From Verif Require Import Base ParserModel AnnotModel AnnotSpec AnnotStore AnnotFinal CollectModel CollectSpec GraphModel GraphSpec GraphWalk OrderModel InlineModel EmitModel EmitSpec EmitFold EmitProofs EmitFinal ModuleModel ModuleSpec ModuleChunks ModuleProofs ModuleFinal
  ImportSpec ImportProofs ExecSpec ExecProofs AccessSpec AccessProofs InvalidSpec InvalidProofs DispatchSpec.

Lemma str_eqb_iff a b : str_eqb a b = true <-> a = b.
Proof. apply str_eqb_eq. Qed.

Lemma first_some_iff {A B} (g : A -> option B) l r : first_some g l = Some r <-> exists before a after, l = before ++ a :: after /\ g a = Some r /\ forall b, In b before -> g b = None.
Proof.
  induction l as [|a l IH]; cbn.
  - split; [discriminate|]. intros ([|] & ? & ? & E & _); discriminate.
  - destruct (g a) as [q|] eqn:E.
    + split.
      * intros [= <-]. exists [], a, l. split; [reflexivity|]. split; [exact E|intros ? []].
      * intros ([|x before] & y & after & H1 & H2 & H3); cbn in H1; injection H1 as <- ->; [congruence|]. specialize (H3 a (or_introl eq_refl)). congruence.
    + rewrite IH. split.
      * intros (before & y & after & -> & H2 & H3). exists (a :: before), y, after. split; [reflexivity|]. split; [exact H2|]. intros b [<-|Hb]; auto.
      * intros ([|x before] & y & after & H1 & H2 & H3); cbn in H1; injection H1 as <- ->; [congruence|]. exists before, y, after. split; [reflexivity|]. split; [exact H2|]. intros b Hb. apply H3. right. exact Hb.
Qed.

Lemma first_some_none {A B} (g : A -> option B) l : first_some g l = None <-> forall a, In a l -> g a = None.
Proof.
  induction l as [|a l IH]; cbn; [split; [intros _ ? []|reflexivity]|]. destruct (g a) as [q|] eqn:E.
  - split; [discriminate|]. intros H. specialize (H a (or_introl eq_refl)). congruence.
  - rewrite IH. split; [intros H b [<-|Hb]; auto|intros H b Hb; apply H; right; exact Hb].
Qed.

Lemma nth_ext_err {A} (l m : list A) : (forall k, nth_error l k = nth_error m k) -> l = m.
Proof.
  revert m. induction l as [|a l IH]; intros [|b m] H; [reflexivity|discriminate (H 0)|discriminate (H 0)|]. assert (E := H 0). injection E as ->. f_equal. apply IH. intros k. exact (H (S k)).
Qed.

Lemma nth_firstn_lt {A} (l : list A) n k : k < n -> nth_error (firstn n l) k = nth_error l k.
Proof. revert l k. induction n as [|n IH]; intros [|a l] [|k] L; cbn; try lia; try reflexivity. apply IH. lia. Qed.

Section Calls.
Context {V : Type} (is_none : V -> bool) (default : nat -> nat -> V) (accepts : stmt -> nat -> bool -> V -> bool) (x : extra) (o : object).
Notation formal := (formal V).
Notation keywords := (keywords V).
Notation refused := (refused is_none).

Lemma keyword_some (kw : keywords) (f : formal) v : proper_keywords kw -> keyword f kw = Some v <-> given_as kw f v.
Proof.
  intros [Nd _]. unfold keyword, given_as. destruct (fo_name f) as [n|]; [|split; [discriminate|intros (n & H & _); discriminate]].
  split.
  - destruct (find _ kw) as [[m w]|] eqn:E; [|discriminate]. intros [= <-]. apply find_some in E as [H1 H2]. apply str_eqb_iff in H2. cbn in H2. subst m. eauto.
  - intros (m & [= <-] & H). induction kw as [|[m w] kw IH]; [destruct H|]. cbn. cbn in Nd. inversion Nd as [|? ? N1 N2]; subst. destruct H as [[= -> ->]|H].
    + rewrite (proj2 (str_eqb_iff n n) eq_refl). reflexivity.
    + destruct (str_eqb m n) eqn:E; [|apply IH; assumption]. apply str_eqb_iff in E. subst m. exfalso. apply N1. apply (in_map fst) in H. exact H.
Qed.

Lemma keyword_none (kw : keywords) (f : formal) : proper_keywords kw -> keyword f kw = None <-> forall v, ~ given_as kw f v.
Proof.
  intros Pk. split.
  - intros H v G. apply (keyword_some kw f v Pk) in G. congruence.
  - intros H. destruct (keyword f kw) as [v|] eqn:E; [|reflexivity]. apply (keyword_some kw f v Pk) in E. destruct (H v E).
Qed.

Lemma positional_iff (kw : keywords) fs pos vs : proper_keywords kw -> positional is_none kw fs pos = Some vs <->
  vs = firstn (length fs) pos /\ forall k f v, nth_error fs k = Some f -> nth_error pos k = Some v -> (forall w, ~ given_as kw f w) /\ refused f v = false.
Proof.
  intros Pk. revert pos vs. induction fs as [|f fs IH]; intros pos vs; cbn [positional length firstn].
  - split; [intros [= <-]; split; [reflexivity|intros [|k] ? ? H; discriminate]|intros [-> _]; reflexivity].
  - destruct pos as [|v pos].
    + split; [intros [= <-]; split; [reflexivity|intros [|k] ? ? _ H; discriminate]|intros [-> _]; reflexivity].
    + destruct (keyword f kw) as [w|] eqn:E.
      * split; [discriminate|]. intros [_ H]. destruct (H 0 f v eq_refl eq_refl) as [H1 _]. apply (keyword_some kw f w Pk) in E. destruct (H1 w E).
      * assert (N := proj1 (keyword_none kw f Pk) E). destruct (refused f v) eqn:R.
        -- split; [discriminate|]. intros [_ H]. destruct (H 0 f v eq_refl eq_refl) as [_ H1]. congruence.
        -- destruct (positional is_none kw fs pos) as [ws|] eqn:Ep; cbn [option_map].
           ++ destruct (proj1 (IH pos ws) Ep) as [-> H]. split.
              ** intros [= <-]. split; [reflexivity|]. intros [|k] h w Hk Hw; [injection Hk as <-; injection Hw as <-; auto|exact (H k h w Hk Hw)].
              ** intros [-> _]. reflexivity.
           ++ split; [discriminate|]. intros [-> H]. assert (E' : positional is_none kw fs pos = Some (firstn (length fs) pos)); [|congruence].
              apply IH. split; [reflexivity|]. intros k h w Hk Hw. exact (H (S k) h w Hk Hw).
Qed.

Lemma without_given (kw : keywords) (f h : formal) v : proper_keywords kw -> (forall n, fo_name f = Some n -> fo_name h = Some n -> n = []) -> given_as (without f kw) h v <-> given_as kw h v.
Proof.
  intros [_ Ne] D. unfold given_as, without. destruct (fo_name f) as [n|] eqn:E; [|reflexivity]. split; intros (m & Hm & Hi); exists m; (split; [exact Hm|]).
  - apply filter_In in Hi as [Hi _]. exact Hi.
  - apply filter_In. split; [exact Hi|]. cbn. destruct (str_eqb m n) eqn:Em; [|reflexivity]. apply str_eqb_iff in Em. subst m. specialize (D n eq_refl Hm). subst n.
    exfalso. apply Ne. apply (in_map fst) in Hi. exact Hi.
Qed.

Lemma without_proper (kw : keywords) (f : formal) : proper_keywords kw -> proper_keywords (without f kw).
Proof.
  intros [Nd Ne]. unfold without. destruct (fo_name f) as [n|]; [|split; assumption]. split.
  - clear Ne. induction kw as [|[m v] kw IH]; [constructor|]. cbn in Nd. inversion Nd as [|? ? N1 N2]; subst. cbn. destruct (str_eqb m n); cbn; [apply IH, N2|]. constructor; [|apply IH, N2].
    intros H. apply N1. apply in_map_iff in H as ([m' v'] & E & H). apply filter_In in H as [H _]. cbn in E. subst m'. apply (in_map fst) in H. exact H.
  - intros H. apply Ne. apply in_map_iff in H as ([m' v'] & E & H). apply filter_In in H as [H _]. cbn in E. subst m'. apply (in_map fst) in H. exact H.
Qed.

Definition unnamed_by (fs : list formal) (p : str * V) : bool := negb (existsb (fun f => match fo_name f with Some m => str_eqb (fst p) m | None => false end) fs).

Lemma filter_filter {A} (g h : A -> bool) l : filter g (filter h l) = filter (fun a => h a && g a) l.
Proof. induction l as [|a l IH]; [reflexivity|]. cbn. destruct (h a); cbn; [destruct (g a); cbn|]; rewrite ?IH; reflexivity. Qed.

Lemma remaining_iff (fs : list formal) (kw : keywords) vs rest : proper_keywords kw -> distinct_formals fs -> remaining is_none kw fs = Some (vs, rest) <->
  length vs = length fs /\ (forall k f v, nth_error fs k = Some f -> nth_error vs k = Some v -> (given_as kw f v \/ (forall w, ~ given_as kw f w) /\ fo_default f = Some v) /\ refused f v = false) /\
  rest = filter (unnamed_by fs) kw.
Proof.
  revert kw vs rest. induction fs as [|f fs IH]; intros kw vs rest Pk Di; cbn [remaining].
  - split.
    + intros [= <- <-]. split; [reflexivity|]. split; [intros [|k] ? ? H; discriminate|]. symmetry. clear. induction kw as [|p kw IH]; [reflexivity|]. cbn. f_equal. exact IH.
    + intros (Hl & _ & ->). destruct vs; [|discriminate]. f_equal. f_equal. clear. induction kw as [|p kw IH]; [reflexivity|]. cbn. f_equal. exact IH.
  - assert (Di' : distinct_formals fs). { intros j k h1 h2 n H1 H2 H3 H4 H5. assert (E := Di (S j) (S k) h1 h2 n H1 H2 H3 H4 H5). lia. }
    assert (Nf : forall k h n, nth_error fs k = Some h -> fo_name f = Some n -> fo_name h = Some n -> n = []).
    { intros k h n Hk H1 H2. destruct n as [|c n]; [reflexivity|]. exfalso. assert (E := Di 0 (S k) f h (c :: n) eq_refl Hk H1 H2 ltac:(discriminate)). discriminate. }
    set (kw' := without f kw). assert (Pk' : proper_keywords kw') by (apply without_proper, Pk).
    assert (G : forall k h v, nth_error fs k = Some h -> given_as kw' h v <-> given_as kw h v) by (intros k h v Hk; apply without_given; [exact Pk|]; intros n; apply (Nf k h n Hk)).
    assert (Fi : filter (unnamed_by (f :: fs)) kw = filter (unnamed_by fs) kw').
    { unfold kw', without. destruct (fo_name f) as [n|] eqn:E.
      - rewrite filter_filter. apply filter_ext. intros [m v]. unfold unnamed_by. cbn. rewrite E, negb_orb. reflexivity.
      - apply filter_ext. intros [m v]. unfold unnamed_by. cbn. rewrite E. reflexivity. }
    assert (Go : forall v kw1, (keyword f kw = Some v /\ kw1 = kw') \/ (keyword f kw = None /\ fo_default f = Some v /\ kw1 = kw) ->
      (if refused f v then None else match remaining is_none kw1 fs with Some (vs, rest) => Some (v :: vs, rest) | None => None end) = Some (vs, rest) <->
      length vs = length (f :: fs) /\ (forall k h w, nth_error (f :: fs) k = Some h -> nth_error vs k = Some w -> (given_as kw h w \/ (forall w, ~ given_as kw h w) /\ fo_default h = Some w) /\ refused h w = false) /\
      rest = filter (unnamed_by (f :: fs)) kw).
    { intros v kw1 C. assert (Pk1 : proper_keywords kw1) by (destruct C as [[_ ->]|(_ & _ & ->)]; assumption).
      assert (G1 : forall k h w, nth_error fs k = Some h -> given_as kw1 h w <-> given_as kw h w) by (destruct C as [[_ ->]|(_ & _ & ->)]; [exact G|reflexivity]).
      assert (F1 : filter (unnamed_by (f :: fs)) kw = filter (unnamed_by fs) kw1).
      { destruct C as [[_ ->]|(E & _ & ->)]; [exact Fi|]. apply filter_ext_in. intros [m w] Hi. unfold unnamed_by. cbn. destruct (fo_name f) as [n|] eqn:En; [|reflexivity].
        destruct (str_eqb m n) eqn:Em; [|reflexivity]. exfalso. apply str_eqb_iff in Em. subst m. apply (proj1 (keyword_none kw f Pk) E w). exists n. auto. }
      assert (Hv : given_as kw f v \/ (forall w, ~ given_as kw f w) /\ fo_default f = Some v).
      { destruct C as [[E _]|(E & D & _)]; [left; apply keyword_some; assumption|right; split; [apply keyword_none; assumption|exact D]]. }
      assert (Un : forall w, (given_as kw f w \/ (forall w, ~ given_as kw f w) /\ fo_default f = Some w) -> w = v).
      { intros w [Gw|[Gw Dw]]; destruct C as [[E _]|(E & D & _)].
        - apply (keyword_some kw f w Pk) in Gw. congruence.
        - destruct (proj1 (keyword_none kw f Pk) E w Gw).
        - apply (keyword_some kw f v Pk) in E. destruct (Gw v E).
        - congruence. }
      rewrite F1. destruct (refused f v) eqn:R.
      - split; [discriminate|]. intros (Hl & H & _). destruct vs as [|w vs]; [discriminate|]. destruct (H 0 f w eq_refl eq_refl) as [H1 H2]. rewrite (Un w H1) in H2. congruence.
      - destruct (remaining is_none kw1 fs) as [[vs1 rest1]|] eqn:Er.
        + destruct (proj1 (IH kw1 vs1 rest1 Pk1 Di') Er) as (L1 & H1 & R1). split.
          * intros [= <- <-]. split; [cbn; congruence|]. split; [|exact R1]. intros [|k] h w Hk Hw; [injection Hk as <-; injection Hw as <-; auto|].
            destruct (H1 k h w Hk Hw) as [H2 H3]. split; [|exact H3]. assert (Gh := G1 k h). destruct H2 as [H2|[H2 H4]]; [left; apply Gh; assumption|right; split; [|exact H4]; intros y Hy; apply (H2 y), Gh; assumption].
          * intros (Hl & H & ->). destruct vs as [|w vs]; [discriminate|]. destruct (H 0 f w eq_refl eq_refl) as [Hw _]. rewrite (Un w Hw). f_equal. f_equal; [|congruence]. f_equal.
            assert (E : remaining is_none kw1 fs = Some (vs, filter (unnamed_by fs) kw1)).
            { apply IH; try assumption. split; [cbn in Hl; lia|]. split; [|reflexivity]. intros k h y Hk Hy. destruct (H (S k) h y Hk Hy) as [H2 H3]. split; [|exact H3].
              assert (Gh := G1 k h). destruct H2 as [H2|[H2 H4]]; [left; apply Gh; assumption|right; split; [|exact H4]; intros z Hz; apply (H2 z), (Gh z Hk), Hz]. }
            congruence.
        + split; [discriminate|]. intros (Hl & H & ->). destruct vs as [|w vs]; [discriminate|]. exfalso.
          assert (E : remaining is_none kw1 fs = Some (vs, filter (unnamed_by fs) kw1)); [|congruence].
          apply IH; try assumption. split; [cbn in Hl; lia|]. split; [|reflexivity]. intros k h y Hk Hy. destruct (H (S k) h y Hk Hy) as [H2 H3]. split; [|exact H3].
          assert (Gh := G1 k h). destruct H2 as [H2|[H2 H4]]; [left; apply Gh; assumption|right; split; [|exact H4]; intros z Hz; apply (H2 z), (Gh z Hk), Hz]. }
    destruct (keyword f kw) as [v|] eqn:E.
    + apply Go. auto.
    + destruct (fo_default f) as [v|] eqn:D; cbn [option_map].
      * apply Go. auto.
      * split; [discriminate|]. intros (Hl & H & _). destruct vs as [|w vs]; [discriminate|]. destruct (H 0 f w eq_refl eq_refl) as [[H1|[_ H1]] _]; [|congruence].
        exfalso. exact (proj1 (keyword_none kw f Pk) E w H1).
Qed.

Notation bind_for := (bind_for is_none default x o).
Notation fits := (fits is_none default x o).
Notation formals := (formals default o).
Notation passes := (passes default accepts o).
Notation suits := (suits is_none default accepts x o).
Notation try := (try is_none default accepts x o).
Notation chosen := (chosen is_none default accepts x o).
Notation dispatch := (dispatch is_none default accepts x o).
Notation sensible := (sensible accepts o).

Lemma nth_skipn {A} (l : list A) n k : nth_error (skipn n l) k = nth_error l (n + k).
Proof. revert l. induction n as [|n IH]; intros [|a l]; cbn; try reflexivity; [destruct k; reflexivity|apply IH]. Qed.

Lemma firstn_nth {A} (l : list A) n k v : nth_error (firstn n l) k = Some v -> nth_error l k = Some v.
Proof. revert l k. induction n as [|n IH]; intros [|a l] [|k] H; cbn in H; try discriminate; [exact H|exact (IH l k H)]. Qed.

Lemma distinct_skipn (fs : list formal) n : distinct_formals fs -> distinct_formals (skipn n fs).
Proof. intros D j k f h m H1 H2 H3 H4 H5. rewrite nth_skipn in H1. rewrite nth_skipn in H2. assert (E := D _ _ f h m H1 H2 H3 H4 H5). lia. Qed.

Lemma refused_iff (f : formal) v : refused f v = false <-> (is_none v = true -> fo_none f = true).
Proof. unfold DispatchSpec.refused. destruct (is_none v), (fo_none f); cbn; split; auto; intros H; specialize (H eq_refl); discriminate. Qed.

Lemma bind_iff s pos kw b : proper_keywords kw -> distinct_formals (formals s) -> bind_for s pos kw = Some b <-> fits s pos kw b.
Proof.
  intros Pk Di. unfold DispatchSpec.bind_for, bind. set (fs := formals s) in *.
  assert (Lp : forall vs : list V, vs = firstn (length fs) pos -> length vs = Nat.min (length fs) (length pos)) by (intros vs ->; apply firstn_length).
  split.
  - destruct (negb _ && _) eqn:Ev; [discriminate|]. destruct (positional is_none kw fs pos) as [got|] eqn:Ep; [|discriminate].
    destruct (remaining is_none kw (skipn (length pos) fs)) as [[more rest]|] eqn:Er; [|discriminate]. destruct (negb _ && negb _) eqn:Ek; [discriminate|].
    intros H. injection H as <-. apply positional_iff in Ep as [-> Hp]; [|exact Pk]. apply remaining_iff in Er as (Lr & Hr & ->); [|exact Pk|apply distinct_skipn, Di]. rewrite skipn_length in Lr.
    constructor; cbn [bi_values bi_args bi_kwargs]; fold fs.
    + rewrite app_length, firstn_length, Lr. lia.
    + intros k f v Hf Hv. destruct (Nat.lt_ge_cases k (length (firstn (length fs) pos))) as [L|L].
      * rewrite nth_error_app1 in Hv by exact L. apply firstn_nth in Hv. destruct (Hp k f v Hf Hv) as [H1 H2]. split; [left; auto|apply refused_iff, H2].
      * rewrite nth_error_app2 in Hv by exact L. rewrite firstn_length in Hv, L. assert (k < length fs) by (apply nth_error_Some; congruence).
        replace (Nat.min (length fs) (length pos)) with (length pos) in * by lia. destruct (Hr (k - length pos) f v) as [H1 H2]; [rewrite nth_skipn; replace (length pos + (k - length pos)) with k by lia; exact Hf|exact Hv|].
        split; [right; split; [exact L|exact H1]|apply refused_iff, H2].
    + split; [symmetry; apply firstn_skipn|]. intros Hn. destruct (collects x is_args s); [reflexivity|]. cbn in Ev. apply Nat.ltb_ge in Ev. exfalso. apply Hn. apply skipn_all2, Ev.
    + apply filter_ext. intros [n v]. reflexivity.
    + intros Hn. destruct (collects x is_kwargs s); [reflexivity|]. cbn in Ek. exfalso. apply Hn. destruct (filter _ kw); [reflexivity|discriminate].
  - intros [Hl Hv [Ha Ha'] Hk Hk']. fold fs in Hl, Hv, Ha, Hk.
    assert (Eargs : bi_args b = skipn (length fs) pos). { rewrite <- (firstn_skipn (length fs) pos) in Ha at 1. apply app_inv_head in Ha. symmetry. exact Ha. }
    replace (negb (collects x is_args s) && Nat.ltb (length fs) (length pos)) with false.
    2: { destruct (collects x is_args s) eqn:Ec; [reflexivity|]. cbn. symmetry. apply Nat.ltb_ge. destruct (Nat.le_gt_cases (length pos) (length fs)) as [L|L]; [exact L|]. exfalso.
         assert (false = true); [|discriminate]. apply Ha'. rewrite Eargs. intros E. apply (f_equal (@length V)) in E. rewrite skipn_length in E. cbn in E. lia. }
    assert (Vs : forall k v, nth_error (bi_values b) k = Some v -> exists f, nth_error fs k = Some f).
    { intros k v E. destruct (nth_error fs k) as [f|] eqn:Ef; [eauto|]. apply nth_error_None in Ef. assert (k < length (bi_values b)) by (apply nth_error_Some; congruence). lia. }
    assert (Ep : positional is_none kw fs pos = Some (firstn (length fs) pos)).
    { apply positional_iff; [exact Pk|]. split; [reflexivity|]. intros k f v Hf Hp. destruct (nth_error (bi_values b) k) as [w|] eqn:Ew.
      - destruct (Hv k f w Hf Ew) as [[[H1 H2]|[H1 _]] H3].
        + replace v with w by congruence. split; [exact H2|apply refused_iff, H3].
        + apply nth_error_None in H1. congruence.
      - apply nth_error_None in Ew. assert (k < length fs) by (apply nth_error_Some; congruence). lia. }
    rewrite Ep.
    assert (Evs : bi_values b = firstn (length fs) pos ++ skipn (length pos) (bi_values b)).
    { rewrite <- (firstn_skipn (length pos) (bi_values b)) at 1. f_equal. apply nth_ext_err. intros k. destruct (Nat.lt_ge_cases k (Nat.min (length fs) (length pos))) as [L|L].
      - assert (k < length (bi_values b)) by lia. destruct (nth_error (bi_values b) k) as [v|] eqn:Ev; [|apply nth_error_None in Ev; lia].
        destruct (Vs k v Ev) as [f Ef]. rewrite !nth_firstn_lt by lia. rewrite Ev. destruct (Hv k f v Ef Ev) as [[[H1 _]|[H1 _]] _]; [congruence|lia].
      - rewrite !(proj2 (nth_error_None _ _)); [reflexivity| |]; rewrite firstn_length; lia. }
    assert (Er : remaining is_none kw (skipn (length pos) fs) = Some (skipn (length pos) (bi_values b), bi_kwargs b)).
    { apply remaining_iff; [exact Pk|apply distinct_skipn, Di|]. split; [rewrite !skipn_length; congruence|]. split.
      - intros k f v Hf Hw. rewrite nth_skipn in Hf. rewrite nth_skipn in Hw. destruct (Hv _ f v Hf Hw) as [[[H1 _]|[_ H1]] H2].
        + assert (length pos + k < length pos); [|lia]. apply nth_error_Some. congruence.
        + split; [exact H1|apply refused_iff, H2].
      - rewrite Hk. apply filter_ext. intros [n v]. reflexivity. }
    rewrite Er. replace (negb (collects x is_kwargs s) && negb (is_empty (bi_kwargs b))) with false.
    2: { destruct (collects x is_kwargs s) eqn:Ec; [reflexivity|]. destruct (bi_kwargs b) as [|p l]; [reflexivity|]. assert (false = true) by (apply Hk'; discriminate). discriminate. }
    rewrite <- Evs, <- Eargs. destruct b; reflexivity.
Qed.

Lemma loads_iff s convert k fs vs : loads accepts s convert k fs vs = true <-> forall j f v, nth_error fs j = Some f -> nth_error vs j = Some v -> accepts s (k + j) (convert && fo_convert f) v = true.
Proof.
  revert k vs. induction fs as [|f fs IH]; intros k vs; cbn [loads].
  - split; [intros _ [|j] ? ? H; discriminate|reflexivity].
  - destruct vs as [|v vs]; [split; [intros _ [|j] ? ? _ H; discriminate|reflexivity]|]. rewrite andb_true_iff, IH. split.
    + intros [H1 H2] [|j] h w Hh Hw; [injection Hh as <-; injection Hw as <-; rewrite Nat.add_0_r; exact H1|]. rewrite <- Nat.add_succ_comm. exact (H2 j h w Hh Hw).
    + intros H. split; [rewrite <- (Nat.add_0_r k); exact (H 0 f v eq_refl eq_refl)|]. intros j h w Hh Hw. rewrite Nat.add_succ_comm. exact (H (S j) h w Hh Hw).
Qed.

Lemma try_iff convert pos kw s t b : proper_keywords kw -> distinct_formals (formals s) -> try convert pos kw s = Some (t, b) <-> t = s /\ suits convert pos kw s b.
Proof.
  intros Pk Di. unfold DispatchSpec.try, DispatchSpec.suits. destruct (bind_for s pos kw) as [c|] eqn:E.
  - assert (F := proj1 (bind_iff s pos kw c Pk Di) E). destruct (loads accepts s convert 0 (formals s) (bi_values c)) eqn:L.
    + assert (P : passes convert s c) by (intros j f v; exact (proj1 (loads_iff s convert 0 _ _) L j f v)). split.
      * intros H. injection H as <- <-. auto.
      * intros (-> & F' & _). apply (bind_iff s pos kw b Pk Di) in F'. congruence.
    + split; [discriminate|]. intros (-> & F' & P). apply (bind_iff s pos kw b Pk Di) in F'. assert (c = b) by congruence. subst c.
      assert (loads accepts s convert 0 (formals s) (bi_values b) = true) by (apply loads_iff; exact P). congruence.
  - split; [discriminate|]. intros (-> & F' & _). apply (bind_iff s pos kw b Pk Di) in F'. congruence.
Qed.

Lemma try_none convert pos kw s : proper_keywords kw -> distinct_formals (formals s) -> try convert pos kw s = None <-> forall b, ~ suits convert pos kw s b.
Proof.
  intros Pk Di. split.
  - intros E b H. assert (E' := proj2 (try_iff convert pos kw s s b Pk Di) (conj eq_refl H)). congruence.
  - intros H. destruct (try convert pos kw s) as [[t b]|] eqn:E; [|reflexivity]. apply try_iff in E as [-> E]; [|assumption..]. destruct (H b E).
Qed.

Lemma suits_weaken l pos kw s b : sensible l -> In s l -> suits false pos kw s b -> suits true pos kw s b.
Proof.
  intros [Se _] Hi [F P]. split; [exact F|]. intros k f v Hf Hv. specialize (P k f v Hf Hv). cbn in P. cbn. destruct (fo_convert f); [apply Se; assumption|exact P].
Qed.

Lemma suits_strengthen l pos kw s b : sensible l -> In s l -> convertible default o s = false -> suits true pos kw s b -> suits false pos kw s b.
Proof.
  intros [_ Se] Hi C [F P]. split; [exact F|]. intros k f v Hf Hv. specialize (P k f v Hf Hv). cbn in P. cbn. destruct (fo_convert f) eqn:E; [|exact P].
  unfold convertible in C. assert (N : forall j h, nth_error (skipn (if is_method_of o s then 1 else 0) (formals s)) j = Some h -> fo_convert h = false).
  { intros j h Hj. destruct (fo_convert h) eqn:Eh; [|reflexivity]. apply nth_error_In in Hj. assert (existsb fo_convert (skipn (if is_method_of o s then 1 else 0) (formals s)) = true) by (apply existsb_exists; eauto). congruence. }
  destruct (is_method_of o s) eqn:M.
  - destruct k as [|k]; [apply Se; assumption|]. specialize (N k f). rewrite nth_skipn in N. specialize (N Hf). congruence.
  - specialize (N k f). rewrite nth_skipn in N. specialize (N Hf). congruence.
Qed.

Theorem dispatch_chosen l pos kw s b : proper_keywords kw -> (forall t, In t l -> distinct_formals (formals t)) -> sensible l -> dispatch l pos kw = Some (s, b) <-> chosen l pos kw s b.
Proof.
  intros Pk Di Se.
  assert (General : match first_some (try false pos kw) l with Some r => Some r | None => first_some (fun s => if convertible default o s then try true pos kw s else None) l end = Some (s, b) <-> chosen l pos kw s b).
  { destruct (first_some (try false pos kw) l) as [[t c]|] eqn:E1.
    - apply first_some_iff in E1 as (before & t' & after & El & Et & Eb). assert (It : In t' l) by (rewrite El; apply in_elt).
      apply try_iff in Et as [-> Et]; [|exact Pk|apply Di, It]. assert (Nb : forall q d, In q before -> ~ suits false pos kw q d).
      { intros q d Hq. apply (proj1 (try_none false pos kw q Pk (Di q ltac:(rewrite El; apply in_or_app; auto))) (Eb q Hq)). }
      split.
      + intros H. injection H as <- <-. exists before, after, false. split; [exact El|]. split; [exact Et|]. split; [exact Nb|discriminate].
      + intros (before' & after' & convert & El' & Es & Nb' & Nc). destruct convert.
        * destruct (Nc eq_refl t' c It Et).
        * assert (H : before = before' /\ t' = s /\ after = after').
          { rewrite El in El'. clear -El' Nb Nb' Et Es. revert before' El' Nb'. induction before as [|q before IH]; intros [|q' before'] El' Nb'; cbn in El'; injection El' as E1 E2.
            - auto.
            - subst. destruct (Nb' q' c (or_introl eq_refl) Et).
            - subst. destruct (Nb s b (or_introl eq_refl) Es).
            - subst q'. destruct (IH (fun p d Hp => Nb p d (or_intror Hp)) before' E2 (fun p d Hp => Nb' p d (or_intror Hp))) as (-> & -> & ->). auto. }
          destruct H as (_ & -> & _). f_equal. f_equal. assert (H1 := proj2 (try_iff false pos kw s s c Pk (Di s It)) (conj eq_refl Et)). assert (H2 := proj2 (try_iff false pos kw s s b Pk (Di s It)) (conj eq_refl Es)). congruence.
    - assert (Nf : forall t c, In t l -> ~ suits false pos kw t c).
      { intros t c Ht. apply (proj1 (try_none false pos kw t Pk (Di t Ht))). exact (proj1 (first_some_none _ _) E1 t Ht). }
      assert (Tr : forall t q c, In t l -> (if convertible default o t then try true pos kw t else None) = Some (q, c) <-> q = t /\ suits true pos kw t c).
      { intros t q c Ht. destruct (convertible default o t) eqn:C; [apply try_iff; [exact Pk|apply Di, Ht]|]. split; [discriminate|]. intros [_ H]. destruct (Nf t c Ht). apply (suits_strengthen l); assumption. }
      rewrite first_some_iff. split.
      + intros (before & t & after & El & Et & Eb). assert (It : In t l) by (rewrite El; apply in_elt). apply (Tr t s b It) in Et as [-> Et].
        exists before, after, true. split; [exact El|]. split; [exact Et|]. split; [|intros _; exact Nf]. intros q c Hq H. assert (Iq : In q l) by (rewrite El; apply in_or_app; auto).
        assert (E := proj2 (Tr q q c Iq) (conj eq_refl H)). rewrite (Eb q Hq) in E. discriminate.
      + intros (before & after & convert & El & Es & Nb & _). assert (It : In s l) by (rewrite El; apply in_elt). destruct convert; [|destruct (Nf s b It Es)].
        exists before, s, after. split; [exact El|]. split; [apply (Tr s s b It); auto|]. intros q Hq. assert (Iq : In q l) by (rewrite El; apply in_or_app; auto).
        destruct (if convertible default o q then try true pos kw q else None) as [[q' c]|] eqn:E; [|reflexivity]. apply (Tr q q' c Iq) in E as [_ E]. destruct (Nb q c Hq E). }
  destruct l as [|t [|t' l]]; [exact General| |exact General]. clear General. cbn [DispatchSpec.dispatch]. assert (It : In t [t]) by (left; reflexivity).
  rewrite try_iff; [|exact Pk|apply Di, It]. split.
  - intros [-> H]. destruct (try false pos kw t) as [[q c]|] eqn:E.
    + apply try_iff in E as [-> E]; [|exact Pk|apply Di, It]. assert (Hb : c = b).
      { assert (H1 := proj2 (try_iff true pos kw t t b Pk (Di t It)) (conj eq_refl H)). assert (H2 := proj2 (try_iff true pos kw t t c Pk (Di t It)) (conj eq_refl (suits_weaken _ _ _ _ _ Se It E))). congruence. }
      subst c. exists [], [], false. split; [reflexivity|]. split; [exact E|]. split; [intros ? ? []|discriminate].
    + exists [], [], true. split; [reflexivity|]. split; [exact H|]. split; [intros ? ? []|]. intros _ q c [<-|[]]. exact (proj1 (try_none false pos kw t Pk (Di t It)) E c).
  - intros (before & after & convert & El & Es & _ & _). destruct before as [|q [|]]; cbn in El; [|discriminate El|discriminate El]. injection El as <- <-. split; [reflexivity|].
    destruct convert; [exact Es|apply (suits_weaken [t]); assumption].
Qed.

Theorem dispatch_none l pos kw : proper_keywords kw -> (forall t, In t l -> distinct_formals (formals t)) -> sensible l -> dispatch l pos kw = None <-> forall s b, In s l -> ~ suits true pos kw s b.
Proof.
  intros Pk Di Se. split.
  - intros E s b Hs H. assert (No : forall t c, ~ chosen l pos kw t c) by (intros t c C; apply dispatch_chosen in C; [congruence|assumption..]).
    destruct (first_some (try false pos kw) l) as [[t c]|] eqn:E1.
    + apply first_some_iff in E1 as (before & t' & after & El & Et & Eb). assert (It : In t' l) by (rewrite El; apply in_elt). apply try_iff in Et as [-> Et]; [|exact Pk|apply Di, It].
      apply (No t' c). exists before, after, false. split; [exact El|]. split; [exact Et|]. split; [|discriminate]. intros q d Hq. apply (proj1 (try_none false pos kw q Pk (Di q ltac:(rewrite El; apply in_or_app; auto))) (Eb q Hq)).
    + assert (Nf : forall t c, In t l -> ~ suits false pos kw t c). { intros t c Ht. apply (proj1 (try_none false pos kw t Pk (Di t Ht))). exact (proj1 (first_some_none _ _) E1 t Ht). }
      destruct (first_some (try true pos kw) l) as [[t c]|] eqn:E2.
      * apply first_some_iff in E2 as (before & t' & after & El & Et & Eb). assert (It : In t' l) by (rewrite El; apply in_elt). apply try_iff in Et as [-> Et]; [|exact Pk|apply Di, It].
        apply (No t' c). exists before, after, true. split; [exact El|]. split; [exact Et|]. split; [|intros _; exact Nf]. intros q d Hq. apply (proj1 (try_none true pos kw q Pk (Di q ltac:(rewrite El; apply in_or_app; auto))) (Eb q Hq)).
      * exact (proj1 (try_none true pos kw s Pk (Di s Hs)) (proj1 (first_some_none _ _) E2 s Hs) b H).
  - intros H. destruct (dispatch l pos kw) as [[s b]|] eqn:E; [|reflexivity]. apply dispatch_chosen in E; [|assumption..]. destruct E as (before & after & convert & El & Es & _). assert (Is : In s l) by (rewrite El; apply in_elt).
    destruct convert; [destruct (H s b Is Es)|destruct (H s b Is (suits_weaken l pos kw s b Se Is Es))].
Qed.
End Calls.

(** ** Parameters as declared *)

Lemma formals_from_nth {V} (default : nat -> nat -> V) f args : forall k j, nth_error (formals_from default f k args) j =
  option_map (fun a => mkFormal (Some (ar_name a)) (negb (ar_noconvert a)) (negb (ar_required a)) (option_map (fun _ => default f (k + j)) (ar_default a))) (nth_error args j).
Proof.
  induction args as [|a args IH]; intros k [|j]; cbn; try reflexivity; [rewrite Nat.add_0_r; reflexivity|]. rewrite IH, <- Nat.add_succ_comm. reflexivity.
Qed.

Lemma formals_from_length {V} (default : nat -> nat -> V) f args : forall k, length (formals_from default f k args) = length args.
Proof. induction args as [|a args IH]; intros k; cbn; [reflexivity|]. f_equal. apply IH. Qed.

Lemma ordinary_first ps : variadic_last ps -> described_params ps = filter is_ordinary ps /\
  forall k p, nth_error (filter is_ordinary ps) k = Some p -> nth_error ps k = Some p /\ forall q, In q (firstn (S k) ps) -> is_ordinary q = true.
Proof.
  intros (l1 & l2 & -> & O1 & O2 & V).
  assert (F1 : filter is_ordinary l1 = l1). { clear -O1. induction l1 as [|p l IH]; [reflexivity|]. cbn. rewrite (O1 p (or_introl eq_refl)). f_equal. apply IH. intros q Hq. apply O1. right. exact Hq. }
  assert (F2 : filter is_ordinary l2 = []). { clear -O2. induction l2 as [|p l IH]; [reflexivity|]. cbn. rewrite (O2 p (or_introl eq_refl)). apply IH. intros q Hq. apply O2. right. exact Hq. }
  assert (F : filter is_ordinary (l1 ++ l2) = l1) by (rewrite filter_app, F1, F2; apply app_nil_r). rewrite F. split.
  - unfold described_params. assert (T : exists l, take_while (fun p => negb (is_kwargs p)) (l1 ++ l2) = l1 ++ l /\ filter is_ordinary l = []).
    { clear -O1 F2. induction l1 as [|p l1 IH]; cbn.
      - exists (take_while (fun p => negb (is_kwargs p)) l2). split; [reflexivity|]. clear -F2. induction l2 as [|p l IH]; [reflexivity|]. cbn in F2. destruct (is_ordinary p) eqn:E; [discriminate|]. cbn. destruct (is_kwargs p); cbn; [reflexivity|]. rewrite E. apply IH, F2.
      - assert (K : is_kwargs p = false). { assert (H := O1 p (or_introl eq_refl)). unfold is_ordinary in H. unfold is_kwargs. destruct (pm_variadic p); [discriminate|reflexivity]. }
        rewrite K. cbn. destruct IH as (l & -> & H); [intros q Hq; apply O1; right; exact Hq|]. exists l. auto. }
    destruct T as (l & -> & Hl). rewrite filter_app, F1, Hl. apply app_nil_r.
  - intros k p Hk. assert (k < length l1) by (apply nth_error_Some; congruence). split; [rewrite nth_error_app1; assumption|].
    intros q Hq. apply O1. rewrite firstn_app in Hq. replace (S k - length l1) with 0 in Hq by lia. cbn [firstn] in Hq. rewrite app_nil_r in Hq.
    rewrite <- (firstn_skipn (S k) l1). apply in_or_app. left. exact Hq.
Qed.

Lemma function_arguments t f : function_of t = Some f -> exists args, has_arguments t f args.
Proof. destruct t; try discriminate; intros [= <-]; [eexists; left; eauto|eexists; right; eauto]. Qed.

Section Declared.
Context {V : Type} (default : nat -> nat -> V) (u : unit) (w : facts).

Lemma self_iff x e i a t o f : EmitSpec.bound u x e i a t -> function_of t = Some f -> is_method_of o t = true <-> takes_self u o f.
Proof.
  assert (Hf : forall s, bound_function u x i a s -> function_of s = Some f -> is_method_of o s = true <-> takes_self u o f).
  { intros s [static n args H1 H2 _ _ _ Hs _] Q. injection Q as <-. cbn. unfold takes_self. rewrite andb_true_iff, negb_true_iff. split.
    - intros [H ->]. right. split; [exact H|]. intros K. apply Hs in K. discriminate.
    - intros [H|[H N]]; [contradiction|]. split; [exact H|]. destruct static; [|reflexivity]. destruct N. apply Hs. reflexivity. }
  assert (Ha : forall s, bound_alias u x i a s -> function_of s = Some f -> False) by (intros s [] Q; discriminate Q).
  destruct e; cbn [EmitSpec.bound]; intros Hb E; destruct Hb; try discriminate; eauto; try (exfalso; eauto; fail).
  injection E as <-. cbn. split; [intros _; left; assumption|reflexivity].
Qed.

Lemma declared_formals vis st st' e rs t f ans o : body_of u w vis st st' e rs -> faithful u st -> In t (ex_body e) -> function_of t = Some f ->
  consistent u (w_extra w) f -> valid_annotations (u_decls u f) -> carried (d_attrs (u_decls u f)) ans false -> variadic_last (fi_params (x_fn (w_extra w) f)) ->
  (is_method_of o t = true <-> takes_self u o f) /\ as_declared (default f) (fi_params (x_fn (w_extra w) f)) ans (is_method_of o t) (formals default o t).
Proof.
  intros (x & st1 & st2 & Hc & D & _ & _ & Ff) Fa Ht Hf C Va Ca Vl. destruct (function_arguments _ _ Hf) as (args & Hm).
  assert (Hcl : closing t = false) by (destruct Hm as [(? & ? & ? & ->)|(? & ? & ->)]; reflexivity).
  destruct (proj1 (in_parts _ _ _ _ _ _ _ _ _ D t Hcl) Ht) as (i & Hin & a & Ha & Hsh & Hb).
  split; [eapply self_iff; eassumption|].
  destruct (bound_parameters _ _ _ _ _ _ Hb _ _ Hm) as (-> & Hsf & [Hlen _]).
  assert (Ho : own_attributes u i a).
  { apply (define_faithful _ _ _ _ _ _ _ _ _ D (Ff Fa)); [|exact Ha]. unfold is_tag_kind, kind. unfold supports_function in Hsf. destruct (d_kind (u_decls u i)); try discriminate; reflexivity. }
  destruct Ho as (st0 & ds & Hi & Hl).
  assert (Hskip : d_skip (u_decls u i) = false).
  { destruct (d_skip (u_decls u i)) eqn:Es; [|reflexivity]. exfalso. unfold insert in Hi. rewrite Es in Hi. injection Hi as <- <-. discriminate Hl. }
  assert (He : ~ has_error ds) by (intros E; apply (insert_valid _ _ _ _ Hi Hskip) in E; contradiction).
  destruct (flags_reach _ _ _ _ _ _ _ _ _ D (Ff Fa) t i args Ht Hm C st0 ds Hi He) as (ans' & Ca' & H).
  destruct (carried_unique _ _ _ Ca' _ _ Ca) as [-> _]. destruct (ordinary_first _ Vl) as [Ed Ep].
  exists (formals_from default i 0 args). split; [rewrite formals_from_length, Hlen, Ed; reflexivity|]. split.
  - destruct Hm as [(? & ? & ? & ->)|(? & ? & ->)]; cbn [formals]; unfold formals_with_self; reflexivity.
  - intros k p Hp. destruct (Ep k p Hp) as [Hp' Hord]. destruct (H k p Hp' Hord) as (g & Hg & Hn & Hd & Hfl). rewrite formals_from_nth, Hg. cbn [option_map]. eexists. split; [reflexivity|]. cbn [fo_name fo_default fo_convert fo_none].
    split; [congruence|]. split; [rewrite Hd; reflexivity|]. intros U. rewrite !negb_false_iff. exact (Hfl U).
Qed.
End Declared.

(** ** Calls in the module *)

Section Module.
Context {V : Type} (is_none : V -> bool) (default : nat -> nat -> V) (accepts : stmt -> nat -> bool -> V -> bool).
Context (default_holder : str -> bool) (mro : nat -> list nat) (manual : nat -> object -> pystate -> option pystate) (fails : stmt -> bool).
Context (u : unit) (w : facts) (found : nat -> list nat) (implicit : nat -> bool) (iteration : list nat -> list nat) (n : nat) (name : str) (b : bstate).
Context (files : list (list item)) (rs : list ereport) (st' : storage) (m : item) (s : ImportSpec.state) (p : pystate).
Hypothesis (Se : setting u w iteration) (Hn : 0 < n) (HG : generate u w found implicit iteration n name = Some (RGraph b (EWritten files rs st'))).
Hypothesis (M : adds_nothing manual) (R : run_module mro manual fails default_holder files m = Some (s, p)).

Lemma overload_origin o k static l t : own p o k = Some (MFunction static l) -> In t l ->
  exists vis st2 e r, body_of u w vis (bs_annotations b) st2 e r /\ faithful u (bs_annotations b) /\ In t (ex_body e).
Proof.
  intros Ho Ht. destruct (run_written _ _ _ _ _ Se _ _ _ _ _ _ Hn HG) as (g & vis & order & all & chunks & post & X & G & Ly & Hlen & _).
  assert (Hf : 0 < length files) by lia.
  assert (H : exists e, In e all /\ In t (ex_body e)).
  { refine (only_module mro manual fails M (fun t => exists e, In e all /\ In t (ex_body e)) files _ default_holder m s p R t _).
    - intros id q body s0 Hi Hs. destruct (definitions_in _ _ _ _ _ Ly Hf id q body Hi) as (e & He & <-). eauto.
    - left. exists o, k, (MFunction static l). split; [exact Ho|exact Ht]. }
  destruct H as (e & He & Hte). destruct (ge_bodies _ _ _ _ _ _ _ _ _ _ _ G) as (rss & Fb & _). destruct (forall2_in_l _ _ _ _ Fb He) as (r & _ & B).
  destruct (exposed_graph _ _ _ _ _ Se _ _ _ _ X) as (_ & _ & _ & Fa & _). exists vis, st', e, r. auto.
Qed.

(** The function has the parameters it is declared with. *)
Theorem overloads_declared o k static l t f ans : own p o k = Some (MFunction static l) -> In t l -> function_of t = Some f ->
  consistent u (w_extra w) f -> valid_annotations (u_decls u f) -> carried (d_attrs (u_decls u f)) ans false -> variadic_last (fi_params (x_fn (w_extra w) f)) ->
  (is_method_of o t = true <-> takes_self u o f) /\ as_declared (default f) (fi_params (x_fn (w_extra w) f)) ans (is_method_of o t) (formals default o t).
Proof. intros Ho Ht Hf C Va Ca Vl. destruct (overload_origin _ _ _ _ _ Ho Ht) as (vis & st2 & e & r & B & Fa & Hte). eapply declared_formals; eassumption. Qed.

Theorem calls_honoured o k static l t f ans pos kw bi convert : own p o k = Some (MFunction static l) -> In t l -> function_of t = Some f ->
  consistent u (w_extra w) f -> valid_annotations (u_decls u f) -> carried (d_attrs (u_decls u f)) ans false -> variadic_last (fi_params (x_fn (w_extra w) f)) ->
  suits is_none default accepts (w_extra w) o convert pos kw t bi ->
  exists self, (takes_self u o f <-> self = 1) /\ (~ takes_self u o f <-> self = 0) /\
    forall j q, nth_error (filter is_ordinary (fi_params (x_fn (w_extra w) f))) j = Some q ->
      exists v, nth_error (bi_values bi) (self + j) = Some v /\ source pos kw (self + j) q (default f j) v /\
        (own_name (fi_params (x_fn (w_extra w) f)) j q ->
          (named_by Required ans (pm_name q) -> is_none v = false) /\ (named_by Noconvert ans (pm_name q) -> accepts t (self + j) false v = true)).
Proof.
  intros Ho Ht Hf C Va Ca Vl [F P]. destruct (overloads_declared _ _ _ _ _ _ _ Ho Ht Hf C Va Ca Vl) as [Hs (fl & Lf & Ef & Hd)].
  set (ps := filter is_ordinary (fi_params (x_fn (w_extra w) f))) in *. exists (if is_method_of o t then 1 else 0).
  split; [rewrite <- Hs; destruct (is_method_of o t); split; congruence|]. split; [rewrite <- Hs; destruct (is_method_of o t); split; congruence|].
  intros j q Hq. destruct (Hd j q Hq) as (g & Hg & Gn & Gd & Gf).
  assert (Hfo : nth_error (formals default o t) ((if is_method_of o t then 1 else 0) + j) = Some g).
  { rewrite Ef. destruct (is_method_of o t); [|exact Hg]. destruct fl as [|h fl]; [destruct j; discriminate Hg|]. exact Hg. }
  set (i := (if is_method_of o t then 1 else 0) + j) in *.
  destruct (nth_error (bi_values bi) i) as [v|] eqn:Ev.
  2: { exfalso. apply nth_error_None in Ev. rewrite (ft_length _ _ _ _ _ _ _ _ F) in Ev. apply nth_error_None in Ev. congruence. }
  exists v. split; [reflexivity|]. destruct (ft_values _ _ _ _ _ _ _ _ F i g v Hfo Ev) as [H1 H2].
  assert (Gv : forall x, given_as kw g x <-> In (pm_name q, x) kw). { intros x. unfold given_as. rewrite Gn. split; [intros (nm & [= <-] & H); exact H|eauto]. }
  split.
  - destruct H1 as [[H1 N]|[L [H1|[N D]]]].
    + apply by_position; [exact H1|]. intros x Hx. apply (N x), Gv, Hx.
    + apply by_keyword; [exact L|]. apply Gv, H1.
    + rewrite Gd in D. destruct (pm_default q) as [d|] eqn:Eq; [|discriminate D]. injection D as <-. apply by_default; [exact L| |congruence]. intros x Hx. apply (N x), Gv, Hx.
  - intros U. destruct (Gf U) as [G1 G2]. split.
    + intros Hr. apply G2 in Hr. destruct (is_none v); [|reflexivity]. rewrite (H2 eq_refl) in Hr. discriminate.
    + intros Hc. apply G1 in Hc. specialize (P i g v Hfo Ev). rewrite Hc, andb_false_r in P. exact P.
Qed.
End Module.
