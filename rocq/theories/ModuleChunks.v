(** * Distribution over files and numbering of identifiers: proofs *)
From Coq Require Import DecimalString DecimalN DecimalFacts Sorting.Sorted.
From Verif Require Import Base ParserModel StringModel StringSpec StringProofs GraphModel ModuleModel ModuleSpec.

(** ** Buckets *)

Section Buckets.
Context {A : Type}.

(** Elements by index, those with [f index = j]. *)
Fixpoint select (f : nat -> nat) (j i : nat) (l : list A) : list A :=
  match l with [] => [] | x :: l' => (if Nat.eqb (f i) j then [x] else []) ++ select f j (S i) l' end.

Lemma select_app f j l : forall i l', select f j i (l ++ l') = select f j i l ++ select f j (i + length l) l'.
Proof.
  induction l as [|x l IH]; intros i l'; cbn [app select length]; [rewrite Nat.add_0_r; reflexivity|].
  rewrite IH, <- app_assoc. do 3 f_equal. lia.
Qed.

Lemma select_none f j l : forall i, (forall k, i <= k < i + length l -> f k <> j) -> select f j i l = [].
Proof.
  induction l as [|x l IH]; intros i H; cbn [select length] in *; [reflexivity|].
  rewrite IH by (intros k Hk; apply H; lia). destruct (Nat.eqb_spec (f i) j) as [E|E]; [|reflexivity]. exfalso. apply (H i); [lia|exact E].
Qed.

(** Buckets of a monotone function, in order, are the list. *)
Lemma select_concat f : (forall i i', i <= i' -> f i <= f i') ->
  forall m l i a, (forall k, i <= k < i + length l -> a <= f k < a + m) -> concat (map (fun j => select f j i l) (seq a m)) = l.
Proof.
  intros Mono. induction m as [|m IHm]; intros l i a H.
  - destruct l as [|x l]; [reflexivity|]. specialize (H i). cbn in H. lia.
  - cbn [seq map concat].
    assert (Hsplit : exists l1 l2, l = l1 ++ l2 /\ (forall k, i <= k < i + length l1 -> f k = a) /\ (forall k, i + length l1 <= k < i + length l -> a < f k)).
    { clear IHm. revert i H. induction l as [|x l IHl]; intros i H.
      - exists [], []. split; [reflexivity|]. split; cbn; intros k Hk; lia.
      - destruct (Nat.eq_dec (f i) a) as [E|E].
        + destruct (IHl (S i)) as (l1 & l2 & E1 & H1 & H2). { intros k Hk. apply H. cbn in *. lia. }
          exists (x :: l1), l2. split; [cbn; congruence|]. split; cbn [length]; intros k Hk.
          * destruct (Nat.eq_dec k i) as [->|]; [exact E|]. apply H1. lia.
          * apply H2. lia.
        + exists [], (x :: l). split; [reflexivity|]. split; cbn [length]; intros k Hk; [lia|].
          assert (f i <= f k) by (apply Mono; lia). specialize (H i). cbn [length] in H. lia. }
    destruct Hsplit as (l1 & l2 & -> & H1 & H2). rewrite app_length in *.
    rewrite select_app, (select_none f a l2), app_nil_r.
    2:{ intros k Hk E. specialize (H2 k). lia. }
    replace (select f a i l1) with l1.
    2:{ clear - H1. revert i H1. induction l1 as [|x l1 IH]; intros i H1; [reflexivity|]. cbn [select length] in *.
        rewrite (proj2 (Nat.eqb_eq _ _) (H1 i ltac:(lia))). cbn. f_equal. apply IH. intros k Hk. apply H1. lia. }
    f_equal. transitivity (concat (map (fun j => select f j (i + length l1) l2) (seq (S a) m))).
    2:{ apply IHm. intros k Hk. specialize (H k). specialize (H2 k). lia. }
    f_equal. apply map_ext_in. intros j Hj. apply in_seq in Hj. rewrite select_app, (select_none f j l1); [reflexivity|].
    intros k Hk E. rewrite H1 in E by exact Hk. lia.
Qed.

(** ** The chosen distribution *)

Variables (k n : nat).
Hypothesis Hk : 0 < k.
Hypothesis Hn : 0 < n.

Definition file_of (i : nat) : nat := i * k / n.

Lemma file_of_mono i i' : i <= i' -> file_of i <= file_of i'.
Proof. intros H. apply Nat.div_le_mono; [lia|]. apply Nat.mul_le_mono_r, H. Qed.

Lemma file_of_lt i : i < n -> file_of i < k.
Proof. intros H. apply Nat.div_lt_upper_bound; [lia|]. nia. Qed.

(** First index for file [j]. *)
Definition first_of (j : nat) : nat := (j * n + k - 1) / k.

Lemma first_of_le j i : first_of j <= i <-> j * n <= i * k.
Proof.
  unfold first_of. split; intros H.
  - pose proof (Nat.div_mod (j * n + k - 1) k ltac:(lia)) as E. pose proof (Nat.mod_upper_bound (j * n + k - 1) k ltac:(lia)). nia.
  - apply Nat.lt_succ_r, Nat.div_lt_upper_bound; [lia|]. nia.
Qed.

Lemma file_of_iff i j : file_of i = j <-> first_of j <= i < first_of (S j).
Proof.
  assert (E : i < first_of (S j) <-> i * k < S j * n) by (pose proof (first_of_le (S j) i); lia).
  rewrite E, first_of_le. unfold file_of. split.
  - intros <-. pose proof (Nat.div_mod (i * k) n ltac:(lia)). pose proof (Nat.mod_upper_bound (i * k) n ltac:(lia)). nia.
  - intros [H1 H2]. symmetry. apply (Nat.div_unique (i * k) n j (i * k - j * n)); nia.
Qed.

Lemma first_of_bound j : j <= k -> first_of j <= n.
Proof. intros H. apply first_of_le. nia. Qed.

Lemma first_of_step j : first_of j + n / k <= first_of (S j) <= first_of j + n / k + 1.
Proof.
  pose proof (Nat.div_mod n k ltac:(lia)) as En. pose proof (Nat.mod_upper_bound n k ltac:(lia)).
  split.
  - destruct (Nat.le_gt_cases (first_of j + n / k) (first_of (S j))) as [L|L]; [exact L|exfalso].
    assert (L' : first_of (S j) <= first_of j + n / k - 1) by lia. apply first_of_le in L'.
    destruct (Nat.eq_dec (first_of j + n / k) 0) as [Z|Z]; [lia|].
    destruct (Nat.eq_dec (first_of j) 0) as [Z'|Z'].
    + rewrite Z' in *. assert (first_of j <= 0) by lia. nia.
    + assert (~ first_of j <= first_of j - 1) by lia. rewrite first_of_le in H0. nia.
  - apply first_of_le. assert (first_of j <= first_of j) by lia. apply first_of_le in H0. nia.
Qed.

Lemma select_range lo hi j (l : list A) : (forall i, file_of i = j <-> lo <= i < hi) ->
  forall i, length (select file_of j i l) = Nat.min hi (i + length l) - Nat.max lo i.
Proof.
  intros H. induction l as [|x l IH]; intros i; cbn [select length]; [lia|].
  rewrite app_length, IH. destruct (Nat.eqb_spec (file_of i) j) as [E|E]; cbn [length].
  - apply H in E. lia.
  - assert (~ (lo <= i < hi)) by (rewrite <- H; exact E). lia.
Qed.

Lemma chunk_size (l : list A) j : length l = n -> j < k -> length (select file_of j 0 l) = n / k \/ length (select file_of j 0 l) = n / k + 1.
Proof.
  intros Hl Hj. rewrite (select_range (first_of j) (first_of (S j)) j) by (intros; apply file_of_iff).
  rewrite Hl. pose proof (first_of_step j). pose proof (first_of_bound (S j) Hj).
  generalize dependent (n / k). generalize dependent (first_of (S j)). generalize dependent (first_of j). intros. lia.
Qed.
End Buckets.

(** ** Writing *)

Lemma write_to_spec {A} (items : list A) : forall k streams, k < length streams ->
  exists streams', write_to k items streams = Some streams' /\ length streams' = length streams /\
    forall j s, nth_error streams' j = Some s <-> exists s0, nth_error streams j = Some s0 /\ s = s0 ++ (if Nat.eqb j k then items else []).
Proof.
  induction k as [|k IH]; intros [|s0 streams] Hk; cbn [length] in Hk; try lia; cbn [write_to].
  - eexists. split; [reflexivity|]. split; [reflexivity|]. intros [|j] s; cbn [nth_error Nat.eqb].
    + split; [intros [= <-]; eauto|intros (s1 & [= <-] & ->); reflexivity].
    + split; [intros H; exists s; rewrite app_nil_r; auto|intros (s1 & E & ->); rewrite app_nil_r; exact E].
  - destruct (IH streams ltac:(lia)) as (streams' & -> & Hl & H). eexists. split; [reflexivity|]. split; [cbn; congruence|].
    intros [|j] s; cbn [nth_error Nat.eqb]; [|apply H].
    split; [intros [= <-]; exists s0; rewrite app_nil_r; auto|intros (s1 & [= <-] & ->); rewrite app_nil_r; reflexivity].
Qed.

(** ** Decimal numbers *)

Lemma decimal_inj a b : decimal a = decimal b -> a = b.
Proof.
  unfold decimal. intros H.
  assert (E : NilZero.string_of_uint (N.to_uint a) = NilZero.string_of_uint (N.to_uint b)).
  { rewrite <- (string_of_list_ascii_of_string (NilZero.string_of_uint (N.to_uint a))), H. apply string_of_list_ascii_of_string. }
  apply (f_equal NilZero.uint_of_string) in E.
  assert (Hn : forall n, NilZero.uint_of_string (NilZero.string_of_uint (N.to_uint n)) = Some (N.to_uint n)).
  { intros n. apply NilZero.usu. destruct n as [|p]; [discriminate|]. intros E0. assert (X := Unsigned.of_to (Npos p)). rewrite E0 in X. discriminate X. }
  rewrite !Hn in E. injection E as E. apply Unsigned.to_uint_inj, E.
Qed.

Definition is_digit_char (c : ascii) : bool := ((48 <=? code c) && (code c <=? 57))%N.

Lemma uint_digits d : Forall (fun c => is_digit_char c = true) (list_ascii_of_string (NilEmpty.string_of_uint d)).
Proof. induction d; cbn [NilEmpty.string_of_uint list_ascii_of_string]; constructor; auto; reflexivity. Qed.

Lemma decimal_digits k : Forall (fun c => is_digit_char c = true) (decimal k).
Proof.
  unfold decimal, NilZero.string_of_uint. destruct (N.to_uint k); try apply uint_digits. cbn. constructor; [reflexivity|constructor].
Qed.

Lemma decimal_nonempty k : decimal k <> [].
Proof. unfold decimal, NilZero.string_of_uint. destruct (N.to_uint k); discriminate. Qed.

(** The last underscore determines the parts. *)
Lemma split_last (a b x y : str) : Forall (fun c => is_digit_char c = true) x -> Forall (fun c => is_digit_char c = true) y ->
  a ++ $"_" ++ x = b ++ $"_" ++ y -> a = b /\ x = y.
Proof.
  intros Hx Hy. revert b. induction a as [|c a IH]; intros [|d b] E.
  - cbn in E. injection E as E. auto.
  - exfalso. cbn in E. injection E as E1 E2. subst x. rewrite Forall_forall in Hx. assert (X := Hx "_"%char). rewrite in_app_iff in X. cbn in X. discriminate X. auto.
  - exfalso. cbn in E. injection E as E1 E2. subst y. rewrite Forall_forall in Hy. assert (X := Hy "_"%char). rewrite in_app_iff in X. cbn in X. discriminate X. auto.
  - cbn in E. injection E as -> E. apply IH in E as [-> ->]. auto.
Qed.

(** ** Numbered identifiers *)

Lemma str_eqb_refl s : str_eqb s s = true.
Proof. apply str_eqb_eq. reflexivity. Qed.

Fixpoint current (n : str) (m : counters) : N :=
  match m with [] => 0%N | (x, k) :: m' => if str_eqb n x then k else current n m' end.

Lemma count_up_spec n m : fst (count_up n m) = (current n m + 1)%N /\
  forall x, current x (snd (count_up n m)) = if str_eqb x n then (current n m + 1)%N else current x m.
Proof.
  induction m as [|[y k] m [IH1 IH2]]; cbn [count_up current fst snd].
  - split; [reflexivity|]. intros x. reflexivity.
  - destruct (str_eqb n y) eqn:E; cbn [fst snd current].
    + split; [reflexivity|]. intros x. apply str_eqb_eq in E. subst y. destruct (str_eqb x n); reflexivity.
    + destruct (count_up n m) as [r m'']. cbn [fst snd] in *. split; [exact IH1|]. intros x. cbn [current]. destruct (str_eqb x y) eqn:Ex.
      * destruct (str_eqb x n) eqn:Exn; [|reflexivity]. apply str_eqb_eq in Ex, Exn. subst. rewrite str_eqb_refl in E. discriminate.
      * apply IH2.
Qed.

Lemma occurrences_app l1 l2 n : occurrences (l1 ++ l2) n = occurrences l1 n + occurrences l2 n.
Proof. unfold occurrences. rewrite filter_app, app_length. reflexivity. Qed.

Lemma discriminated_spec before n m : (forall x, current x m = N.of_nat (occurrences before x)) ->
  exists m', discriminated n m = (numbered n (N.of_nat (S (occurrences before n))), m') /\
    forall x, current x m' = N.of_nat (occurrences (before ++ [n]) x).
Proof.
  intros H. unfold discriminated. destruct (count_up_spec n m) as [H1 H2]. destruct (count_up n m) as [r m']. cbn [fst snd] in *.
  exists m'. split; [f_equal; f_equal; rewrite H1, H; lia|].
  intros x. rewrite H2, occurrences_app. unfold occurrences at 2. cbn [filter]. destruct (str_eqb x n) eqn:E.
  - apply str_eqb_eq in E. subst x. cbn [length]. rewrite H. lia.
  - cbn [length]. rewrite H. lia.
Qed.

Lemma numbered_names_app before l1 : forall l2, numbered_names before (l1 ++ l2) = numbered_names before l1 ++ numbered_names (before ++ l1) l2.
Proof.
  revert before. induction l1 as [|n l1 IH]; intros before l2; cbn [app numbered_names]; [rewrite app_nil_r; reflexivity|].
  rewrite IH, <- app_assoc. reflexivity.
Qed.

Lemma numbered_names_nth before l : forall i x, nth_error (numbered_names before l) i = Some x <->
  exists n, nth_error l i = Some n /\ x = numbered n (N.of_nat (S (occurrences (before ++ firstn i l) n))).
Proof.
  revert before. induction l as [|n l IH]; intros before i x; cbn [numbered_names].
  - destruct i; cbn; split; [discriminate| |discriminate|]; intros (n & E & _); discriminate.
  - destruct i as [|i]; cbn [nth_error firstn].
    + rewrite app_nil_r. split; [intros [= <-]; exists n; auto|intros (m & [= <-] & ->); reflexivity].
    + rewrite IH. rewrite <- app_assoc. reflexivity.
Qed.

Lemma numbered_names_length before l : length (numbered_names before l) = length l.
Proof. revert before. induction l; intros; cbn; auto. Qed.

Lemma occurrences_in l n : 0 < occurrences l n <-> In n l.
Proof.
  unfold occurrences. induction l as [|x l IH]; cbn [filter length In]; [lia|]. destruct (str_eqb n x) eqn:E.
  - apply str_eqb_eq in E. subst. cbn. split; [auto|lia].
  - rewrite IH. split; [auto|intros [->|H]; [rewrite str_eqb_refl in E; discriminate|exact H]].
Qed.

Lemma occurrences_step l i n : nth_error l i = Some n -> occurrences (firstn (S i) l) n = S (occurrences (firstn i l) n).
Proof.
  revert i. induction l as [|x l IH]; intros [|i] E; cbn [nth_error] in E; try discriminate.
  - injection E as ->. cbn. unfold occurrences. cbn. rewrite str_eqb_refl. reflexivity.
  - rewrite !firstn_cons. change (x :: firstn (S i) l) with ([x] ++ firstn (S i) l). change (x :: firstn i l) with ([x] ++ firstn i l).
    rewrite !occurrences_app, IH by exact E. lia.
Qed.

Lemma occurrences_mono l i j n : i <= j -> occurrences (firstn i l) n <= occurrences (firstn j l) n.
Proof.
  intros H. rewrite <- (firstn_skipn i (firstn j l)), occurrences_app, firstn_firstn, Nat.min_l by exact H. lia.
Qed.

Lemma occurrence_exists l n c : c < occurrences l n -> exists i, nth_error l i = Some n /\ occurrences (firstn i l) n = c.
Proof.
  revert c. induction l as [|x l IH]; intros c H; [cbn in H; lia|]. change (x :: l) with ([x] ++ l) in H. rewrite occurrences_app in H.
  destruct (str_eqb n x) eqn:E; unfold occurrences at 1 in H; cbn [filter] in H; rewrite E in H; cbn [length] in H.
  - destruct c as [|c].
    + exists 0. apply str_eqb_eq in E. subst. split; reflexivity.
    + destruct (IH c ltac:(lia)) as (i & Hi & Ho). exists (S i). split; [exact Hi|]. cbn [firstn].
      change (x :: firstn i l) with ([x] ++ firstn i l). rewrite occurrences_app, Ho. unfold occurrences. cbn. rewrite E. reflexivity.
  - destruct (IH c ltac:(lia)) as (i & Hi & Ho). exists (S i). split; [exact Hi|]. cbn [firstn].
    change (x :: firstn i l) with ([x] ++ firstn i l). rewrite occurrences_app, Ho. unfold occurrences. cbn. rewrite E. reflexivity.
Qed.

Lemma numbered_one n : numbered n 1 = n.
Proof. reflexivity. Qed.

Lemma numbered_more n k : (1 < k)%N -> numbered n k = n ++ $"_" ++ decimal k.
Proof. intros H. unfold numbered. destruct (N.eqb_spec k 1); [lia|reflexivity]. Qed.

(** Identifiers coincide exactly if a name is the numbered variant of one that
    occurs often enough. *)
Lemma numbered_names_distinct l : NoDup (numbered_names [] l) <->
  ~ exists n k, (2 <= k)%N /\ (k <= N.of_nat (occurrences l n))%N /\ In (n ++ $"_" ++ decimal k) l.
Proof.
  split.
  - intros Hd (n & k & H2 & Hk & Hin).
    assert (Hc : N.to_nat k - 1 < occurrences l n) by lia. destruct (occurrence_exists _ _ _ Hc) as (i & Hi & Ho).
    assert (Hz : 0 < occurrences l (n ++ $"_" ++ decimal k)) by (apply occurrences_in, Hin).
    destruct (occurrence_exists _ _ _ Hz) as (j & Hj & Hoj).
    assert (Ei : nth_error (numbered_names [] l) i = Some (n ++ $"_" ++ decimal k)).
    { apply numbered_names_nth. exists n. split; [exact Hi|]. cbn [app]. rewrite Ho. symmetry.
      replace (N.of_nat (S (N.to_nat k - 1))) with k by lia. apply numbered_more. lia. }
    assert (Ej : nth_error (numbered_names [] l) j = Some (n ++ $"_" ++ decimal k)).
    { apply numbered_names_nth. eexists. split; [exact Hj|]. cbn [app]. rewrite Hoj. reflexivity. }
    assert (E : i = j).
    { apply (proj1 (NoDup_nth_error _) Hd); [|congruence]. apply nth_error_Some. congruence. }
    subst j. rewrite Hi in Hj. injection Hj as Hj. apply (f_equal (@length ascii)) in Hj. rewrite !app_length in Hj. cbn in Hj. lia.
  - intros H. apply NoDup_nth_error. intros i j Hi E.
    destruct (nth_error (numbered_names [] l) i) as [x|] eqn:Ei; [|apply nth_error_Some in Hi; congruence].
    symmetry in E. apply numbered_names_nth in Ei as (n & Hn & Ex). apply numbered_names_nth in E as (m & Hm & Ex'). cbn [app] in *.
    assert (Key : forall i n, nth_error l i = Some n -> occurrences (firstn i l) n < occurrences l n).
    { clear. intros i n E. pose proof (occurrences_step _ _ _ E). rewrite <- (firstn_skipn (S i) l) at 2. rewrite occurrences_app. lia. }
    assert (Ki := Key _ _ Hn). assert (Kj := Key _ _ Hm).
    assert (Same : forall i j n, nth_error l i = Some n -> nth_error l j = Some n -> occurrences (firstn i l) n = occurrences (firstn j l) n -> i = j).
    { clear. intros i j n Ei Ej E. destruct (Nat.lt_trichotomy i j) as [L|[L|L]]; [|exact L|]; exfalso.
      - pose proof (occurrences_step _ _ _ Ei). pose proof (occurrences_mono l (S i) j n L). lia.
      - pose proof (occurrences_step _ _ _ Ej). pose proof (occurrences_mono l (S j) i n L). lia. }
    destruct (occurrences (firstn i l) n) as [|ci] eqn:Oi; destruct (occurrences (firstn j l) m) as [|cj] eqn:Oj.
    + change (N.of_nat 1) with 1%N in *. rewrite numbered_one in *. apply (Same i j n); congruence.
    + exfalso. change (N.of_nat 1) with 1%N in Ex. rewrite numbered_one in Ex. rewrite numbered_more in Ex' by lia.
      apply H. exists m, (N.of_nat (S (S cj))). split; [lia|]. split; [lia|]. rewrite <- Ex', Ex. apply nth_error_In in Hn. exact Hn.
    + exfalso. change (N.of_nat 1) with 1%N in Ex'. rewrite numbered_one in Ex'. rewrite numbered_more in Ex by lia.
      apply H. exists n, (N.of_nat (S (S ci))). split; [lia|]. split; [lia|]. rewrite <- Ex, Ex'. apply nth_error_In in Hm. exact Hm.
    + rewrite numbered_more in Ex, Ex' by lia. rewrite Ex in Ex'. apply split_last in Ex' as [-> Ed]; try apply decimal_digits.
      apply decimal_inj in Ed. apply (Same i j m); try assumption. lia.
Qed.

Lemma numbered_names_plain l : (forall n, In n l -> ~ ends_in_number n) -> NoDup (numbered_names [] l).
Proof. intros H. apply numbered_names_distinct. intros (n & k & _ & _ & Hin). apply (H _ Hin). exists n, k. reflexivity. Qed.

(** Numbered names are not shorter and start with the name. *)
Lemma numbered_prefix n k : exists r, numbered n k = n ++ r.
Proof. unfold numbered. destruct (k =? 1)%N; [exists []; rewrite app_nil_r; reflexivity|eexists; reflexivity]. Qed.
