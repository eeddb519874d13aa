(** * Proofs about the CMake function for building modules *)
From Coq Require Import DecimalString Numbers.DecimalN.
From Verif Require Import Base ModuleModel ModuleChunks ToolModel ToolSpec ToolProofs BuildModel BuildSpec.

(** ** Numbers *)

Definition digits_value (ds : str) (v : Z) : Z := fold_left (fun v c => 10 * v + Z.of_N (code c - 48))%Z ds v.

Lemma value_acc l : forall p, digits_value (list_ascii_of_string (NilEmpty.string_of_uint l)) (Zpos p) = Zpos (Pos.of_uint_acc l p).
Proof.
  induction l; intro p; [reflexivity|..]; cbn [NilEmpty.string_of_uint list_ascii_of_string Pos.of_uint_acc]; unfold digits_value in *; cbn [fold_left];
  change (code "0"%char) with 48%N; change (code "1"%char) with 49%N; change (code "2"%char) with 50%N; change (code "3"%char) with 51%N; change (code "4"%char) with 52%N;
  change (code "5"%char) with 53%N; change (code "6"%char) with 54%N; change (code "7"%char) with 55%N; change (code "8"%char) with 56%N; change (code "9"%char) with 57%N;
  rewrite <- IHl; f_equal; lia.
Qed.

Lemma value_uint l : digits_value (list_ascii_of_string (NilEmpty.string_of_uint l)) 0 = Z.of_N (N.of_uint l).
Proof. induction l; [reflexivity|exact IHl|..]; cbn [NilEmpty.string_of_uint list_ascii_of_string]; apply value_acc. Qed.

Lemma value_decimal k : digits_value (decimal k) 0 = Z.of_N k.
Proof.
  unfold decimal. rewrite <- (DecimalN.Unsigned.of_to k) at 2. rewrite <- value_uint. destruct (N.to_uint k) eqn:E; try reflexivity.
Qed.


Lemma read_decimal k rest : stops is_digit rest -> read_number (decimal k ++ rest) = Some (Z.of_N k, rest).
Proof.
  intros Hs. assert (D := decimal_digits k). assert (V := value_decimal k). assert (Z' := decimal_nonempty k).
  assert (Hd : forallb is_digit (decimal k) = true) by (apply forallb_forall; intros y Hy; rewrite Forall_forall in D; exact (D y Hy)).
  unfold read_number.
  assert (E : match decimal k ++ rest with c :: r => if Ascii.eqb c "-" then @pair bool str true r else (false, decimal k ++ rest) | [] => (false, decimal k ++ rest) end = (false, decimal k ++ rest)).
  { destruct (decimal k) as [|c ds]; [contradiction|]. cbn [app]. destruct (Ascii.eqb_spec c "-") as [->|]; [apply Forall_inv in D; discriminate D|reflexivity]. }
  unfold str in *. rewrite E, (take_while_app _ _ _ Hd), (drop_while_app _ _ _ Hd), (take_while_stops _ _ Hs), (drop_while_stops _ _ Hs), app_nil_r.
  unfold digits_value in V. destruct (decimal k); [contradiction|rewrite V; reflexivity].
Qed.

Lemma number_decimal k : number_of_files [decimal k] = Some (N.max 1 k).
Proof.
  unfold number_of_files. cbn [joined]. rewrite <- (app_nil_r (decimal k)), read_decimal by exact I. destruct (Z.ltb_spec (Z.of_N k) 1); f_equal; lia.
Qed.

(** ** Arguments *)

Lemma keyword_none v : ~ In v reserved -> keyword v = None.
Proof.
  intros H. unfold keyword. cbn [reserved In] in H.
  destruct (str_eqb v ($"HEADER")) eqn:E1; [apply str_eqb_eq in E1; subst; intuition|].
  destruct (str_eqb v ($"LINK_LIBRARIES")) eqn:E2; [apply str_eqb_eq in E2; subst; intuition|].
  destruct (str_eqb v ($"NUM_BINDING_FILES")) eqn:E3; [apply str_eqb_eq in E3; subst; intuition|reflexivity].
Qed.

Lemma parse_rest l : (forall v, In v l -> ~ In v reserved) -> forall args r,
  parse_arguments Rest (l ++ args) r = parse_arguments Rest args (mkArguments (ca_header r) (ca_libraries r) (ca_count r) (ca_rest r ++ l)).
Proof.
  induction l as [|a l IH]; intros H args r; [destruct r; cbn; rewrite app_nil_r; reflexivity|]. cbn [app parse_arguments].
  rewrite (keyword_none a) by (apply H; left; reflexivity). rewrite IH by (intros v Hv; apply H; right; exact Hv). cbn. rewrite <- app_assoc. reflexivity.
Qed.

Lemma parse_libraries l : (forall v, In v l -> ~ In v reserved) -> forall args r,
  parse_arguments InLibraries (l ++ args) r = parse_arguments InLibraries args (mkArguments (ca_header r) (ca_libraries r ++ l) (ca_count r) (ca_rest r)).
Proof.
  induction l as [|a l IH]; intros H args r; [destruct r; cbn; rewrite app_nil_r; reflexivity|]. cbn [app parse_arguments].
  rewrite (keyword_none a) by (apply H; left; reflexivity). rewrite IH by (intros v Hv; apply H; right; exact Hv). cbn. rewrite <- app_assoc. reflexivity.
Qed.

Lemma parse_count l : (forall v, In v l -> ~ In v reserved) -> forall args r,
  parse_arguments InCount (l ++ args) r = parse_arguments InCount args (mkArguments (ca_header r) (ca_libraries r) (ca_count r ++ l) (ca_rest r)).
Proof.
  induction l as [|a l IH]; intros H args r; [destruct r; cbn; rewrite app_nil_r; reflexivity|]. cbn [app parse_arguments].
  rewrite (keyword_none a) by (apply H; left; reflexivity). rewrite IH by (intros v Hv; apply H; right; exact Hv). cbn. rewrite <- app_assoc. reflexivity.
Qed.

Definition last_header (l : list str) (d : option str) : option str := fold_left (fun _ h => Some h) l d.

Lemma parse_parts : forall l m r, (forall p v, In p l -> In v (values p) -> ~ In v reserved) -> m <> InHeader ->
  separated (match m with Rest => false | _ => true end) l ->
  parse_arguments m (flat_map words l) r = mkArguments (last_header (headers l) (ca_header r)) (ca_libraries r ++ libraries l) (ca_count r ++ counts l) (ca_rest r ++ others l).
Proof.
  induction l as [|p l IH]; intros m r V M H; [cbn; destruct m, r; cbn; rewrite !app_nil_r; reflexivity|].
  assert (Vp : forall v, In v (values p) -> ~ In v reserved) by (intros v; apply V; left; reflexivity).
  assert (Vl : forall q v, In q l -> In v (values q) -> ~ In v reserved) by (intros q v Hq; apply V; right; exact Hq).
  destruct p as [x|h|x|x]; cbn [flat_map words]; cbn [separated] in H.
  - destruct H as (Hm & H). destruct m; try discriminate Hm. rewrite (parse_rest x Vp), (IH Rest) by (assumption || discriminate). cbn. rewrite <- app_assoc. reflexivity.
  - cbn [app parse_arguments]. change (keyword ($"HEADER")) with (Some InHeader). cbv iota. rewrite (keyword_none h) by (apply Vp; left; reflexivity).
    rewrite (IH Rest) by (assumption || discriminate). reflexivity.
  - cbn [app parse_arguments]. change (keyword ($"LINK_LIBRARIES")) with (Some InLibraries). cbv iota. rewrite (parse_libraries x Vp), (IH InLibraries) by (assumption || discriminate). cbn. rewrite <- app_assoc. reflexivity.
  - cbn [app parse_arguments]. change (keyword ($"NUM_BINDING_FILES")) with (Some InCount). cbv iota. rewrite (parse_count x Vp), (IH InCount) by (assumption || discriminate). cbn. rewrite <- app_assoc. reflexivity.
Qed.

(** ** Files *)

Lemma binding_inj bin target i j : binding bin target i = binding bin target j -> i = j.
Proof.
  unfold binding. intros H. do 2 apply app_inv_head in H. apply app_inv_head in H. apply app_inv_head in H. apply app_inv_tail in H. apply decimal_inj, H.
Qed.

Lemma bindings_distinct bin target n : NoDup (bindings bin target n).
Proof.
  unfold bindings. apply FinFun.Injective_map_NoDup; [|apply seq_NoDup]. intros i j H. apply binding_inj in H. lia.
Qed.

Lemma bindings_absolute bin target n p : directory bin -> In p (bindings bin target n) -> is_absolute p = true /\ p <> $"-".
Proof.
  intros (c & r & -> & Hc) H. unfold bindings in H. apply in_map_iff in H as (i & <- & _). split; [|discriminate].
  apply absolute_spec.
  - exists ((c :: r) ++ $"/genpybind-" ++ target ++ $"-" ++ decimal (N.of_nat i) ++ $".cpp"). reflexivity.
  - intros d s E. exfalso. unfold binding in E. cbn in E. injection E as E. congruence.
Qed.

(** ** Command *)

Lemma read_output f l : read_command (($"-o=" ++ f) :: l) = option_map (fun c => mkCommand (cm_module c) (cm_sources c) (f :: cm_outputs c)) (read_command l).
Proof. reflexivity. Qed.

Lemma read_outputs l : read_command (map (fun f => $"-o=" ++ f) l) = Some (mkCommand [] [] l).
Proof. induction l as [|f l IH]; [reflexivity|]. cbn [map]. rewrite read_output, IH. reflexivity. Qed.

Lemma read_options top target r l : read_command ($"-p" :: top :: $"--module-name" :: target :: ($"/" ++ r) :: l) =
  option_map (fun c => mkCommand target (($"/" ++ r) :: cm_sources c) (cm_outputs c)) (read_command l).
Proof. cbn -[option_map]. destruct (read_command l); reflexivity. Qed.

Lemma read_whole top target header l : (exists r, header = $"/" ++ r) ->
  read_command ([$"-p"; top; $"--module-name"; target; header] ++ map (fun f => $"-o=" ++ f) l) = Some (mkCommand target [header] l).
Proof. intros (r & ->). cbn [app]. etransitivity; [apply (read_options top target r)|]. rewrite read_outputs. reflexivity. Qed.

Lemma absolute_rooted src h : directory src -> h <> [] -> exists r, absolute src h = $"/" ++ r.
Proof.
  intros (c & r & -> & _) H. destruct h as [|d h]; [contradiction|]. cbn [absolute]. destruct (Ascii.eqb_spec d "/") as [->|_]; eexists; [reflexivity|].
  rewrite <- app_assoc. reflexivity.
Qed.

Lemma nth_forall2 {A B} (P : A -> B -> Prop) : forall a b, length a = length b -> (forall i x y, nth_error a i = Some x -> nth_error b i = Some y -> P x y) -> Forall2 P a b.
Proof.
  induction a as [|x a IH]; intros [|y b] L H; try discriminate L; constructor; [apply (H 0); reflexivity|]. apply IH; [injection L as L; exact L|].
  intros i. exact (H (S i)).
Qed.

Lemma printed_nothing text : forall outputs parts, ~ In ($"-") outputs -> printed text outputs parts = [].
Proof.
  induction outputs as [|p outputs IH]; intros [|part parts] H; try reflexivity. cbn. destruct (str_eqb p ["-"%char]) eqn:E; [apply str_eqb_eq in E; exfalso; apply H; left; exact E|].
  apply IH. intro X. apply H. right. exact X.
Qed.

Lemma filter_all {A} (f : A -> bool) l : (forall x, In x l -> f x = true) -> filter f l = l.
Proof. induction l as [|a l IH]; intros H; [reflexivity|]. cbn. rewrite (H a) by (left; reflexivity). f_equal. apply IH. intros x Hx. apply H. right. exact Hx. Qed.

Lemma cmake_build bin top src target l h n : directory bin -> directory src -> target <> [] -> use l h n ->
  exists b c, configure bin top src target (flat_map words l) = Some b /\ read_command (bd_command b) = Some c /\
    cm_module c = target /\ cm_sources c = [absolute src h] /\ N.of_nat (length (cm_outputs c)) = n /\ bd_sources b = cm_outputs c ++ others l /\
    (forall x, In x (libraries l) -> In x (bd_libraries b)) /\ NoDup (cm_outputs c) /\
    forall env j fs fs' out code parts, main env (cm_outputs c) false false (cm_module c) [j] fs = Some (fs', out, code) -> succeeds env (cm_outputs c) target j parts ->
      code = 0%N /\ out = [] /\ (forall p, ~ In p (cm_outputs c) -> fs' p = fs p) /\
      Forall2 (fun p part => fs' p = Some (New (preamble (j_main j) (fst (handle_pragmas (j_pragmas j) []))) part)) (cm_outputs c) parts.
Proof.
  intros Hb Hs Ht [Uv Us (Uh & Hh) Uc]. unfold configure. rewrite (parse_parts l Rest) by (assumption || discriminate). cbn [ca_count ca_header ca_rest ca_libraries app]. rewrite Uh. cbn [last_header fold_left].
  assert (Hn : number_of_files (counts l) = Some n /\ (1 <= n)%N).
  { destruct Uc as [(-> & ->)|(k & -> & ->)]; [split; [reflexivity|lia]|]. rewrite number_decimal. split; [reflexivity|lia]. }
  destruct Hn as (-> & Hn). eexists _, (mkCommand target [absolute src h] (bindings bin target n)). split; [reflexivity|]. cbn [bd_command bd_sources bd_libraries cm_module cm_sources cm_outputs].
  split; [apply (read_whole top target), absolute_rooted; assumption|]. split; [reflexivity|]. split; [reflexivity|].
  split; [unfold bindings; rewrite map_length, seq_length; lia|]. split; [reflexivity|]. split; [intros x Hx; apply in_or_app; left; exact Hx|]. split; [apply bindings_distinct|].
  intros env j fs fs' out code parts Hm Hsu.
  assert (A : forall p, In p (bindings bin target n) -> is_absolute p = true /\ p <> $"-") by (intros p; apply bindings_absolute, Hb).
  assert (Ef : effective (bindings bin target n) = bindings bin target n).
  { unfold effective. destruct (bindings bin target n) eqn:E; [|reflexivity]. apply (f_equal (@length _)) in E. unfold bindings in E. rewrite map_length, seq_length in E. cbn in E. lia. }
  assert (En : default_name target (j_main j) = target) by (apply default_name_cases, Ht).
  assert (Hac : acceptable (bindings bin target n)) by (intros p Hp; right; apply A, Hp).
  assert (F : filter (fun p => negb (str_eqb p ($"-"))) (bindings bin target n) = bindings bin target n).
  { apply filter_all. intros p Hp. apply negb_true_iff, str_eqb_neq, A, Hp. }
  destruct (su_generates _ _ _ _ _ Hsu) as (reports & Hg & Hr).
  destruct (written_run env (bindings bin target n) false false target j fs fs' out code parts reports Hm Hac) as (W1 & W2 & W3); try rewrite Ef; try rewrite En; try assumption.
  - intros p Hp. split; [apply (su_opens _ _ _ _ _ Hsu), Hp|apply (su_renames _ _ _ _ _ Hsu), Hp].
  - right. exact Hsu.
  - rewrite F. apply bindings_distinct.
  - rewrite Ef in W1, W2. split; [|split; [|split]].
    + apply (exit_status env _ false false target [j] fs fs' out code [target] Hm Hac).
      * constructor; [reflexivity|intros X; contradiction|constructor].
      * split; [|reflexivity]. intros _. split; [discriminate|]. constructor; [exists parts; rewrite Ef; exact Hsu|constructor].
    + rewrite W2. apply printed_nothing. intro X. apply A in X. destruct X as (_ & X). apply X. reflexivity.
    + intros p Hp. apply W3. right. exact Hp.
    + destruct W1 as (L & W). apply nth_forall2; [symmetry; exact L|]. intros i p part Hi Hp. apply (W i p part Hi Hp). apply A. apply (nth_error_In _ _ Hi).
Qed.

(** ** Documented order *)

Lemma number_list k r : (1 <= k)%N -> r <> [] -> number_of_files (decimal k :: r) = None.
Proof.
  intros Hk Hr. unfold number_of_files. destruct r as [|x r]; [contradiction|]. change (joined (decimal k :: x :: r)) with (decimal k ++ $";" ++ joined (x :: r)).
  rewrite read_decimal by reflexivity. destruct (Z.ltb_spec (Z.of_N k) 1); [lia|reflexivity].
Qed.

Lemma documented_order bin top src target h libs k rest : (forall v, In v (h :: libs ++ rest) -> ~ In v reserved) -> (1 <= k)%N -> rest <> [] ->
  configure bin top src target ([$"HEADER"; h] ++ ($"LINK_LIBRARIES" :: libs) ++ [$"NUM_BINDING_FILES"; decimal k] ++ rest) = None.
Proof.
  intros V Hk Hr. unfold configure.
  assert (E : [$"HEADER"; h] ++ ($"LINK_LIBRARIES" :: libs) ++ [$"NUM_BINDING_FILES"; decimal k] ++ rest = flat_map words [TheHeader h; Libraries libs; Count (decimal k :: rest)])
    by (cbn [flat_map words]; rewrite app_nil_r; reflexivity). rewrite E. rewrite (parse_parts _ Rest).
  - cbn [ca_count counts flat_map app]. rewrite app_nil_r, (number_list k rest Hk Hr). reflexivity.
  - intros p v Hp Hv. cbn in Hp. destruct Hp as [<-|[<-|[<-|[]]]].
    + destruct Hv as [<-|[]]. apply V. left. reflexivity.
    + apply V. right. apply in_or_app. left. exact Hv.
    + destruct Hv as [<-|Hv]; [|apply V; right; apply in_or_app; right; exact Hv]. intros R. assert (D := decimal_digits k). unfold reserved in R. cbn [In] in R.
      destruct R as [R|[R|[R|[]]]]; rewrite <- R in D; apply Forall_inv in D; discriminate D.
  - discriminate.
  - cbn. auto.
Qed.
