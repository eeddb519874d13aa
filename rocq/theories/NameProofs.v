(** * Proofs about the names used in Python *)
From Verif Require Import Base ParserModel StringModel StringSpec StringProofs AnnotModel AnnotSpec AnnotStore AnnotFinal CollectModel CollectSpec CollectProofs GraphModel GraphSpec GraphFinal
  OrderModel InlineModel EmitModel EmitSpec EmitProofs EmitFold EmitFinal ModuleModel ModuleSpec ModuleProofs ModuleFinal ImportSpec ImportProofs ExecSpec ExecProofs AccessSpec AccessProofs InvalidSpec InvalidProofs FindProofs NameModel NameSpec.

(** ** Names of specialisations *)

Lemma collapse_valid_prefix w : forall b r, forallb is_ident_continue w = true -> w <> [] -> collapse b (w ++ r) = w ++ collapse false r.
Proof.
  induction w as [|c w IH]; intros b r H Hn; [destruct (Hn eq_refl)|]. cbn [forallb] in H. apply andb_true_iff in H as [H1 H2]. cbn [app collapse]. rewrite H1. f_equal.
  destruct w; [reflexivity|]. apply IH; [exact H2|discriminate].
Qed.

Lemma collapse_words s ws : words s ws -> forall c r, is_ident_continue c = false ->
  collapse true (s ++ c :: r) = concat (map (fun w => w ++ $"_") ws) ++ collapse true r.
Proof.
  induction 1 as [|d s ws Hd H IH|w s ws Hn Hw Hs H IH]; intros c r Hc.
  - cbn. rewrite Hc. reflexivity.
  - cbn [app collapse]. rewrite Hd. apply IH, Hc.
  - rewrite <- app_assoc, collapse_valid_prefix by assumption. cbn [map concat]. rewrite <- !app_assoc. f_equal.
    destruct s as [|d s].
    + rewrite <- (IH c r Hc). cbn [app collapse]. rewrite Hc. reflexivity.
    + cbn [stops] in Hs. rewrite <- (IH c r Hc). cbn [app collapse]. rewrite Hs. reflexivity.
Qed.

Lemma words_blank s : forallb not_continue s = true -> words s [].
Proof. induction s as [|c s IH]; intros H; [constructor|]. cbn in H. apply andb_true_iff in H as [H1 H2]. constructor; [apply not_continue_true, H1|auto]. Qed.

Lemma words_app s1 w1 s2 w2 : words s1 w1 -> words s2 w2 -> stops is_ident_continue s2 -> words (s1 ++ s2) (w1 ++ w2).
Proof.
  intros H H2 Hs2. induction H as [|c s ws Hc H IH|w s ws Hn Hw Hs H IH]; [exact H2|constructor; assumption|].
  rewrite <- app_assoc. cbn [app]. constructor; [exact Hn|exact Hw| |exact IH]. destruct s; [exact Hs2|exact Hs].
Qed.

Lemma words_list args wss : Forall2 words args wss -> words (concat (map (fun b => $", " ++ b) args)) (concat wss).
Proof.
  induction 1 as [|a ws args wss H _ IH]; [constructor|]. cbn [map concat]. change (words (","%char :: " "%char :: (a ++ concat (map (fun b => $", " ++ b) args))) (ws ++ concat wss)).
  constructor; [reflexivity|]. constructor; [reflexivity|]. apply words_app; [exact H|exact IH|]. destruct args; [exact I|reflexivity].
Qed.

Lemma words_arguments split_closers args wss : Forall2 words args wss -> words (print_template_argument_list split_closers args) (concat wss).
Proof.
  intros H. unfold print_template_argument_list. set (sp := match args with (c :: _) :: _ => _ | _ => _ end). set (cl := match rev (concat args) with c :: _ => _ | [] => _ end).
  assert (Hcl : forallb not_continue (cl ++ $">") = true) by (unfold cl; destruct (rev (concat args)); [reflexivity|]; destruct (split_closers && _); reflexivity).
  assert (Hsp : forallb not_continue sp = true) by (unfold sp; destruct args as [|[|c a] args]; try reflexivity; destruct (_ =? _)%N; reflexivity).
  cbn [app]. change ($"<" ++ ?x) with ("<"%char :: x). constructor; [reflexivity|]. clearbody sp cl.
  assert (M : words ((match args with [] => [] | a :: r => a ++ concat (map (fun b => $", " ++ b) r) end) ++ cl ++ $">") (concat wss)).
  { rewrite <- (app_nil_r (concat wss)). apply words_app; [|apply words_blank, Hcl|destruct cl; [reflexivity|]; cbn in Hcl; apply andb_true_iff in Hcl as [Hcl _]; apply not_continue_true, Hcl].
    inversion H as [|a ws r wss' H1 H2]; subst; [constructor|]. cbn [concat]. apply words_app; [exact H1|apply words_list, H2|]. destruct r; [exact I|reflexivity]. }
  induction sp as [|c sp IH]; [exact M|]. cbn in Hsp. apply andb_true_iff in Hsp as [H1 H2]. cbn [app]. constructor; [apply not_continue_true, H1|]. apply IH, H2.
Qed.

Lemma identifier_continue n : identifier n -> forallb is_ident_continue n = true /\ n <> [].
Proof. intros (c & r & -> & Hc & Hr). split; [cbn; rewrite (start_continue _ Hc); exact Hr|discriminate]. Qed.

Lemma conv_identifier_prefix n r : identifier n -> conv (n ++ r) = n ++ collapse false r.
Proof.
  intros H. destruct (identifier_continue n H) as [Hc Hn]. destruct H as (c & s & -> & Hs & _). unfold conv.
  assert (E : not_start c = false) by (apply not_start_false, Hs). cbn [app drop_while take_while]. rewrite E. change (c :: s ++ r) with ((c :: s) ++ r).
  cbn [app]. change (c :: s ++ r) with ((c :: s) ++ r). rewrite collapse_valid_prefix by assumption. reflexivity.
Qed.

Lemma words_total n : forall s, length s <= n -> exists ws, words s ws.
Proof.
  induction n as [|n IH]; intros s Hs; [destruct s; [exists []; constructor|cbn in Hs; lia]|]. destruct s as [|c s]; [exists []; constructor|].
  destruct (is_ident_continue c) eqn:Hc.
  - assert (E := take_drop_while is_ident_continue (c :: s)). set (w := take_while is_ident_continue (c :: s)) in *. set (r := drop_while is_ident_continue (c :: s)) in *.
    assert (Hw : forallb is_ident_continue w = true) by apply take_while_forallb. assert (Hn : w <> []) by (unfold w; cbn; rewrite Hc; discriminate).
    destruct (IH r) as (ws & H). { clearbody w r. apply (f_equal (@length ascii)) in E. rewrite app_length in E. cbn in E, Hs. destruct w; [contradiction|]. cbn in E. lia. }
    exists (w :: ws). rewrite <- E. constructor; [exact Hn|exact Hw|apply drop_while_stops'|exact H].
  - destruct (IH s) as (ws & H); [cbn in Hs; lia|]. exists ws. constructor; assumption.
Qed.

Lemma all_words args : exists wss, Forall2 words args wss.
Proof.
  induction args as [|a args (wss & IH)]; [exists []; constructor|]. destruct (words_total (length a) a (le_n _)) as (ws & H). exists (ws :: wss). constructor; assumption.
Qed.

Lemma split_run w : forall w' s s', forallb is_ident_continue w = true -> forallb is_ident_continue w' = true -> stops is_ident_continue s -> stops is_ident_continue s' ->
  w ++ s = w' ++ s' -> w = w' /\ s = s'.
Proof.
  induction w as [|c w IH]; intros [|d w'] s s' H1 H2 S1 S2 E; cbn in *.
  - auto.
  - subst s. cbn in S1. apply andb_true_iff in H2 as [H2 _]. congruence.
  - subst s'. cbn in S2. apply andb_true_iff in H1 as [H1 _]. congruence.
  - injection E as -> E. apply andb_true_iff in H1 as [_ H1]. apply andb_true_iff in H2 as [_ H2]. destruct (IH _ _ _ H1 H2 S1 S2 E) as [-> ->]. auto.
Qed.

Lemma words_unique s ws ws' : words s ws -> words s ws' -> ws = ws'.
Proof.
  intros H. revert ws'. induction H as [|c s ws Hc H IH|w s ws Hn Hw Hs H IH]; intros ws' H'.
  - inversion H' as [| |w' s' l' Hn' Hw' Hs' H2 E]; [reflexivity|]. destruct w'; [destruct (Hn' (eq_sym E))|discriminate].
  - inversion H' as [|? ? ? ? H2|w' s' l' Hn' Hw' Hs' H2 E]; [apply IH, H2|]. destruct w' as [|d w']; [destruct (Hn' eq_refl)|]. injection E as -> E. cbn in Hw'. rewrite Hc in Hw'. discriminate.
  - inversion H' as [E|c s' l' Hc' H2 E|w' s' l' Hn' Hw' Hs' H2 E].
    + destruct w; [destruct (Hn eq_refl)|discriminate].
    + destruct w as [|d w]; [destruct (Hn eq_refl)|]. injection E as -> E. cbn in Hw. rewrite Hc' in Hw. discriminate.
    + destruct (split_run w' w s' s Hw' Hw Hs' Hs E) as [-> ->]. f_equal. apply IH, H2.
Qed.

Lemma specialization_spelled split_closers n args wss : identifier n -> Forall2 words args wss ->
  get_spelling split_closers (mkNaming (NIdentifier n) (Some args)) = n ++ $"_" ++ concat (map (fun w => w ++ $"_") (concat wss)).
Proof.
  intros Hn H. unfold get_spelling. cbn [na_name na_arguments print_name is_identifier]. rewrite make_valid_identifier_conv, conv_identifier_prefix by exact Hn. f_equal.
  assert (W := words_arguments split_closers args wss H). set (t := print_template_argument_list split_closers args) in *.
  assert (Et : exists m, t = "<"%char :: m ++ [">"%char]).
  { unfold t, print_template_argument_list. eexists. change ($"<" ++ ?x) with ("<"%char :: x). f_equal. rewrite !app_assoc. reflexivity. }
  destruct Et as (m & Em). rewrite Em in *. cbn [collapse]. change (is_ident_continue "<"%char) with false. cbn iota. change ($"_" ++ ?x) with ("_"%char :: x).
  change underscore with "_"%char. f_equal.
  inversion W as [|c s l Hc W'|w s l Hw1 Hw2 Hw3 W']; subst; [|destruct w as [|c w]; [destruct (Hw1 eq_refl)|]; match goal with E : _ ++ _ = _ |- _ => injection E as -> _ end; discriminate Hw2].
  assert (Wm : exists ws, words m ws) by apply (words_total _ _ (le_n _)). destruct Wm as (ws & Wm).
  rewrite (collapse_words m ws Wm ">"%char [] eq_refl). cbn [collapse]. rewrite app_nil_r. do 2 f_equal.
  assert (W2 : words (m ++ [">"%char]) (ws ++ [])) by (apply words_app; [exact Wm|repeat constructor|reflexivity]). rewrite app_nil_r in W2.
  exact (words_unique _ _ _ W2 W').
Qed.

Lemma underscore_split w : forall w' r r', without_underscore w -> without_underscore w' -> w ++ "_"%char :: r = w' ++ "_"%char :: r' -> w = w' /\ r = r'.
Proof.
  induction w as [|c w IH]; intros [|d w'] r r' H H' E; cbn in E.
  - injection E as ->. auto.
  - injection E as <- _. destruct H'. left. reflexivity.
  - injection E as -> _. destruct H. left. reflexivity.
  - injection E as -> E. destruct (IH w' r r') as [-> ->]; auto; intros X; [apply H|apply H']; right; exact X.
Qed.

Lemma joined_unique ws : forall ws', Forall without_underscore ws -> Forall without_underscore ws' ->
  concat (map (fun w => w ++ $"_") ws) = concat (map (fun w => w ++ $"_") ws') -> ws = ws'.
Proof.
  induction ws as [|w ws IH]; intros [|w' ws'] H H' E; cbn [map concat] in E; [reflexivity|destruct w'; discriminate|destruct w; discriminate|].
  inversion_clear H as [|? ? H1 H2]. inversion_clear H' as [|? ? H1' H2']. rewrite <- !app_assoc in E. apply underscore_split in E as [-> E]; [|assumption..].
  f_equal. apply IH; assumption.
Qed.

Lemma specializations_distinct split_closers n args args' wss wss' : identifier n -> Forall2 words args wss -> Forall2 words args' wss' ->
  Forall without_underscore (concat wss) -> Forall without_underscore (concat wss') ->
  (get_spelling split_closers (mkNaming (NIdentifier n) (Some args)) = get_spelling split_closers (mkNaming (NIdentifier n) (Some args')) <-> concat wss = concat wss').
Proof.
  intros Hn H H' U U'. rewrite (specialization_spelled _ _ _ _ Hn H), (specialization_spelled _ _ _ _ Hn H'). split; [|intros ->; reflexivity].
  intros E. apply app_inv_head in E. apply app_inv_head in E. apply joined_unique; assumption.
Qed.

(** ** Identifiers *)

Lemma get_spelling_identifier split_closers n : proper_name n -> identifier (get_spelling split_closers n).
Proof.
  unfold proper_name, get_spelling. intros H.
  assert (B : identifier (if is_identifier (na_name n) then print_name (na_name n) else make_valid_identifier (print_name (na_name n)))).
  { destruct (na_name n) as [s|s]; cbn in *; [exact H|]. rewrite make_valid_identifier_conv. apply conv_identifier, H. }
  destruct (na_arguments n); [|exact B]. rewrite make_valid_identifier_conv. apply conv_identifier. destruct B as (c & r & -> & _). discriminate.
Qed.

Lemma proper_dec n : proper_name n \/ ~ proper_name n.
Proof.
  unfold proper_name. destruct (na_name n) as [s|[|c s]]; [|right; auto|left; discriminate].
  destruct (is_valid_identifier s) eqn:E; [left; apply is_valid_identifier_iff, E|right]. intros H. apply is_valid_identifier_iff in H. congruence.
Qed.

Lemma own_spelled u i a : own_attributes u i a -> n_spelling (at_named a) = [] \/ identifier (n_spelling (at_named a)).
Proof.
  intros (st & ds & Hi & Ha). destruct (d_skip (u_decls u i)) eqn:Es.
  - unfold insert in Hi. rewrite Es in Hi. injection Hi as <- <-. discriminate Ha.
  - destruct (insert_spelling _ _ _ _ _ Hi eq_refl Es) as (a' & ans & bad & Ha' & _ & _ & H). rewrite Ha in Ha'. injection Ha' as <-. exact H.
Qed.

Lemma typedef_named u x names a : properly_named u x names -> kind u a = KTypedef -> proper_name (names a).
Proof. intros H K. apply (pn_declarations _ _ _ H); rewrite ?K; (discriminate || reflexivity). Qed.

Lemma stored_spelled u split_closers x names b : placed u -> build_graph u = Done (true, b) -> (forall i, u_name u i = get_spelling split_closers (names i)) -> properly_named u x names ->
  forall c a, lookup_attrs (bs_annotations b) c = Some a -> n_spelling (at_named a) = [] \/ identifier (n_spelling (at_named a)).
Proof.
  intros P Hb Hu Hp c a Ha. destruct (collect u) as [s|] eqn:C; [|unfold build_graph in Hb; rewrite C in Hb; discriminate].
  destruct (attributes_of_targets u P b s C Hb c) as (H1 & H2). destruct (collected_declarations u s (pl_sane u P) C) as (_ & _ & O & _).
  assert (D : ((forall a, ~ relocates u a c) /\ (forall a, ~ encourages u a c)) \/ (exists a, relocates u a c) \/ exists e, encourages u e c).
  { destruct (stated_total u s b P C Hb c) as (v & [v' N1 N2 _ _ _|N1 N2 _|a0 v' Hr _ _|e He _]); eauto. }
  assert (Rel : forall a0, relocates u a0 c -> n_spelling (at_named a) = [] \/ identifier (n_spelling (at_named a))).
  { intros a0 Hr. destruct (H2 a0 (or_introl Hr)) as (y & z & Hy & Hz & _ & Hsp & _). rewrite Ha in Hy. injection Hy as <-.
    destruct Hr as (y & Hal & Hx). pose proof Hal as (_ & Kt & _ & _ & Hown). rewrite (Hsp a0 y); [|exists y; split; assumption|exact Hown].
    destruct (own_spelled u a0 y Hown) as [E|E]; [rewrite E; right; rewrite Hu; apply get_spelling_identifier, (typedef_named u x names); assumption|].
    destruct (n_spelling (at_named y)) eqn:En; [destruct E as (? & ? & E & _); discriminate|right; exact E]. }
  destruct D as [[N1 N2]|[(a0 & Hr)|(e & He)]]; [|eauto|].
  - rewrite (H1 N1 N2) in Ha. destruct (O c) as (st & ds & y & E1 & E2 & E3); [apply in_keys; congruence|]. rewrite Ha in E3. injection E3 as <-. apply (own_spelled u c). exists st, ds. auto.
  - destruct (H2 e (or_intror He)) as (y & z & Hy & Hz & _ & _ & Hsp & _). rewrite Ha in Hy. injection Hy as <-.
    destruct (one_place u P b Hb) as (_ & _ & _ & _ & Rl). destruct (assoc (bs_relocated b) c) as [a0|] eqn:Ea; [apply Rl in Ea; eauto|]. rewrite Hsp by (intros a0 H; apply Rl in H; congruence). exact (own_spelled u c z Hz).
Qed.

Lemma operator_names k : (forall r, binary_name k r = [] \/ identifier (binary_name k r)) /\ (unary_name k = [] \/ identifier (unary_name k)).
Proof.
  assert (D : forall s, s = [] \/ identifier s \/ is_valid_identifier s = false).
  { intros s. destruct (is_valid_identifier s) eqn:E; [right; left; apply is_valid_identifier_iff, E|auto]. }
  split; [intros r; destruct (D (binary_name k r)) as [H|[H|H]]|destruct (D (unary_name k)) as [H|[H|H]]]; auto; left; [destruct k, r|destruct k]; first [reflexivity|discriminate H].
Qed.

Lemma called_identifier u a i fallback n : called u a i fallback n -> (n_spelling (at_named a) = [] \/ identifier (n_spelling (at_named a))) ->
  (fallback = [] \/ identifier fallback) -> identifier (u_name u i) -> identifier n.
Proof. intros [(N & ->)|[(_ & N & ->)|(_ & _ & ->)]] [H|H] [F|F] U; try assumption; contradiction. Qed.

Section Run.
Context (u : unit) (w : facts) (found : nat -> list nat) (implicit : nat -> bool) (iteration : list nat -> list nat) (n : nat) (name : str) (b : bstate).
Context (files : list (list item)) (rs : list ereport) (st' : storage) (split_closers : bool) (names : nat -> naming).
Hypothesis (Se : setting u w iteration) (Hn : 0 < n) (HG : generate u w found implicit iteration n name = Some (RGraph b (EWritten files rs st'))).
Hypothesis (Hu : forall i, u_name u i = get_spelling split_closers (names i)) (Hp : properly_named u (w_extra w) names).

Let x := w_extra w.

Lemma bound_named e i a t m : is_tag_kind (kind u i) = false -> own_attributes u i a -> EmitSpec.bound u x e i a t -> name_in t = Some m -> identifier m \/ nameless_operator t.
Proof.
  intros Hk Ho Hb Hm. assert (Sp := own_spelled u i a Ho).
  assert (U : kind u i <> KOther -> kind u i <> KNamespace -> identifier (u_name u i)) by (intros N N'; rewrite Hu; apply get_spelling_identifier, (pn_declarations _ _ _ Hp); assumption).
  assert (Fc : (match fi_operator (x_fn x i) with Some OCall => $"__call__" | _ => [] end) = [] \/ identifier (match fi_operator (x_fn x i) with Some OCall => $"__call__" | _ => [] end)).
  { destruct (fi_operator (x_fn x i)) as [[]|]; try (left; reflexivity). right. apply is_valid_identifier_iff. reflexivity. }
  assert (BF : forall t m, bound_function u x i a t -> name_in t = Some m -> identifier m).
  { intros t0 m0 [static n0 args Sf _ _ _ Cn _ _] [= <-]. apply (called_identifier _ _ _ _ _ Cn Sp Fc), U; intros K; unfold supports_function in Sf; unfold kind in K; rewrite K in Sf; discriminate. }
  assert (BA : forall t m, bound_alias u x i a t -> name_in t = Some m -> identifier m).
  { intros t0 m0 [v n0 t1 K _ _ _ Cn] [= <-]. apply (called_identifier _ _ _ _ _ Cn Sp (or_introl eq_refl)), U; congruence. }
  destruct e as [|c|c|r p]; cbn in Hb.
  - destruct Hb as [t F|t A|n0 K _ Cn|l]; [left; eauto..| |discriminate Hm]. injection Hm as <-. left. apply (called_identifier _ _ _ _ _ Cn Sp (or_introl eq_refl)), U; congruence.
  - destruct Hb as [t F|t A|n0 K _ Cn|l]; [left; eauto..| |discriminate Hm]. injection Hm as <-. left. apply (called_identifier _ _ _ _ _ Cn Sp (or_introl eq_refl)), U; congruence.
  - destruct Hb as [n0 Ex Cn]. injection Hm as <-. left. apply (called_identifier _ _ _ _ _ Cn Sp (or_introl eq_refl)). rewrite Hu. apply get_spelling_identifier, (pn_enumerators _ _ _ Hp), Ex.
  - destruct Hb as [t Sf F|t A|l|static readonly n0 K _ Cn _|args|p0 ps|n0 _ _ _ _ E N|k types n0 l _ _ _ _ _ _ _ _ E]; try discriminate Hm; [left; eauto..| | |]; injection Hm as <-.
    + left. apply (called_identifier _ _ _ _ _ Cn Sp (or_introl eq_refl)), U; destruct K as [[K _]|[K _]]; congruence.
    + left. destruct Sp as [Sp|Sp]; congruence.
    + subst n0. destruct (operator_names k) as [O1 O2]. destruct types as [|t1 [|t2 r2]].
      * destruct O2 as [O2|O2]; [right; exists i, l; rewrite O2; reflexivity|left; exact O2].
      * destruct O2 as [O2|O2]; [right; exists i, l; rewrite O2; reflexivity|left; exact O2].
      * destruct (O1 (negb (core_eqb (ty_core t1) (CRecord r)))) as [O|O]; [right; exists i, l; rewrite O; reflexivity|left; exact O].
Qed.

(** Tags have no statements of their own. *)
Lemma bound_kind e i a t : EmitSpec.bound u x e i a t -> is_tag_kind (kind u i) = false.
Proof.
  assert (BF : bound_function u x i a t -> is_tag_kind (kind u i) = false).
  { intros [static n0 args Sf]. unfold supports_function in Sf. unfold kind. destruct (d_kind (u_decls u i)); try discriminate; reflexivity. }
  assert (Ek : supports_operator (u_decls u i) = true -> is_tag_kind (kind u i) = false).
  { unfold supports_operator, kind. destruct (d_kind (u_decls u i)); try discriminate; reflexivity. }
  assert (BA : bound_alias u x i a t -> is_tag_kind (kind u i) = false) by (intros [v n0 t1 K]; rewrite K; reflexivity).
  assert (V : kind u i = KVar \/ kind u i = KField -> is_tag_kind (kind u i) = false) by (intros [-> | ->]; reflexivity).
  destruct e as [|c|c|r p]; cbn; intros Hb.
  - destruct Hb; auto.
  - destruct Hb; auto.
  - destruct Hb as [n0 Ex Cn]. rewrite (proj2 (pn_enumerators _ _ _ Hp i Ex)). reflexivity.
  - destruct Hb as [t Sf F|t A|l K|static readonly n0 K _ Cn _|args K|p0 ps K|n0 K _ _ _ E N|k types n0 l _ _ K _ _ _ _ _ E]; auto; try (rewrite K; reflexivity). destruct K as [[K _]|[K _]]; auto.
Qed.

Lemma property_named e dv decls st1 st2 ss rs0 t m : define u x e dv decls st1 = Some (st2, ss, rs0) -> faithful u st2 ->
  (forall i, In i (flat_map (expand x) decls) -> d_skip (u_decls u i) = false -> valid_annotations (u_decls u i)) ->
  In t ss -> closing t = true -> name_in t = Some m -> identifier m.
Proof.
  intros D Fa V Ht Hc Hm. destruct (define_spec _ _ _ _ _ _ _ _ _ D) as [_ _ _ _ _ _ _ (uss & F & H & _) _].
  destruct t as [| | | | | | | |n0 g s| | | |]; try discriminate. injection Hm as <-. apply H in Ht as [Hg _].
  apply last_of_in in Hg. unfold users in Hg. apply in_map_iff in Hg as (t & E & Hf). apply filter_In in Hf as [Ht Hf]. apply andb_true_iff in Hf as [Hf1 Hf2].
  destruct t as [[i setter] n1]. cbn [fst snd] in *. subst g. apply str_eqb_eq in Hf2. subst n1. destruct setter; [discriminate|].
  destruct (uses_shown _ _ _ _ _ _ i F (i, false, n0) Ht eq_refl) as (Hi & a & Ha & Sh).
  apply concat_in in Ht as (us & Hus & Ht). destruct (forall2_in_r _ _ _ _ F Hus) as (j & Hj & H1 & H2).
  destruct e as [|k|k|r p]; try (exfalso; rewrite H2 in Ht; [destruct Ht|intros (r0 & p0 & a0 & E & _); discriminate]).
  destruct (lookup_attrs st2 j) as [aj|] eqn:El; [|exfalso; rewrite H2 in Ht; [destruct Ht|intros (r0 & p0 & a0 & _ & E & _); discriminate]].
  assert (Hsh : {shown dv aj} + {~ shown dv aj}).
  { unfold shown. destruct (n_visible (at_named aj)) as [[]|]; [left; auto|right; intros [?|[? _]]; discriminate|].
    destruct dv; [left; auto|right; intros [?|[_ ?]]; discriminate]. }
  destruct Hsh as [Hsh|Hsh]; [|exfalso; rewrite H2 in Ht; [destruct Ht|intros (r0 & p0 & a0 & _ & [= <-] & E & _); auto]].
  destruct (supports_method (u_decls u j)) eqn:Es; [|exfalso; rewrite H2 in Ht; [destruct Ht|intros (r0 & p0 & a0 & _ & _ & _ & E); discriminate]].
  destruct (H1 r p aj eq_refl eq_refl Hsh eq_refl) as (gs & sts & _ & Gs & _ & _ & ->).
  assert (Hin : In n0 (m_getter_for (at_method aj))) by (apply Gs; apply in_app_iff in Ht as [Ht|Ht]; apply in_map_iff in Ht as (q & [= _ <-] & Hq); exact Hq).
  assert (Hk : is_tag_kind (kind u j) = false) by (unfold supports_method, supports_function in Es; unfold kind; destruct (d_kind (u_decls u j)); try (rewrite ?andb_false_r in Es; discriminate Es); reflexivity).
  assert (Ho := Fa j aj Hk El). destruct (d_skip (u_decls u j)) eqn:Esk.
  { destruct Ho as (st & ds & E1 & E2). unfold insert in E1. rewrite Esk in E1. injection E1 as <- _. discriminate E2. }
  destruct (valid_described u j aj Ho (V j Hj Esk) Esk) as (ans & v & _ & De & Wf).
  apply (de_getter_for _ _ _ _ De) in Hin as (an & Han & Kan & Ha'). specialize (Wf an Han).
  inversion Wf; subst; try discriminate Kan. cbn in Ha'. apply in_map_iff in Ha' as (q & [= ->] & Hq).
  match goal with F : Forall identifier _ |- _ => rewrite Forall_forall in F; exact (F _ Hq) end.
Qed.

Theorem python_names : (forall r, In r rs -> is_error_ereport r = false) ->
  exists g vis order all chunks post, exposed u found implicit name g vis b /\ generated u w g vis (bs_annotations b) name rs st' order all post /\ layout name post all chunks files /\
  forall e, In e all ->
    (forall m, introduced_name (ex_intro e) = Some m -> identifier m \/ (m = u_name u (ex_context e) /\ ~ proper_name (names (ex_context e)))) /\
    (forall t m, In t (ex_body e) -> name_in t = Some m -> identifier m \/ nameless_operator t).
Proof.
  intros Ne. destruct (late_reported u w found implicit iteration n name b files rs st' Se Hn HG) as (g & vis & order & all & chunks & post & X & G & Ly & _ & _ & V).
  exists g, vis, order, all, chunks, post. split; [exact X|]. split; [exact G|]. split; [exact Ly|]. intros e He. split.
  - intros m Hm. assert (Hd : named u (bs_annotations b) (ex_context e) m).
    { destruct (ge_introduces _ _ _ _ _ _ _ _ _ _ _ G e He) as [I _]. unfold introduces in I. destruct (kind u (ex_context e)) eqn:K;
      try (destruct I as (p & I); rewrite I in Hm; discriminate);
      [destruct (ex_intro e); try contradiction; [discriminate|injection Hm as <-; apply I]|..].
      all: decompose [ex and] I; match goal with E : ex_intro _ = _ |- _ => rewrite E in Hm end; injection Hm as <-; assumption. }
    unfold named in Hd. assert (Up : identifier (u_name u (ex_context e)) \/ ~ proper_name (names (ex_context e))).
    { destruct (proper_dec (names (ex_context e))) as [Q|Q]; [left; rewrite Hu; apply get_spelling_identifier, Q|right; exact Q]. }
    destruct (lookup_attrs (bs_annotations b) (ex_context e)) as [a|] eqn:Ea; [|subst m; destruct Up; auto].
    assert (Sp : n_spelling (at_named a) = [] \/ identifier (n_spelling (at_named a))).
    { destruct X as (contexts & warned & E). assert (H := process_spec u (se_placed _ _ _ Se) found implicit name). rewrite E in H. destruct H as (vis0 & contexts0 & Hb & _).
      eapply stored_spelled; [exact (se_placed _ _ _ Se)|exact Hb|exact Hu|exact Hp|exact Ea]. }
    destruct Hd as [(N & ->)|[(_ & N & _)|(_ & _ & ->)]]; [left; destruct Sp; [contradiction|assumption]|destruct (N eq_refl)|destruct Up; auto].
  - intros t m Ht Hm. destruct (ge_bodies _ _ _ _ _ _ _ _ _ _ _ G) as (rss & Fb & Er).
    destruct (forall2_in_l _ _ _ _ Fb He) as (r & _ & y & st1 & st2 & Hc & D & X1 & X2 & Ff).
    destruct (exposed_graph _ _ _ _ _ Se _ _ _ _ X) as (_ & _ & _ & Fa & _). assert (F2 := define_faithful _ _ _ _ _ _ _ _ _ D (Ff Fa)).
    destruct (closing t) eqn:Ct.
    + left. eapply property_named; try eassumption. intros i Hi Hs. destruct (V i) as [Q|(d & H1 & H2)]; [|exact Q|].
      * split; [exact Hs|]. exists e. split; [exact He|]. exists y. split; [exact Hc|exact Hi].
      * specialize (Ne _ H1). cbn in Ne. congruence.
    + apply (in_parts _ _ _ _ _ _ _ _ _ D t Ct) in Ht as (i & Hi & a & Ha & Sh & Hb). assert (Hk := bound_kind _ _ _ _ Hb).
      exact (bound_named _ _ _ _ _ Hk (F2 i a Hk Ha) Hb Hm).
Qed.
End Run.
