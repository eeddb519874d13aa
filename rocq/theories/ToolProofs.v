(** * Proofs about the command line tool *)
From Verif Require Import Base ParserModel StringModel StringSpec StringProofs AnnotModel CollectModel GraphModel OrderModel InlineModel EmitModel ModuleModel ToolModel ToolSpec.

(** ** Pragmas *)

Lemma lex_cut t ts : lex true (t :: ts) = (Some t, ts, match ts with [] => true | _ => false end).
Proof. destruct ts; reflexivity. Qed.

(** Exact description of a single pragma. *)
Lemma handle_pragma_iff p includes :
  (exists h, include_pragma p h /\ pg_accepted p = true /\ handle_pragma (pg_accepted p) (pg_cut p) (pg_tokens p) includes = (includes ++ [h], false)) \/
  (exists h t, pg_tokens p = [Ident ($"include"); Header h; t] /\ h <> [] /\ pg_cut p = true /\ pg_accepted p = true /\
     handle_pragma (pg_accepted p) (pg_cut p) (pg_tokens p) includes = (includes ++ [h], false)) \/
  (exists h t ts, pg_tokens p = Ident ($"include") :: Header h :: t :: ts /\ h <> [] /\ (pg_cut p = true -> ts <> []) /\ pg_accepted p = true /\
     handle_pragma (pg_accepted p) (pg_cut p) (pg_tokens p) includes = (includes ++ [h], true)) \/
  ((forall h, pg_accepted p = true -> h <> [] -> ~ exists ts, pg_tokens p = Ident ($"include") :: Header h :: ts) /\
     handle_pragma (pg_accepted p) (pg_cut p) (pg_tokens p) includes = (includes, true)).
Proof.
  destruct p as [acc cut ts]. cbn [pg_accepted pg_cut pg_tokens]. unfold include_pragma, handle_pragma. cbn [pg_accepted pg_cut pg_tokens]. destruct acc; cbn [negb].
  2: { right. right. right. split; [discriminate|reflexivity]. }
  destruct ts as [|[s|s|] ts].
  - right. right. right. split; [|reflexivity]. intros h _ _ (x & E). discriminate.
  - destruct (str_eqb s ($"include")) eqn:E.
    + apply str_eqb_eq in E. subst s. destruct ts as [|[s|[|c h]|] ts].
      * right. right. right. split; [|destruct cut; reflexivity]. intros h _ _ (x & E). discriminate.
      * right. right. right. split; [intros h _ _ (x & E); discriminate|]. destruct ts; reflexivity.
      * right. right. right. split; [intros h _ Hh (x & E); injection E as <- _; destruct (Hh eq_refl)|]. destruct ts; reflexivity.
      * destruct ts as [|t [|t2 ts]].
        -- left. exists (c :: h). split; [split; [reflexivity|discriminate]|]. split; [reflexivity|]. destruct cut; reflexivity.
        -- destruct cut.
           ++ right. left. exists (c :: h), t. do 4 (split; [first [reflexivity|discriminate]|]). reflexivity.
           ++ right. right. left. exists (c :: h), t, []. do 4 (split; [first [reflexivity|discriminate]|]). reflexivity.
        -- right. right. left. exists (c :: h), t, (t2 :: ts). split; [reflexivity|]. split; [discriminate|]. split; [discriminate|]. split; [reflexivity|]. reflexivity.
      * right. right. right. split; [intros h _ _ (x & E); discriminate|]. destruct ts; reflexivity.
    + right. right. right. apply str_eqb_neq in E. split; [intros h _ _ (x & E'); injection E' as E' _; destruct (E E')|].
      destruct ts as [|t ts]; cbn [lex]; [destruct cut; [reflexivity|]|]; apply str_eqb_neq in E; rewrite E; reflexivity.
  - right. right. right. split; [intros h _ _ (x & E); discriminate|]. destruct ts; reflexivity.
  - right. right. right. split; [intros h _ _ (x & E); discriminate|]. destruct ts; reflexivity.
Qed.

Lemma handle_pragmas_spec : forall ps includes, Forall terminated ps ->
  (forall hs, Forall2 (fun p h => pg_accepted p = true /\ include_pragma p h) ps hs -> handle_pragmas ps includes = (includes ++ hs, false)) /\
  (snd (handle_pragmas ps includes) = false -> exists hs, Forall2 (fun p h => pg_accepted p = true /\ include_pragma p h) ps hs).
Proof.
  induction ps as [|p ps IH]; intros includes Ht.
  - split; [|intros _; exists []; constructor]. intros hs H. inversion H; subst. cbn. rewrite app_nil_r. reflexivity.
  - inversion Ht as [|? ? Hp Hps]; subst. cbn [handle_pragmas]. destruct (handle_pragma_iff p includes) as [(h & Hi & Ha & ->)|[(h & t & Et & Hh & Hcut & Ha & ->)|[(h & t & ts & Et & Hh & Hcut & Ha & ->)|[Hno ->]]]].
    + destruct (IH (includes ++ [h]) Hps) as [I1 I2]. split.
      * intros hs H. inversion H as [|? h' ? hs' [_ Hi'] Hr]; subst. rewrite (I1 _ Hr).
        assert (h' = h) by (destruct Hi as [E _]; destruct Hi' as [E' _]; congruence). subst. rewrite <- app_assoc. reflexivity.
      * destruct (handle_pragmas ps (includes ++ [h])) as [inc e] eqn:E. cbn [snd orb] in *. intros He. destruct (I2 He) as (hs & H). exists (h :: hs). constructor; [split; assumption|exact H].
    + exfalso. destruct Hp as [Hp|Hp]; [congruence|]. rewrite Et in Hp. destruct (Hp eq_refl).
    + destruct (handle_pragmas ps (includes ++ [h])) as [inc e]. cbn [snd orb]. split; [|discriminate].
      intros hs H. exfalso. inversion H as [|? h' ? hs' [_ [E _]] Hr]; subst. rewrite Et in E. discriminate.
    + destruct (handle_pragmas ps includes) as [inc e]. cbn [snd orb]. split; [|discriminate].
      intros hs H. exfalso. inversion H as [|? h' ? hs' [Ha [E Hne]] Hr]; subst. apply (Hno h' Ha Hne). eexists. exact E.
Qed.

(** Whatever is recorded has been asked for. *)
Lemma handle_pragmas_recorded : forall ps includes, exists hs, fst (handle_pragmas ps includes) = includes ++ hs /\
  forall h, In h hs -> exists p ts, In p ps /\ pg_accepted p = true /\ pg_tokens p = Ident ($"include") :: Header h :: ts.
Proof.
  induction ps as [|p ps IH]; intros includes; cbn [handle_pragmas]; [exists []; cbn; rewrite app_nil_r; split; [reflexivity|intros h []]|].
  assert (H : exists hs0, (hs0 = [] \/ exists h ts, hs0 = [h] /\ pg_accepted p = true /\ pg_tokens p = Ident ($"include") :: Header h :: ts) /\
    fst (handle_pragma (pg_accepted p) (pg_cut p) (pg_tokens p) includes) = includes ++ hs0).
  { destruct (handle_pragma_iff p includes) as [(h & [Et _] & Ha & ->)|[(h & t & Et & Hh & Hcut & Ha & ->)|[(h & t & ts & Et & Hh & Hcut & Ha & ->)|[Hno ->]]]].
    1-3: exists [h]; split; [right; exists h; eexists; split; [reflexivity|split; [exact Ha|exact Et]]|reflexivity].
    exists []. split; [left; reflexivity|]. rewrite app_nil_r. reflexivity. }
  destruct H as (hs0 & Hs0 & E). destruct (handle_pragma _ _ _ includes) as [inc e]. cbn [fst] in E. subst inc.
  destruct (IH (includes ++ hs0)) as (hs & E & Hs). destruct (handle_pragmas ps (includes ++ hs0)) as [inc e']. cbn [fst] in *. subst inc.
  exists (hs0 ++ hs). split; [rewrite app_assoc; reflexivity|]. intros h Hh. apply in_app_iff in Hh. destruct Hh as [Hh|Hh].
  - destruct Hs0 as [->|(h0 & ts & -> & Ha & Et)]; [destruct Hh|]. destruct Hh as [<-|[]]. exists p, ts. split; [left; reflexivity|split; assumption].
  - destruct (Hs h Hh) as (q & ts & Hq & X). exists q, ts. split; [right; exact Hq|exact X].
Qed.

Lemma recorded_headers ps h : In h (fst (handle_pragmas ps [])) -> exists p ts, In p ps /\ pg_accepted p = true /\ pg_tokens p = Ident ($"include") :: Header h :: ts.
Proof. destruct (handle_pragmas_recorded ps []) as (hs & E & H). rewrite E. apply H. Qed.

(** ** Paths *)

Lemma is_slash_iff c : is_slash c = true <-> c = "/"%char.
Proof.
  unfold is_slash. rewrite N.eqb_eq. split; [|intros ->; reflexivity]. intros H. rewrite <- (ascii_N_embedding c). unfold code in H. rewrite H. reflexivity.
Qed.

Lemma is_absolute_rooted p : is_absolute p = true -> rooted p.
Proof.
  unfold is_absolute, rooted. destruct p as [|a [|b [|c p]]]; try discriminate; destruct (is_slash a) eqn:E; try discriminate; apply is_slash_iff in E; subst; intros _; eexists; reflexivity.
Qed.

Lemma absolute_spec p : rooted p -> (forall c r, p = $"//" ++ c :: r -> c = "/"%char \/ In "/"%char r) -> is_absolute p = true.
Proof.
  intros (r & ->) H. unfold is_absolute. cbn [app list_ascii_of_string]. destruct r as [|b [|c r]]; [reflexivity|reflexivity|].
  change (is_slash "/"%char) with true. cbn match. destruct (is_slash b) eqn:Eb; cbn [andb]; [|reflexivity]. destruct (is_slash c) eqn:Ec; cbn [negb]; [reflexivity|].
  apply is_slash_iff in Eb. subst b. destruct (H c r eq_refl) as [->|Hr]; [discriminate|]. apply existsb_exists. exists "/"%char. split; [exact Hr|reflexivity].
Qed.

Lemma parse_outputs_spec : forall l l', map_opt parse_output l = Some l' -> l' = l /\ forall p, In p l -> p = $"-" \/ rooted p.
Proof.
  induction l as [|p l IH]; intros l' H; cbn [map_opt] in H; [injection H as <-; split; [reflexivity|intros p []]|].
  unfold parse_output at 1 in H. destruct (str_eqb p ($"-") || is_absolute p) eqn:E; [|discriminate].
  destruct (map_opt parse_output l) as [l0|] eqn:El; [|discriminate]. injection H as <-. destruct (IH l0 eq_refl) as [-> Hl]. split; [reflexivity|].
  intros q [<-|Hq]; [|exact (Hl q Hq)]. apply orb_prop in E. destruct E as [E|E]; [left; apply str_eqb_eq, E|right; apply is_absolute_rooted, E].
Qed.

Lemma parse_outputs_none l : map_opt parse_output l = None <-> exists p, In p l /\ p <> $"-" /\ is_absolute p = false.
Proof.
  induction l as [|p l IH]; cbn [map_opt].
  - split; [discriminate|intros (p & [] & _)].
  - unfold parse_output at 1. destruct (str_eqb p ($"-") || is_absolute p) eqn:E.
    + assert (H : (exists q, In q (p :: l) /\ q <> $"-" /\ is_absolute q = false) <-> exists q, In q l /\ q <> $"-" /\ is_absolute q = false).
      { split; intros (q & Hq & Hn & Ha); exists q; (split; [|split; assumption]); [|right; exact Hq]. destruct Hq as [<-|Hq]; [|exact Hq]. exfalso.
        apply orb_prop in E. destruct E as [E|E]; [apply str_eqb_eq in E; congruence|congruence]. }
      rewrite H, <- IH. destruct (map_opt parse_output l); split; congruence.
    + split; [intros _|reflexivity]. apply orb_false_iff in E. destruct E as [E1 E2]. apply str_eqb_neq in E1. exists p. split; [left; reflexivity|split; assumption].
Qed.

Lemma filename_spec path : exists dir, path = dir ++ filename path /\ ~ In "/"%char (filename path) /\ (dir = [] \/ exists d, dir = d ++ $"/").
Proof.
  induction path as [|c p IH]; cbn [filename]; [exists []; split; [reflexivity|split; [intros []|left; reflexivity]]|].
  destruct (existsb is_slash p) eqn:E.
  - destruct IH as (dir & Hp & Hn & Hd). exists (c :: dir). split; [cbn; rewrite <- Hp; reflexivity|]. split; [exact Hn|]. right.
    destruct Hd as [->|(d & ->)]; [|exists (c :: d); reflexivity]. exfalso. apply existsb_exists in E. destruct E as (x & Hx & E). apply is_slash_iff in E. subst x. cbn in Hp. rewrite <- Hp in Hn. exact (Hn Hx).
  - assert (Hn : ~ In "/"%char p). { intros C. assert (existsb is_slash p = true) by (apply existsb_exists; exists "/"%char; split; [exact C|reflexivity]). congruence. }
    destruct (is_slash c) eqn:Ec.
    + apply is_slash_iff in Ec. subst c. exists ($"/"). split; [reflexivity|]. split; [exact Hn|]. right. exists []. reflexivity.
    + exists []. split; [reflexivity|]. split; [|left; reflexivity]. intros [C|C]; [subst; discriminate|exact (Hn C)].
Qed.

Lemma filename_unique path name : (path = name \/ exists dir, path = dir ++ $"/" ++ name) -> ~ In "/"%char name -> filename path = name.
Proof.
  intros H Hn. destruct (filename_spec path) as (d & E & Hf & Hd).
  assert (G : forall a b c d0 : str, a ++ "/"%char :: b = c ++ "/"%char :: d0 -> ~ In "/"%char b -> ~ In "/"%char d0 -> b = d0).
  { induction a as [|x a IH]; intros b c d0 Heq Hb Hd0; destruct c as [|y c]; cbn in Heq.
    - congruence.
    - injection Heq as Hy Hc. subst. exfalso. apply Hb, in_app_iff. right. left. reflexivity.
    - injection Heq as Hy Hc. subst. exfalso. apply Hd0, in_app_iff. right. left. reflexivity.
    - injection Heq as _ Heq. exact (IH b c d0 Heq Hb Hd0). }
  destruct H as [->|(dir & H)]; destruct Hd as [->|(d0 & ->)].
  - symmetry. exact E.
  - exfalso. apply Hn. rewrite E. apply in_app_iff. left. apply in_app_iff. right. left. reflexivity.
  - exfalso. cbn in E. apply Hf. rewrite <- E, H. apply in_app_iff. right. left. reflexivity.
  - rewrite H in E at 1. rewrite <- app_assoc in E. symmetry. exact (G dir name d0 (filename path) E Hn Hf).
Qed.

Lemma before_last_dot_spec p : match before_last_dot p with
  | Some q => exists ext, p = q ++ $"." ++ ext /\ ~ In "."%char ext
  | None => ~ In "."%char p end.
Proof.
  induction p as [|c p IH]; cbn [before_last_dot]; [intros []|]. destruct (before_last_dot p) as [q|].
  - destruct IH as (ext & -> & H). exists ext. split; [reflexivity|exact H].
  - destruct (N.eqb_spec (code c) 46) as [E|E].
    + assert (c = "."%char) by (rewrite <- (ascii_N_embedding c); unfold code in E; rewrite E; reflexivity). subst c. exists p. split; [reflexivity|exact IH].
    + intros [->|C]; [apply E; reflexivity|exact (IH C)].
Qed.

Lemma stem_spec path base : has_stem path base -> base <> [] -> base <> $"." -> stem path = base.
Proof.
  intros (name & Hp & Hn & Hb) Hbase Hdot. unfold stem. rewrite (filename_unique path name Hp Hn).
  destruct (str_eqb name ($".") || str_eqb name ($"..")) eqn:E.
  - exfalso. apply orb_prop in E. destruct Hb as [[-> Hd]|(ext & -> & He)].
    + destruct E as [E|E]; apply str_eqb_eq in E; subst; apply Hd; left; reflexivity.
    + destruct E as [E|E]; apply str_eqb_eq in E; destruct base as [|x [|y base]]; cbn in E; try discriminate; try congruence.
      * injection E as -> E. destruct ext; [|discriminate]. apply Hdot. reflexivity.
      * injection E as _ _ E. destruct base; discriminate.
  - pose proof (before_last_dot_spec name) as H. destruct (before_last_dot name) as [q|].
    + destruct H as (ext & -> & He). destruct Hb as [[<- Hd]|(ext' & E' & He')]; [exfalso; apply Hd, in_app_iff; right; left; reflexivity|].
      clear - He He' E'. revert base E'. induction q as [|x q IH]; intros [|y base] E'; cbn in E'.
      * reflexivity.
      * injection E' as Hy Hc. subst. exfalso. apply He, in_app_iff. right. left. reflexivity.
      * injection E' as Hy Hc. subst. exfalso. apply He', in_app_iff. right. left. reflexivity.
      * injection E' as -> E'. f_equal. exact (IH base E').
    + destruct Hb as [[-> _]|(ext & -> & _)]; [reflexivity|]. exfalso. apply H, in_app_iff. right. left. reflexivity.
Qed.

(** ** Text *)

Lemma lines_app a b ls ls' : lines a ls -> lines b ls' -> lines (a ++ b) (ls ++ ls').
Proof. induction 1; intros H'; cbn; [exact H'|]. rewrite <- app_assoc. cbn. constructor; auto. Qed.

Lemma preamble_lines main_file includes : ~ In newline main_file -> (forall h, In h includes -> ~ In newline h) ->
  lines (preamble main_file includes) ([$"#include " ++ quote :: main_file ++ [quote]; $"#include <genpybind/binding-helpers.h>"; $"#include <pybind11/pybind11.h>"] ++
    map (fun h => $"#include " ++ h) includes ++ [[]]).
Proof.
  intros Hm Hh. unfold preamble.
  assert (E : forall t, $"#include " ++ quote :: main_file ++ quote :: newline :: t = ($"#include " ++ quote :: main_file ++ [quote]) ++ newline :: t).
  { intros t. rewrite <- app_assoc. cbn. rewrite <- app_assoc. reflexivity. }
  rewrite E. apply (lines_cons ($"#include " ++ quote :: main_file ++ [quote])).
  { intros C. apply in_app_iff in C. destruct C as [C|C]; [cbn in C; repeat (destruct C as [C|C]; [discriminate|]); exact C|]. destruct C as [C|C]; [discriminate|].
    apply in_app_iff in C. destruct C as [C|[C|[]]]; [exact (Hm C)|discriminate]. }
  assert (N : forall s : string, forallb (fun c => negb (code c =? 10)%N) ($s) = true -> ~ In newline ($s)).
  { intros s Hs C. rewrite forallb_forall in Hs. apply Hs in C. discriminate. }
  apply (lines_cons ($"#include <genpybind/binding-helpers.h>")); [apply N; reflexivity|].
  apply (lines_cons ($"#include <pybind11/pybind11.h>")); [apply N; reflexivity|].
  induction includes as [|h hs IH]; cbn [flat_map map app].
  - apply (lines_cons [] []); [intros []|constructor].
  - rewrite <- !app_assoc. cbn [app]. rewrite app_assoc. apply lines_cons.
    + intros C. apply in_app_iff in C. destruct C as [C|C]; [revert C; apply (N "#include "%string); reflexivity|exact (Hh h (or_introl eq_refl) C)].
    + apply IH. intros x Hx. apply Hh. right. exact Hx.
Qed.

(** ** One command *)

Lemma contexts_reports u : forall cs b b', process_contexts u cs b = Done b' -> bs_reports b' = bs_reports b.
Proof.
  induction cs as [|c cs IH]; intros b b' H; cbn [process_contexts] in H; [injection H as <-; reflexivity|].
  destruct (process_context u c b) as [b1| |] eqn:E; try discriminate. rewrite (IH _ _ H). unfold process_context in E.
  destruct (assoc _ _); [injection E as <-; reflexivity|]. destruct (lookup_context u c); [|discriminate]. injection E as <-. reflexivity.
Qed.

Lemma built_without_errors u b : build_graph u = Done (true, b) -> errors_occurred (bs_reports b) = false.
Proof.
  unfold build_graph. destruct (collect u) as [s|]; [|discriminate]. cbn [bs_reports]. destruct (errors_occurred (cs_reports s)); [discriminate|].
  destruct (process_aliases _ _ _) as [s1| |]; try discriminate. destruct (errors_occurred (bs_reports s1)) eqn:E1; [discriminate|].
  destruct (process_contexts _ _ _) as [s2| |] eqn:E2; try discriminate. intros H. injection H as <-. rewrite (contexts_reports _ _ _ _ E2). exact E1.
Qed.

Lemma pruned_without_errors u found implicit name g contexts vis warned b :
  process u found implicit name = Done (Pruned g contexts vis warned b) -> errors_occurred (bs_reports b) = false.
Proof.
  unfold process. destruct (build_graph u) as [[[|] b0]| |] eqn:E; try discriminate. destruct (derive_effective_visibility _ _ _); [|discriminate].
  destruct (expose_here_cycles _ _ _ _); [|discriminate]. destruct (contexts_with_visible_decls _ _ _ _ _ _); [|discriminate].
  destruct (hide_namespaces _ _ _ _ _ _) as [[? ?]|]; [|discriminate]. destruct (prune_graph _ _ _ _); [|discriminate]. intros H. injection H as _ _ _ _ <-. exact (built_without_errors u b0 E).
Qed.

Lemma open_outputs_spec env : forall l, exists opened, fst (open_outputs env l) = opened /\ (exists more, l = opened ++ more) /\
  (snd (open_outputs env l) = false <-> forall p, In p l -> can_open env p = true) /\ (snd (open_outputs env l) = false -> opened = l).
Proof.
  induction l as [|p l (opened & E & (more & El) & H & Hall)]; cbn [open_outputs].
  - exists []. split; [reflexivity|]. split; [exists []; reflexivity|]. split; [|reflexivity]. split; [intros _ p []|reflexivity].
  - destruct (can_open env p) eqn:Ep.
    + destruct (open_outputs env l) as [l0 e]. cbn [fst snd] in *. subst l0. exists (p :: opened). split; [reflexivity|]. split; [exists more; cbn; congruence|]. split; [|intros He; rewrite (Hall He); reflexivity].
      rewrite H. split; [intros Ha q [<-|Hq]; auto|intros Ha q Hq; apply Ha; right; exact Hq].
    + exists []. split; [reflexivity|]. split; [exists (p :: l); reflexivity|]. split; [|discriminate]. split; [discriminate|]. intros Ha. rewrite (Ha p (or_introl eq_refl)) in Ep. discriminate.
Qed.

(** Number of parts. *)
Lemma write_to_length {A} (items : list A) : forall k s s', write_to k items s = Some s' -> length s' = length s.
Proof.
  induction k as [|k IH]; intros [|x s] s' H; cbn in H; try discriminate; [injection H as <-; reflexivity|].
  destruct (write_to k items s) eqn:E; [|discriminate]. injection H as <-. cbn. rewrite (IH _ _ E). reflexivity.
Qed.

Lemma loop_length u w g vis total : forall ts o o', fold_opt (define_step u w g vis total) ts o = Some o' -> length (o_streams o') = length (o_streams o).
Proof.
  induction ts as [|t ts IH]; intros o o' H; cbn [fold_opt] in H; [injection H as <-; reflexivity|].
  destruct (define_step u w g vis total o t) as [o1|] eqn:E; [|discriminate]. rewrite (IH _ _ H). unfold define_step in E.
  destruct (define_context _ _ _ _ _ _ _) as [[[st items] rs]|]; [|discriminate]. destruct (write_to _ items _) as [s|] eqn:Ew; [|discriminate]. injection E as <-. cbn. exact (write_to_length _ _ _ _ Ew).
Qed.

Lemma emit_length u w g vis st nodes n name parts reports st' :
  emit_module u w g vis st nodes n name = Some (EWritten parts reports st') -> length parts = n.
Proof.
  unfold emit_module. destruct n as [|n]; [discriminate|]. destruct (find_enclosing_scopes _ _ _); [|discriminate]. destruct (sort_contexts _ _ _ _ _ _) as [[order|c]|]; try discriminate.
  destruct (make_plan _ _ _ _); [|discriminate]. destruct (map_opt _ _); [|discriminate]. destruct (map_opt _ _); [|discriminate].
  destruct (fold_opt _ _ _) as [o|] eqn:E; [|discriminate]. cbn [option_map]. intros H. injection H as <- _ _. rewrite (loop_length _ _ _ _ _ _ _ _ E). cbn. rewrite repeat_length. reflexivity.
Qed.

Lemma generates_length outputs name j parts reports : generates outputs name j parts reports -> length parts = length outputs.
Proof.
  intros (b & st & H). unfold generate in H. destruct (process _ _ _ _) as [[rs|al|g ctx vis warned b0]| |]; try discriminate.
  destruct (emit_module _ _ _ _ _ _ _ _) as [e|] eqn:E; [|discriminate]. cbn in H. injection H as _ ->. exact (emit_length _ _ _ _ _ _ _ _ _ _ _ E).
Qed.

(** What happens to a translation unit, in terms of [generate]. *)
Lemma handle_unit_spec env outputs name includes j l e : handle_unit env outputs name includes j = Some (l, e) ->
  let all_open := forall p, In p outputs -> can_open env p = true in
  (all_open /\ exists parts reports, generates outputs name j parts reports /\ l = combine outputs (map (New (preamble (j_main j) includes)) parts) /\ e = existsb is_error_ereport reports) \/
  (e = true /\ (forall parts reports, generates outputs name j parts reports -> ~ all_open) /\
   exists opened more, outputs = opened ++ more /\ map fst l = opened /\
     ((all_open /\ exists b c, generate (j_unit j) (j_facts j) (j_found j) (j_implicit j) (j_iteration j) (length outputs) name = Some (RGraph b (ECycle c))) -> opened = outputs)).
Proof.
  unfold handle_unit, generates, generate. destruct (open_outputs_spec env outputs) as (opened & Eo & (more & Em) & Ho & Hall).
  destruct (process _ _ _ _) as [[rs|al|g ctx vis warned b]| |] eqn:Ep; try discriminate.
  - intros H. injection H as <- <-. right. split; [reflexivity|]. split; [intros parts reports (b & st & X); discriminate|]. exists [], outputs. split; [reflexivity|]. split; [reflexivity|]. intros (_ & b & c & X). discriminate.
  - intros H. injection H as <- <-. right. split; [reflexivity|]. split; [intros parts reports (b & st & X); discriminate|]. exists [], outputs. split; [reflexivity|]. split; [reflexivity|]. intros (_ & b & c & X). discriminate.
  - destruct (open_outputs env outputs) as [l0 [|]]; cbn [fst snd] in *; subst l0.
    + intros H. injection H as <- <-. right. split; [reflexivity|]. assert (N : ~ forall p, In p outputs -> can_open env p = true) by (rewrite <- Ho; discriminate).
      split; [intros; exact N|]. exists opened, more. split; [exact Em|]. split; [rewrite map_map; cbn; apply map_id|]. intros (C & _). destruct (N C).
    + rewrite (Hall eq_refl). clear Hall opened more Em. destruct (emit_module _ _ _ _ _ _ _ _) as [[c|parts reports st]|] eqn:Ee; [| |discriminate].
      * intros H. injection H as <- <-. right. split; [reflexivity|]. split; [cbn; intros parts reports (b' & st & X); discriminate|]. exists outputs, []. split; [rewrite app_nil_r; reflexivity|]. split; [rewrite map_map; cbn; apply map_id|]. reflexivity.
      * intros H. injection H as <- <-. left. split; [apply Ho; reflexivity|]. exists parts, reports. split; [exists b, st; reflexivity|]. split; [reflexivity|]. rewrite (pruned_without_errors _ _ _ _ _ _ _ _ _ Ep). reflexivity.
Qed.

(** ** Closing of files *)

Lemma set_file_same p c fs : set_file p c fs p = c.
Proof. unfold set_file. destruct (str_eqb p p) eqn:E; [reflexivity|]. apply str_eqb_neq in E. congruence. Qed.
Lemma set_file_other p q c fs : p <> q -> set_file p c fs q = fs q.
Proof. intros H. unfold set_file. destruct (str_eqb p q) eqn:E; [apply str_eqb_eq in E; congruence|reflexivity]. Qed.

Lemma erase_spec env : forall l fs out fs' out' e, clear_outputs env true l fs out = (fs', out', e) ->
  e = false /\ out' = out ++ map snd (filter (fun x => str_eqb (fst x) ($"-")) l) /\
  forall p, (p <> $"-" -> In p (map fst l) -> fs' p = None) /\ (p = $"-" \/ ~ In p (map fst l) -> fs' p = fs p).
Proof.
  induction l as [|[p c] l IH]; intros fs out fs' out' e H; cbn [clear_outputs] in H.
  - injection H as <- <- <-. split; [reflexivity|]. split; [cbn; rewrite app_nil_r; reflexivity|]. intros p. split; [intros _ []|reflexivity].
  - cbn [map fst filter]. destruct (str_eqb p ($"-")) eqn:E.
    + apply str_eqb_eq in E. destruct (IH _ _ _ _ _ H) as (H1 & -> & H3). split; [exact H1|]. split; [rewrite <- app_assoc; reflexivity|]. intros q. destruct (H3 q) as [A B]. split.
      * intros Hq [<-|Hi]; [congruence|auto].
      * intros [Hq|Hq]; apply B; [left; exact Hq|right]. intros C. apply Hq. right. exact C.
    + apply str_eqb_neq in E. destruct (IH _ _ _ _ _ H) as (H1 & -> & H3). split; [exact H1|]. split; [reflexivity|]. intros q. destruct (H3 q) as [A B]. split.
      * intros Hq [<-|Hi]; [|auto]. destruct (in_dec (list_eq_dec ascii_dec) p (map fst l)) as [Hi|Hi]; [auto|]. rewrite (B (or_intror Hi)). apply set_file_same.
      * intros Hq. rewrite B; [apply set_file_other; intros ->; destruct Hq as [Hq|Hq]; [congruence|apply Hq; left; reflexivity]|]. destruct Hq as [Hq|Hq]; [left; exact Hq|right; intros C; apply Hq; right; exact C].
Qed.

Lemma keep_spec env : forall l fs out fs' out' e, clear_outputs env false l fs out = (fs', out', e) ->
  out' = out ++ map snd (filter (fun x => str_eqb (fst x) ($"-")) l) /\
  (e = false <-> forall p, In p (map fst l) -> p <> $"-" -> can_rename env p = true) /\
  (forall p, p = $"-" \/ ~ In p (map fst l) -> fs' p = fs p) /\
  ((forall p, In p (map fst l) -> p <> $"-" -> can_rename env p = true) -> NoDup (filter (fun p => negb (str_eqb p ($"-"))) (map fst l)) ->
   forall p c, p <> $"-" -> In (p, c) l -> fs' p = Some c).
Proof.
  induction l as [|[p c] l IH]; intros fs out fs' out' e H; cbn [clear_outputs] in H.
  - injection H as <- <- <-. split; [cbn; rewrite app_nil_r; reflexivity|]. split; [split; [intros _ p []|reflexivity]|]. split; [reflexivity|intros _ _ p c _ []].
  - cbn [map fst filter]. destruct (str_eqb p ($"-")) eqn:E; cbn [negb].
    + apply str_eqb_eq in E. destruct (IH _ _ _ _ _ H) as (-> & H1 & H2 & H3). split; [rewrite <- app_assoc; reflexivity|]. split; [|split].
      * rewrite H1. split; [intros A q [<-|Hq] Hn; [congruence|auto]|intros A q Hq; apply A; right; exact Hq].
      * intros q Hq. apply H2. destruct Hq as [Hq|Hq]; [left; exact Hq|right; intros C; apply Hq; right; exact C].
      * intros A N q d Hq [X|X]; [injection X as -> _; congruence|]. apply H3; auto. intros r Hr. apply A. right. exact Hr.
    + apply str_eqb_neq in E. destruct (can_rename env p) eqn:Er.
      * destruct (IH _ _ _ _ _ H) as (-> & H1 & H2 & H3). split; [reflexivity|]. split; [|split].
        -- rewrite H1. split; [intros A q [<-|Hq] Hn; auto|intros A q Hq; apply A; right; exact Hq].
        -- intros q Hq. rewrite H2; [apply set_file_other; intros ->; destruct Hq as [Hq|Hq]; [congruence|apply Hq; left; reflexivity]|]. destruct Hq as [Hq|Hq]; [left; exact Hq|right; intros C; apply Hq; right; exact C].
        -- intros A N q d Hq X. inversion N as [|? ? Np Nl]; subst.
           destruct X as [X|X]; [|apply H3; auto; intros r Hr; apply A; right; exact Hr]. injection X as -> ->. rewrite H2; [apply set_file_same|]. right. intros C. apply Np, filter_In. split; [exact C|]. apply negb_true_iff, str_eqb_neq, E.
      * destruct (clear_outputs env false l fs out) as [[fs1 out1] e1] eqn:Ec. injection H as <- <- <-. destruct (IH _ _ _ _ _ Ec) as (-> & H1 & H2 & H3). split; [reflexivity|]. split; [|split].
        -- split; [discriminate|]. intros A. rewrite (A p (or_introl eq_refl) E) in Er. discriminate.
        -- intros q Hq. apply H2. destruct Hq as [Hq|Hq]; [left; exact Hq|right; intros C; apply Hq; right; exact C].
        -- intros A. rewrite (A p (or_introl eq_refl) E) in Er. discriminate.
Qed.

Lemma map_fst_combine {A B} : forall (a : list A) (b : list B), length b = length a -> map fst (combine a b) = a.
Proof. induction a as [|x a IH]; intros [|y b] H; cbn in *; try lia; [reflexivity|]. rewrite IH by lia. reflexivity. Qed.

Lemma nth_combine {A B} : forall (a : list A) (b : list B) i x y, nth_error a i = Some x -> nth_error b i = Some y -> In (x, y) (combine a b).
Proof. induction a as [|x0 a IH]; intros b [|i] x y Ha Hb; destruct b as [|y0 b]; try discriminate; cbn in *; [injection Ha as ->; injection Hb as ->; left; reflexivity|right; eauto]. Qed.

Lemma printed_spec text : forall outputs parts, map snd (filter (fun x => str_eqb (fst x) ($"-")) (combine outputs (map (New text) parts))) = printed text outputs parts.
Proof. induction outputs as [|p outputs IH]; intros [|part parts]; cbn [combine map filter printed fst]; try reflexivity. destruct (str_eqb p ($"-")); cbn [map snd]; rewrite IH; reflexivity. Qed.

(** ** Whole runs *)

Lemma parse_options_spec outputs keep xfail name :
  (acceptable outputs -> parse_options outputs keep xfail name = Some (mkOptions (effective outputs) keep xfail name)) /\
  (~ acceptable outputs -> parse_options outputs keep xfail name = None).
Proof.
  unfold parse_options. destruct (map_opt parse_output outputs) as [l|] eqn:E.
  - destruct (parse_outputs_spec _ _ E) as [-> _]. split; [destruct outputs; reflexivity|]. intros H. exfalso. apply H. intros p Hp.
    destruct (str_eqb p ($"-")) eqn:Ep; [left; apply str_eqb_eq, Ep|right]. apply str_eqb_neq in Ep. destruct (is_absolute p) eqn:Ea; [reflexivity|].
    assert (map_opt parse_output outputs = None) by (apply parse_outputs_none; exists p; auto). congruence.
  - split; [|reflexivity]. intros H. exfalso. apply parse_outputs_none in E. destruct E as (p & Hp & Hn & Ha). destruct (H p Hp); congruence.
Qed.

Lemma default_name_cases m main : (m <> [] -> default_name m main = m) /\ (m = [] -> default_name m main = default_name [] main).
Proof. split; [destruct m; [congruence|reflexivity]|intros ->; reflexivity]. Qed.

Lemma no_error_iff rs : existsb is_error_ereport rs = false <-> forall r, In r rs -> is_error_ereport r = false.
Proof.
  split.
  - intros H r Hr. destruct (is_error_ereport r) eqn:E; [|reflexivity]. assert (existsb is_error_ereport rs = true) by (apply existsb_exists; eauto). congruence.
  - intros H. destruct (existsb is_error_ereport rs) eqn:E; [|reflexivity]. apply existsb_exists in E. destruct E as (r & Hr & E). rewrite (H r Hr) in E. discriminate.
Qed.

Lemma generates_unique outputs name j parts reports parts' reports' : generates outputs name j parts reports -> generates outputs name j parts' reports' -> parts' = parts /\ reports' = reports.
Proof. intros (b & st & H) (b' & st' & H'). rewrite H in H'. injection H' as _ -> -> _. split; reflexivity. Qed.

Lemma clear_failed env erase l fs out fs' out' e : clear_outputs env erase l fs out = (fs', out', e) -> erase = true -> e = false.
Proof. intros H ->. apply (erase_spec env _ _ _ _ _ _ H). Qed.

Lemma run_job_failed env o w j w' : run_job env o w j = Some w' ->
  wd_module w' = default_name (wd_module w) (j_main j) /\
  (wd_failed w' = false <-> wd_failed w = false /\ exists parts, succeeds env (op_outputs o) (default_name (wd_module w) (j_main j)) j parts).
Proof.
  unfold run_job. set (name := default_name _ _). destruct (handle_pragmas (j_pragmas j) []) as [includes pe] eqn:Ep.
  destruct (handle_unit _ _ _ _ _) as [[l e]|] eqn:Eu; [|discriminate]. destruct (clear_outputs _ _ _ _ _) as [[fs out] e'] eqn:Ec. intros H. injection H as <-. cbn [wd_module wd_failed]. split; [reflexivity|].
  pose proof (handle_unit_spec _ _ _ _ _ _ _ Eu) as Hs. cbv zeta in Hs.
  rewrite !orb_false_iff. split.
  - intros ((Hw & (Hj & Hp) & He) & He'). split; [exact Hw|]. destruct Hs as [(Ho & parts & reports & Hg & -> & Hr)|(C & _)]; [|congruence].
    exists parts. subst e. rewrite Hj, Hp, He in Ec. cbn in Ec. rewrite andb_false_r in Ec. destruct (keep_spec _ _ _ _ _ _ _ Ec) as (_ & Hk & _).
    rewrite map_fst_combine in Hk by (rewrite map_length; exact (generates_length _ _ _ _ _ Hg)).
    constructor; [exact Hj|rewrite Ep; exact Hp|exact Ho|apply Hk, He'|]. exists reports. split; [exact Hg|]. apply no_error_iff, He.
  - intros (Hw & parts & [Sj Sp So Sr (reports & Hg & Hn)]). rewrite Ep in Sp. cbn [snd] in Sp. subst pe. destruct Hs as [(_ & parts' & reports' & Hg' & -> & ->)|(_ & C & _)]; [|destruct (C _ _ Hg So)].
    destruct (generates_unique _ _ _ _ _ _ _ Hg Hg') as [-> ->]. apply no_error_iff in Hn. rewrite Hn, Sj in *. cbn in Ec. rewrite andb_false_r in Ec.
    destruct (keep_spec _ _ _ _ _ _ _ Ec) as (_ & Hk & _). rewrite map_fst_combine in Hk by (rewrite map_length; exact (generates_length _ _ _ _ _ Hg)). 
    split; [auto|]. apply Hk, Sr.
Qed.

Lemma run_jobs_failed env o : forall jobs w w' ns, fold_opt (run_job env o) jobs w = Some w' -> names (wd_module w) jobs ns ->
  (wd_failed w' = false <-> wd_failed w = false /\ Forall2 (fun n j => exists parts, succeeds env (op_outputs o) n j parts) ns jobs).
Proof.
  induction jobs as [|j jobs IH]; intros w w' ns H Hn; cbn [fold_opt] in H; inversion Hn as [|m j0 js n ns' N1 N2 Hr]; subst.
  - injection H as <-. split; [intros E; split; [exact E|constructor]|tauto].
  - destruct (run_job env o w j) as [w1|] eqn:E; [|discriminate]. destruct (run_job_failed _ _ _ _ _ E) as [Em Ef].
    assert (En : n = default_name (wd_module w) (j_main j)). { destruct (wd_module w) eqn:Ew; [apply N2; reflexivity|apply N1; discriminate]. }
    rewrite <- En in *. rewrite <- Em in Hr. rewrite (IH _ _ _ H Hr), Ef. split.
    + intros [[A B] C]. split; [exact A|]. constructor; assumption.
    + intros [A B]. inversion B; subst. split; [split; assumption|assumption].
Qed.

Lemma exit_status env outputs keep xfail name jobs fs fs' out code ns : main env outputs keep xfail name jobs fs = Some (fs', out, code) ->
  acceptable outputs -> names name jobs ns ->
  (code = 0%N <-> (xfail = false <-> jobs <> [] /\ Forall2 (fun n j => exists parts, succeeds env (effective outputs) n j parts) ns jobs)).
Proof.
  intros H Ha Hn. unfold main in H. rewrite (proj1 (parse_options_spec outputs keep xfail name) Ha) in H. unfold run_jobs in H. cbn [op_module op_xfail] in H.
  destruct (fold_opt _ _ _) as [w|] eqn:E; [|discriminate]. injection H as _ _ <-. pose proof (run_jobs_failed _ _ _ _ _ _ E Hn) as F. cbn [wd_failed op_outputs] in F.
  assert (X : (if wd_failed w then 1 else match jobs with [] => 2 | _ => 0 end)%N = 0%N <-> jobs <> [] /\ Forall2 (fun n j => exists parts, succeeds env (effective outputs) n j parts) ns jobs).
  { destruct (wd_failed w).
    - split; [discriminate|]. intros [_ C]. assert (true = false) by (apply F; split; [reflexivity|exact C]). discriminate.
    - destruct jobs; [split; [discriminate|intros [C _]; congruence]|]. split; [intros _; split; [discriminate|apply F; reflexivity]|reflexivity]. }
  rewrite <- X. set (c := (if wd_failed w then _ else _)). destruct xfail.
  - destruct (N.eqb_spec c 0) as [Ec|Ec].
    + split; [discriminate|]. intros [_ B]. specialize (B Ec). discriminate.
    + split; [intros _; split; [discriminate|intros C; destruct (Ec C)]|reflexivity].
  - split; [intros C; split; auto|intros [B _]; apply B; reflexivity].
Qed.

(** A single command. *)
Lemma single_run env outputs keep xfail name j fs fs' out code : main env outputs keep xfail name [j] fs = Some (fs', out, code) -> acceptable outputs ->
  exists l e e', handle_unit env (effective outputs) (default_name name (j_main j)) (fst (handle_pragmas (j_pragmas j) [])) j = Some (l, e) /\
    clear_outputs env (negb keep && (j_errors j || snd (handle_pragmas (j_pragmas j) []) || e)) l fs [] = (fs', out, e').
Proof.
  intros H Ha. unfold main in H. rewrite (proj1 (parse_options_spec outputs keep xfail name) Ha) in H. unfold run_jobs in H. cbn [fold_opt op_module] in H.
  destruct (run_job _ _ _ j) as [w|] eqn:E; [|discriminate]. injection H as <- <- _. unfold run_job in E. cbn [wd_module wd_files wd_stdout op_outputs op_keep] in E.
  destruct (handle_pragmas (j_pragmas j) []) as [includes pe]. destruct (handle_unit _ _ _ _ _) as [[l e]|]; [|discriminate]. destruct (clear_outputs _ _ _ _ _) as [[fs1 out1] e1] eqn:Ec.
  injection E as <-. cbn [wd_files wd_stdout]. exists l, e, e1. split; [reflexivity|exact Ec].
Qed.

Lemma failing_run env outputs xfail name j fs fs' out code : main env outputs false xfail name [j] fs = Some (fs', out, code) -> acceptable outputs ->
  (forall p, In p (effective outputs) -> p <> $"-" -> can_rename env p = true) ->
  ~ (exists parts, succeeds env (effective outputs) (default_name name (j_main j)) j parts) ->
  forall p, (fs' p = fs p \/ (In p outputs /\ fs' p = None)) /\
    (In p outputs -> p <> $"-" -> (forall q, In q outputs -> can_open env q = true) ->
     (exists b e, generate (j_unit j) (j_facts j) (j_found j) (j_implicit j) (j_iteration j) (length (effective outputs)) (default_name name (j_main j)) = Some (RGraph b e)) -> fs' p = None).
Proof.
  intros H Ha Hr Hf p. destruct (single_run _ _ _ _ _ _ _ _ _ _ H Ha) as (l & e & e' & Hu & Hc). cbn [negb andb] in Hc.
  pose proof (handle_unit_spec _ _ _ _ _ _ _ Hu) as Hs. cbv zeta in Hs.
  assert (Herr : j_errors j || snd (handle_pragmas (j_pragmas j) []) || e = true).
  { destruct (j_errors j || snd (handle_pragmas (j_pragmas j) []) || e) eqn:E; [reflexivity|]. exfalso. apply orb_false_iff in E. destruct E as [E1 E2]. apply orb_false_iff in E1. destruct E1 as [Ej Ep].
    destruct Hs as [(Ho & parts & reports & Hg & _ & ->)|(C & _)]; [|congruence]. apply Hf. exists parts. constructor; auto. exists reports. split; [exact Hg|apply no_error_iff, E2]. }
  rewrite Herr in Hc. destruct (erase_spec _ _ _ _ _ _ _ Hc) as (_ & _ & He). destruct (He p) as [A B].
  assert (Hl : forall q, In q (map fst l) -> In q (effective outputs)).
  { destruct Hs as [(Ho & parts & reports & Hg & -> & _)|(_ & _ & opened & more & Eo & <- & _)]; intros q Hq.
    - rewrite map_fst_combine in Hq by (rewrite map_length; exact (generates_length _ _ _ _ _ Hg)). exact Hq.
    - rewrite Eo. apply in_app_iff. left. exact Hq. }
  split.
  - destruct (in_dec (list_eq_dec ascii_dec) p (map fst l)) as [Hi|Hi]; [|left; apply B; right; exact Hi].
    destruct (str_eqb p ($"-")) eqn:Ep; [left; apply B; left; apply str_eqb_eq, Ep|]. apply str_eqb_neq in Ep. right. split; [|apply A; auto].
    apply Hl in Hi. destruct outputs; [|exact Hi]. destruct Hi as [Hi|[]]. congruence.
  - intros Hp Hn Ho (b & em & Hg). apply A; [exact Hn|].
    assert (Hp' : In p (effective outputs)) by (destruct outputs; [destruct Hp|exact Hp]).
    assert (Ho' : forall q, In q (effective outputs) -> can_open env q = true) by (destruct outputs; [destruct Hp|exact Ho]).
    destruct Hs as [(_ & parts & reports & Hg' & -> & _)|(_ & C & opened & more & Eo & <- & Hcy)].
    + rewrite map_fst_combine by (rewrite map_length; exact (generates_length _ _ _ _ _ Hg')). exact Hp'.
    + destruct em as [c|parts reports st].
      * rewrite Hcy; [exact Hp'|]. split; [exact Ho'|]. exists b, c. exact Hg.
      * exfalso. apply (C parts reports); [exists b, st; exact Hg|exact Ho'].
Qed.

(** Files that are written: without errors, or if they are to be kept. *)
Lemma written_run env outputs keep xfail name j fs fs' out code parts reports : main env outputs keep xfail name [j] fs = Some (fs', out, code) -> acceptable outputs ->
  generates (effective outputs) (default_name name (j_main j)) j parts reports ->
  (forall p, In p (effective outputs) -> can_open env p = true /\ (p <> $"-" -> can_rename env p = true)) ->
  keep = true \/ succeeds env (effective outputs) (default_name name (j_main j)) j parts ->
  NoDup (filter (fun p => negb (str_eqb p ($"-"))) outputs) ->
  let text := preamble (j_main j) (fst (handle_pragmas (j_pragmas j) [])) in
  holds fs' text (effective outputs) parts /\ out = printed text (effective outputs) parts /\ (forall p, p = $"-" \/ ~ In p outputs -> fs' p = fs p).
Proof.
  intros H Ha Hg Ho Hk Hnd text. destruct (single_run _ _ _ _ _ _ _ _ _ _ H Ha) as (l & e & e' & Hu & Hc).
  destruct (handle_unit_spec _ _ _ _ _ _ _ Hu) as [(_ & parts' & reports' & Hg' & -> & ->)|(_ & C & _)]; [|exfalso; apply (C _ _ Hg); intros p Hp; apply Ho, Hp].
  destruct (generates_unique _ _ _ _ _ _ _ Hg Hg') as [-> ->]. fold text in Hc.
  assert (Hl : length parts = length (effective outputs)) by exact (generates_length _ _ _ _ _ Hg).
  assert (He : negb keep && (j_errors j || snd (handle_pragmas (j_pragmas j) []) || existsb is_error_ereport reports) = false).
  { destruct Hk as [->|[Sj Sp _ _ (rs & Hg2 & Hn)]]; [reflexivity|]. destruct (generates_unique _ _ _ _ _ _ _ Hg Hg2) as [_ ->]. apply no_error_iff in Hn. rewrite Sj, Sp, Hn. apply andb_false_r. }
  rewrite He in Hc. destruct (keep_spec _ _ _ _ _ _ _ Hc) as (-> & _ & K2 & K3). rewrite map_fst_combine in K2, K3 by (rewrite map_length; exact Hl).
  split; [|split].
  - split; [exact Hl|]. intros i p part Hi Hpart Hp. apply K3; [intros q Hq; apply Ho, Hq| |exact Hp|].
    + destruct outputs; [constructor|exact Hnd].
    + apply (nth_combine _ _ i); [exact Hi|]. rewrite nth_error_map, Hpart. reflexivity.
  - cbn. apply printed_spec.
  - intros p Hp. apply K2. destruct Hp as [Hp|Hp]; [left; exact Hp|]. destruct outputs as [|q outputs]; [|right; exact Hp].
    destruct (str_eqb p ($"-")) eqn:E; [left; apply str_eqb_eq, E|right]. apply str_eqb_neq in E. intros [C|[]]. congruence.
Qed.

Lemma rejected_run env outputs keep xfail name jobs fs : ~ acceptable outputs -> main env outputs keep xfail name jobs fs = Some (fs, [], 1%N).
Proof. intros H. unfold main. rewrite (proj2 (parse_options_spec outputs keep xfail name) H). reflexivity. Qed.

(** The name of the module. *)
Lemma default_name_spec main base : has_stem main base -> base <> [] -> base <> $"." -> converted base (default_name [] main) /\ identifier (default_name [] main).
Proof.
  intros H Hb Hd. unfold default_name. rewrite (stem_spec main base H Hb Hd). split; [apply make_valid_identifier_spec; reflexivity|].
  apply make_id_valid. exact Hb.
Qed.
