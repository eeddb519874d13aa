(** * Proofs about what a request for another include changes *)
From Coq Require Import Lia.
From Verif Require Import Base ParserModel StringModel AnnotModel CollectModel GraphModel EmitModel ModuleModel ToolModel ToolSpec ToolProofs RequestSpec.

(** ** Pragmas *)

Lemma pragma_additive p includes :
  handle_pragma (pg_accepted p) (pg_cut p) (pg_tokens p) includes =
  (includes ++ fst (handle_pragma (pg_accepted p) (pg_cut p) (pg_tokens p) []), snd (handle_pragma (pg_accepted p) (pg_cut p) (pg_tokens p) [])).
Proof.
  unfold handle_pragma. destruct (negb (pg_accepted p)); [cbn; rewrite app_nil_r; reflexivity|]. destruct (pg_tokens p) as [|t ts]; [cbn; rewrite app_nil_r; reflexivity|].
  destruct (lex (pg_cut p) (t :: ts)) as [[[[s|s|]|] ts1] [|]]; try (cbn; rewrite app_nil_r; reflexivity).
  destruct (str_eqb s ($"include")); [|cbn; rewrite app_nil_r; reflexivity].
  destruct (lex (pg_cut p) ts1) as [[[[s1|[|c h]|]|] ts2] b]; try (cbn; rewrite app_nil_r; reflexivity).
  destruct (lex (pg_cut p) ts2) as [[[t3|] ts3] [|]]; reflexivity.
Qed.

Lemma pragmas_additive : forall ps includes, handle_pragmas ps includes = (includes ++ fst (handle_pragmas ps []), snd (handle_pragmas ps [])).
Proof.
  induction ps as [|p ps IH]; intros includes; cbn [handle_pragmas]; [cbn; rewrite app_nil_r; reflexivity|].
  rewrite (pragma_additive p includes). destruct (handle_pragma (pg_accepted p) (pg_cut p) (pg_tokens p) []) as [hs e]. cbn [fst snd]. rewrite (IH (includes ++ hs)), (IH hs). cbn [fst snd].
  rewrite app_assoc. reflexivity.
Qed.

Lemma pragmas_app ps qs : handle_pragmas (ps ++ qs) [] = (fst (handle_pragmas ps []) ++ fst (handle_pragmas qs []), snd (handle_pragmas ps []) || snd (handle_pragmas qs [])).
Proof.
  induction ps as [|p ps IH]; cbn [app handle_pragmas]; [cbn; apply surjective_pairing|].
  destruct (handle_pragma (pg_accepted p) (pg_cut p) (pg_tokens p) []) as [hs e]. rewrite (pragmas_additive (ps ++ qs) hs), (pragmas_additive ps hs), IH. cbn [fst snd].
  rewrite app_assoc, Bool.orb_assoc. reflexivity.
Qed.

Lemma request_recorded p h : pg_accepted p = true -> include_pragma p h -> handle_pragma (pg_accepted p) (pg_cut p) (pg_tokens p) [] = ([h], false).
Proof. intros Ha [E N]. rewrite Ha, E. destruct h as [|c h]; [destruct (N eq_refl)|]. destruct (pg_cut p); reflexivity. Qed.

Lemma pragmas_request ps p h qs : pg_accepted p = true -> include_pragma p h ->
  exists a b e, handle_pragmas (ps ++ qs) [] = (a ++ b, e) /\ handle_pragmas (ps ++ p :: qs) [] = (a ++ h :: b, e).
Proof.
  intros Ha Hp. exists (fst (handle_pragmas ps [])), (fst (handle_pragmas qs [])), (snd (handle_pragmas ps []) || snd (handle_pragmas qs [])). split; [apply pragmas_app|].
  rewrite pragmas_app. cbn [handle_pragmas]. rewrite (request_recorded p h Ha Hp), (pragmas_additive qs [h]). reflexivity.
Qed.

Lemma preamble_request main_file a b h : exists before after, preamble main_file (a ++ b) = (before ++ [ascii_of_N 10]) ++ after /\
  preamble main_file (a ++ h :: b) = (before ++ [ascii_of_N 10]) ++ ($"#include " ++ h ++ [ascii_of_N 10]) ++ after /\ after <> [].
Proof.
  unfold preamble. set (line := fun include => $"#include " ++ include ++ [newline]).
  assert (E : exists x, $"#include <pybind11/pybind11.h>" ++ newline :: flat_map line a = x ++ [newline]).
  { destruct a as [|y a] using rev_ind; [exists ($"#include <pybind11/pybind11.h>"); reflexivity|]. rewrite flat_map_app. cbn [flat_map]. rewrite app_nil_r. unfold line at 2.
    exists ($"#include <pybind11/pybind11.h>" ++ newline :: flat_map line a ++ $"#include " ++ y). rewrite <- !app_assoc. cbn [app]. rewrite <- !app_assoc. reflexivity. }
  destruct E as (x & E). exists ($"#include " ++ quote :: main_file ++ quote :: newline :: $"#include <genpybind/binding-helpers.h>" ++ newline :: x), (flat_map line b ++ [newline]).
  assert (F : forall r, $"#include " ++ quote :: main_file ++ quote :: newline :: $"#include <genpybind/binding-helpers.h>" ++ newline :: $"#include <pybind11/pybind11.h>" ++ newline :: flat_map line a ++ r =
    (($"#include " ++ quote :: main_file ++ quote :: newline :: $"#include <genpybind/binding-helpers.h>" ++ newline :: x) ++ [newline]) ++ r).
  { intros r. rewrite <- !app_assoc. do 2 f_equal. cbn [app]. rewrite <- !app_assoc. do 2 f_equal. cbn [app]. do 2 f_equal. rewrite <- !app_assoc. f_equal. cbn [app]. f_equal.
    transitivity (($"#include <pybind11/pybind11.h>" ++ newline :: flat_map line a) ++ r); [rewrite <- app_assoc; reflexivity|]. rewrite E, <- app_assoc. reflexivity. }
  rewrite !flat_map_app. cbn [flat_map]. split; [|split].
  - rewrite <- app_assoc. apply F.
  - rewrite <- (app_assoc (flat_map line a)), <- (app_assoc (line h)). apply F.
  - destruct (flat_map line b); discriminate.
Qed.

(** ** Outputs *)

Definition on_contents (f : contents -> contents) (x : str * contents) : str * contents := (fst x, f (snd x)).

Lemma handled_request env outputs name j j' a b h includes includes' before after : j_main j' = j_main j -> j_unit j' = j_unit j -> j_facts j' = j_facts j -> j_found j' = j_found j ->
  j_implicit j' = j_implicit j -> j_iteration j' = j_iteration j -> includes = a ++ b -> includes' = a ++ h :: b ->
  preamble (j_main j) includes = before ++ after -> preamble (j_main j) includes' = before ++ ($"#include " ++ h ++ [ascii_of_N 10]) ++ after -> before ++ after <> [] ->
  handle_unit env outputs name includes' j' = option_map (fun r => (map (on_contents (included before after h)) (fst r), snd r)) (handle_unit env outputs name includes j).
Proof.
  intros E1 E2 E3 E4 E5 E6 _ _ T T' N. unfold handle_unit. rewrite E1, E2, E3, E4, E5, E6.
  destruct (process (j_unit j) (j_found j) (j_implicit j) name) as [[rs|cs|g contexts vis warned bs]| |]; try reflexivity.
  destruct (open_outputs env outputs) as [l [|]].
  - cbn [option_map fst snd]. rewrite map_map. do 2 f_equal. apply map_ext. intros p. unfold on_contents. cbn [fst snd included]. destruct (str_eqb [] (before ++ after)) eqn:K; [|reflexivity]. apply str_eqb_eq in K. congruence.
  - destruct (emit_module (j_unit j) (j_facts j) g vis (bs_annotations bs) (j_iteration j (g_nodes g)) (length l) name) as [[c|files rs st]|]; [| |reflexivity].
    + cbn [option_map fst snd]. rewrite map_map. do 2 f_equal. apply map_ext. intros p. unfold on_contents. cbn [fst snd included]. rewrite T, T', str_eqb_refl. reflexivity.
    + cbn [option_map fst snd]. do 2 f_equal. rewrite T, T'. clear. revert files. induction l as [|p l IH]; intros [|part files]; cbn [map combine]; [reflexivity..|]. f_equal; [|apply IH].
      unfold on_contents. cbn [fst snd included]. rewrite str_eqb_refl. reflexivity.
Qed.

Lemma cleared_request f env erase start : forall l fs fs0 out fs1 out1 e, clear_outputs env erase l fs out = (fs1, out1, e) ->
  (forall p, fs0 p = option_map f (fs p) \/ (fs0 p = fs p /\ fs p = start p)) ->
  exists fs2, clear_outputs env erase (map (on_contents f) l) fs0 (map f out) = (fs2, map f out1, e) /\
    forall p : str, fs2 p = option_map f (fs1 p) \/ (fs2 p = fs1 p /\ fs1 p = start p).
Proof.
  induction l as [|[q c] l IH]; intros fs fs0 out fs1 out1 e E H.
  - injection E as <- <- <-. exists fs0. auto.
  - cbn [clear_outputs map on_contents fst snd] in E |- *. destruct (str_eqb q ($"-")).
    + destruct (IH _ fs0 _ _ _ _ E H) as (fs2 & R & R1). rewrite map_app in R. exists fs2. auto.
    + destruct erase; [|destruct (can_rename env q)].
      * apply (IH _ _ _ _ _ _ E). intros p. unfold set_file. destruct (str_eqb q p); [left; reflexivity|apply H].
      * apply (IH _ _ _ _ _ _ E). intros p. unfold set_file. destruct (str_eqb q p); [left; reflexivity|apply H].
      * destruct (clear_outputs env false l fs out) as [[fs' out'] e'] eqn:C. injection E as <- <- <-. destruct (IH _ fs0 _ _ _ _ C H) as (fs2 & R & R1).
        fold (on_contents f). rewrite R. exists fs2. auto.
Qed.

Lemma opened_all env l opened : open_outputs env l = (opened, false) -> opened = l.
Proof.
  revert opened. induction l as [|p l IH]; intros o E; cbn [open_outputs] in E; [injection E as <-; reflexivity|].
  destruct (can_open env p); [|discriminate E]. destruct (open_outputs env l) as [l' e]. injection E as <- ->. f_equal. exact (IH _ eq_refl).
Qed.

Lemma handled_texts env outputs name includes j l : handle_unit env outputs name includes j = Some (l, false) ->
  map fst l = outputs /\ forall p c, In (p, c) l -> exists items, c = New (preamble (j_main j) includes) items.
Proof.
  unfold handle_unit. destruct (process (j_unit j) (j_found j) (j_implicit j) name) as [[rs|cs|g contexts vis warned b]| |]; try discriminate.
  destruct (open_outputs env outputs) as [o [|]] eqn:O; [discriminate|]. apply opened_all in O. subst o.
  destruct (emit_module (j_unit j) (j_facts j) g vis (bs_annotations b) (j_iteration j (g_nodes g)) (length outputs) name) as [[c|files rs st]|] eqn:Em; [discriminate| |discriminate].
  intros [= <- _]. split; [apply map_fst_combine; rewrite map_length; exact (emit_length _ _ _ _ _ _ _ _ _ _ _ Em)|].
  intros p c H. apply in_combine_r in H. apply in_map_iff in H. destruct H as (items & <- & _). exists items. reflexivity.
Qed.

Lemma cleared_all f env (good : contents -> Prop) : forall l fs fs0 out fs1 out1 (W : str -> Prop), clear_outputs env false l fs out = (fs1, out1, false) ->
  (forall p c, In (p, c) l -> good c) -> (forall p, W p -> exists c, fs p = Some c /\ good c /\ fs0 p = Some (f c)) ->
  forall fs2 out2, clear_outputs env false (map (on_contents f) l) fs0 (map f out) = (fs2, out2, false) ->
  forall p, W p \/ (In p (map fst l) /\ p <> $"-") -> exists c, fs1 p = Some c /\ good c /\ fs2 p = Some (f c).
Proof.
  induction l as [|[q c] l IH]; intros fs fs0 out fs1 out1 W E G H fs2 out2 E2.
  - injection E as <- <-. injection E2 as <- <-. intros p [Hp|[[] _]]. exact (H p Hp).
  - cbn [clear_outputs map on_contents fst snd] in E, E2 |- *. destruct (str_eqb q ($"-")) eqn:Q.
    + apply str_eqb_eq in Q. subst q. change [f c] with (map f [c]) in E2. rewrite <- map_app in E2. intros p Hp.
      apply (IH _ _ _ _ _ W E (fun p' c' K => G p' c' (or_intror K)) H _ _ E2). cbn in Hp. intuition congruence.
    + destruct (can_rename env q); [|destruct (clear_outputs env false l fs out) as [[? ?] ?]; discriminate E]. intros p Hp.
      apply (IH _ _ _ _ _ (fun p => W p \/ p = q) E (fun p' c' K => G p' c' (or_intror K))) with (2 := E2); [|cbn in Hp; intuition (subst; auto)].
      intros r Hr. unfold set_file. destruct (str_eqb q r) eqn:K; [exists c; split; [reflexivity|]; split; [exact (G q c (or_introl eq_refl))|reflexivity]|].
      destruct Hr as [Hr| ->]; [exact (H r Hr)|]. rewrite str_eqb_refl in K. discriminate K.
Qed.

Lemma cleared_printed env erase (good : contents -> Prop) : forall l fs out fs1 out1 e, clear_outputs env erase l fs out = (fs1, out1, e) ->
  (forall c, In c out -> good c) -> (forall p c, In (p, c) l -> good c) -> forall c, In c out1 -> good c.
Proof.
  induction l as [|[q c] l IH]; intros fs out fs1 out1 e E H G; [injection E as _ <- _; exact H|]. cbn [clear_outputs] in E.
  assert (G' : forall p c', In (p, c') l -> good c') by (intros p c' K; exact (G p c' (or_intror K))).
  destruct (str_eqb q ($"-")).
  - apply (IH _ _ _ _ _ E); [|exact G']. intros d Hd. apply in_app_iff in Hd. destruct Hd as [Hd|[<-|[]]]; [exact (H d Hd)|exact (G q c (or_introl eq_refl))].
  - destruct erase; [exact (IH _ _ _ _ _ E H G')|]. destruct (can_rename env q); [exact (IH _ _ _ _ _ E H G')|].
    destruct (clear_outputs env false l fs out) as [[fs' out'] e'] eqn:C. injection E as _ <- _. exact (IH _ _ _ _ _ C H G').
Qed.

Lemma main_request env outputs keep xfail name j ps p h qs fs fs' out code : j_pragmas j = ps ++ qs -> pg_accepted p = true -> include_pragma p h ->
  main env outputs keep xfail name [j] fs = Some (fs', out, code) ->
  exists before after fs'', main env outputs keep xfail name [requesting j ps p qs] fs = Some (fs'', map (included (before ++ [ascii_of_N 10]) after h) out, code) /\
    (forall q, fs'' q = option_map (included (before ++ [ascii_of_N 10]) after h) (fs' q) \/ (fs'' q = fs' q /\ fs' q = fs q)) /\
    (code = 0%N -> xfail = false -> forall q, In q outputs -> q <> $"-" ->
       exists items, fs' q = Some (New ((before ++ [ascii_of_N 10]) ++ after) items) /\ fs'' q = Some (New ((before ++ [ascii_of_N 10]) ++ ($"#include " ++ h ++ [ascii_of_N 10]) ++ after) items)) /\
    (code = 0%N -> xfail = false -> forall c, In c out -> exists items, c = New ((before ++ [ascii_of_N 10]) ++ after) items).
Proof.
  intros Ej Ha Hp. destruct (pragmas_request ps p h qs Ha Hp) as (a & b & e & P1 & P2). destruct (preamble_request (j_main j) a b h) as (before & after & T & T' & N).
  unfold main, parse_options. destruct (map_opt parse_output outputs) as [l0|] eqn:Po.
  2:{ intros [= <- <- <-]. exists before, after, fs. cbn [map]. split; [reflexivity|]. split; [intros q; auto|split; discriminate]. }
  apply parse_outputs_spec in Po. destruct Po as [-> _].
  unfold run_jobs. cbn [fold_opt op_xfail op_module]. unfold run_job. cbn [op_outputs op_keep wd_module wd_files wd_stdout wd_failed]. cbn [requesting j_main j_pragmas j_errors]. rewrite Ej, P1, P2.
  match goal with |- context [handle_unit env ?o ?n (a ++ h :: b) ?j'] => rewrite (handled_request env o n j j' a b h (a ++ b) (a ++ h :: b) _ _ eq_refl eq_refl eq_refl eq_refl eq_refl eq_refl eq_refl eq_refl T T' ltac:(intros K; apply app_eq_nil in K; exact (N (proj2 K)))) end.
  destruct (handle_unit env _ _ (a ++ b) j) as [[l e1]|] eqn:H; [|discriminate]. cbn [option_map fst snd].
  destruct (clear_outputs env _ l fs []) as [[fs1 out1] e2] eqn:C. intros [= <- <- <-].
  destruct (cleared_request (included (before ++ [ascii_of_N 10]) after h) _ _ fs _ _ fs _ _ _ _ C) as (fs2 & R & R1); [auto|]. cbn [map] in R. rewrite R. cbn [wd_files wd_stdout wd_failed].
  exists before, after, fs2. split; [reflexivity|]. split; [exact R1|].
  match goal with |- (?A -> ?B -> ?X) /\ (?A -> ?B -> ?Y) => enough (K : A -> B -> X /\ Y) by (split; intros A1 B1; destruct (K A1 B1); assumption) end. intros Hc ->. cbn [orb] in Hc. destruct (j_errors j || e || e1) eqn:Er; [discriminate Hc|]. destruct e2; [discriminate Hc|]. clear Hc.
  rewrite Bool.andb_false_r in C, R. apply Bool.orb_false_iff in Er. destruct Er as [_ ->]. destruct (handled_texts _ _ _ _ _ _ H) as [F G].
  split.
  2:{ intros c Hc. destruct (cleared_printed env false (fun c => exists items, c = New (preamble (j_main j) (a ++ b)) items) _ _ _ _ _ _ C (fun c (K : In c []) => match K with end) G c Hc) as (items & ->). rewrite T. exists items. reflexivity. }
  intros q Hq Nq. destruct (cleared_all (included (before ++ [ascii_of_N 10]) after h) env (fun c => exists items, c = New (preamble (j_main j) (a ++ b)) items) l fs fs [] _ _ (fun _ => False) C G) with (2 := R) (p := q) as (c & F1 & (items & ->) & F2);
    [intros r []|right; split; [rewrite F; destruct outputs; [destruct Hq|exact Hq]|exact Nq]|].
  exists items. rewrite F1, F2. cbn [included]. rewrite T, str_eqb_refl. auto.
Qed.
