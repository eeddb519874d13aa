From Coq Require Import ZifyBool ZifyNat ZifyN.
From Verif Require Import Base ParserModel ParserSpec ParserProofs StringModel StringSpec StringProofs AnnotModel AnnotSpec ModuleModel ModuleChunks MacroModel MacroSpec.

(** * Lexing *)

Lemma after_block_spec b g : (forall x y, b ++ $"*/" = x ++ $"*/" ++ y -> y = []) ->
  after_block (b ++ $"*/" ++ g) = Some g.
Proof.
  induction b as [|c b IH]; intros H; [reflexivity|]. cbn [app after_block].
  destruct ((code c =? 42)%N && starts 47 (b ++ $"*/" ++ g)) eqn:E.
  - exfalso. apply andb_true_iff in E as [E1 E2]. apply N.eqb_eq in E1.
    destruct b as [|d b]; [discriminate|]. cbn in E2. apply N.eqb_eq in E2.
    specialize (H [] (b ++ $"*/")). cbn in H.
    assert (c = "*"%char) as -> by (apply (f_equal ascii_of_N) in E1; unfold code in E1; rewrite ascii_N_embedding in E1; exact E1).
    assert (d = "/"%char) as -> by (apply (f_equal ascii_of_N) in E2; unfold code in E2; rewrite ascii_N_embedding in E2; exact E2).
    specialize (H eq_refl). destruct b; discriminate.
  - apply IH. intros x y E'. apply (H (c :: x) y). cbn. f_equal. exact E'.
Qed.

Definition fresh (r : str) : Prop := stops (fun c => is_blank c || (code c =? 47)%N) r.
Definition nonempty (s : str) : bool := match s with [] => false | _ => true end.

Lemma skip_blank_fresh f r : fresh r -> skip_blank (S f) r = Some (false, r).
Proof.
  destruct r as [|c r]; [reflexivity|]. unfold fresh. cbn [stops]. intros H. apply orb_false_iff in H as [H1 H2].
  cbn [skip_blank]. rewrite H1, H2. reflexivity.
Qed.

Lemma blank_codes c : In (code c) [32; 9; 11; 12; 10; 13]%N -> is_blank c = true.
Proof. unfold is_blank, is_hspace, is_newline. cbn [In]. lia. Qed.

Lemma newline_stop b n g : (forall c, In c b -> code c <> 10%N /\ code c <> 13%N) -> (code n = 10 \/ code n = 13)%N ->
  drop_while (fun d => negb (is_newline d)) (b ++ n :: g) = n :: g.
Proof.
  intros Hb Hn. rewrite drop_while_app.
  - apply drop_while_stops. cbn [stops]. unfold is_newline. lia.
  - apply forallb_forall. intros c Hc. specialize (Hb c Hc). unfold is_newline. lia.
Qed.

Lemma skip_blank_gap g : gap g -> forall r f, fresh r -> length (g ++ r) < f ->
  skip_blank f (g ++ r) = Some (nonempty g, r).
Proof.
  induction 1 as [|c g Hc Hg IH|b g Hb Hg IH|b n g Hb Hn Hg IH]; intros r f Hr Hf.
  - destruct f; [cbn in Hf; lia|]. apply skip_blank_fresh, Hr.
  - destruct f as [|f]; [cbn in Hf; lia|]. cbn [app skip_blank nonempty]. rewrite (blank_codes c Hc).
    rewrite IH by (cbn in Hf; (exact Hr || lia)). reflexivity.
  - destruct f as [|f]; [cbn in Hf; lia|].
    replace (($"/*" ++ b ++ $"*/" ++ g) ++ r) with ($"/*" ++ b ++ $"*/" ++ (g ++ r)) in *
      by (rewrite <- !app_assoc; reflexivity).
    cbn [list_ascii_of_string app skip_blank nonempty]. 
    change (is_blank "/") with false. cbn iota. change ((code "/" =? 47)%N && starts 42 ("*"%char :: b ++ $"*/" ++ g ++ r)) with true.
    cbn iota. cbn [tl]. pose proof (after_block_spec b (g ++ r) Hb) as Ha. cbn [list_ascii_of_string app] in Ha. rewrite Ha.
    rewrite IH; [reflexivity|exact Hr|]. rewrite app_length in *. cbn [list_ascii_of_string app length] in Hf. rewrite app_length in Hf. cbn [length] in Hf. rewrite app_length in Hf. lia.
  - destruct f as [|f]; [cbn in Hf; lia|].
    replace (($"//" ++ b ++ n :: g) ++ r) with ($"//" ++ b ++ n :: (g ++ r)) in *
      by (rewrite <- !app_assoc; reflexivity).
    cbn [list_ascii_of_string app skip_blank nonempty].
    change (is_blank "/") with false. cbn iota. 
    change ((code "/" =? 47)%N && starts 42 ("/"%char :: b ++ n :: g ++ r)) with false.
    change ((code "/" =? 47)%N && starts 47 ("/"%char :: b ++ n :: g ++ r)) with true. cbn iota.
    cbn [drop_while]. change (negb (is_newline "/")) with true. cbn iota.
    rewrite newline_stop by assumption.
    cbn [list_ascii_of_string app length] in Hf. rewrite app_length in Hf. cbn [length] in Hf.
    destruct f as [|f]; [lia|]. cbn [skip_blank].
    assert (Hbl : is_blank n = true) by (unfold is_blank, is_newline; lia). rewrite Hbl.
    rewrite IH; [reflexivity|exact Hr|lia].
Qed.

Definition pp_of (t : stoken) : pptok :=
  match t with
  | SIdent s => PIdent s | SNum s => PNum s | SStr s => PLit (quote :: s ++ [quote])
  | SOpen => open_paren | SClose => close_paren | SComma => PPunct ","%char | SBad s => PIdent s
  end.

Lemma pp_of_spelling t : spelling (pp_of t) = stext t.
Proof. destruct t; reflexivity. Qed.

Lemma literal_rest_body s r : string_body s -> (forall c, In c s -> code c <> 10%N /\ code c <> 13%N) ->
  literal_rest quote (s ++ quote :: r) = Some (s ++ [quote], r).
Proof.
  induction 1 as [|c s H1 H2 H IH|b c s Hb H IH]; intros Hn.
  - reflexivity.
  - cbn [app literal_rest]. specialize (IH (fun d Hd => Hn d (or_intror Hd))). rewrite IH.
    specialize (Hn c (or_introl eq_refl)).
    replace (is_newline c) with false by (unfold is_newline; lia).
    replace (code c =? code quote)%N with false by (change (code quote) with 34%N; lia).
    replace (code c =? 92)%N with false by lia. reflexivity.
  - cbn [app literal_rest]. specialize (IH (fun d Hd => Hn d (or_intror (or_intror Hd)))). rewrite IH.
    pose proof (Hn c (or_intror (or_introl eq_refl))) as Hc.
    replace (is_newline b) with false by (unfold is_newline; lia).
    replace (code b =? code quote)%N with false by (change (code quote) with 34%N; lia).
    replace (code b =? 92)%N with true by lia.
    replace (is_newline c) with false by (unfold is_newline; lia). reflexivity.
Qed.

Lemma stops_weaken {A} (p q : A -> bool) s : (forall c, q c = true -> p c = true) -> stops p s -> stops q s.
Proof.
  destruct s as [|c s]; [reflexivity|]. cbn [stops]. intros H Hp. destruct (q c) eqn:E; [|reflexivity].
  rewrite (H c E) in Hp. discriminate.
Qed.

Lemma starts_stops n s : stops (fun c => (code c =? n)%N) s -> starts n s = false.
Proof. destruct s; [reflexivity|]. cbn. intros H. exact H. Qed.

(** First characters of tokens and gaps. *)
Definition no_odd (r : str) : Prop := stops (fun c => (code c =? 39)%N || (code c =? 46)%N) r.

Lemma pp_next_token t r : proper t -> apart t r -> no_odd r -> pp_next (stext t ++ r) = Some (pp_of t, r).
Proof.
  intros Hp Ha Ho. destruct t as [s|s|s| | | |s]; cbn [stext pp_of]; cbn [proper apart] in Hp, Ha.
  - destruct Hp as (c & s' & -> & Hc & Hs).
    assert (Hall : forallb is_ident_continue (c :: s') = true).
    { cbn [forallb]. rewrite Hs. unfold is_ident_continue. rewrite Hc. reflexivity. }
    unfold pp_next. cbn [app]. rewrite Hc. change (c :: s' ++ r) with ((c :: s') ++ r).
    assert (Hst : stops is_ident_continue r).
    { eapply stops_weaken; [|exact Ha]. intros d Hd. cbn. rewrite Hd. reflexivity. }
    rewrite take_while_app, drop_while_app by exact Hall. rewrite (take_while_stops _ _ Hst), (drop_while_stops _ _ Hst), app_nil_r.
    rewrite (starts_stops 34), (starts_stops 39); [reflexivity| |].
    + eapply stops_weaken; [|exact Ho]. intros d Hd. cbn. rewrite Hd. reflexivity.
    + eapply stops_weaken; [|exact Ha]. intros d Hd. cbn. rewrite Hd. apply orb_true_r.
  - destruct Hp as (Hne & Hd & _). destruct s as [|c s]; [congruence|].
    assert (Hall : forallb number_char (c :: s) = true).
    { apply forallb_forall. intros d Hin. rewrite forallb_forall in Hd. specialize (Hd d Hin).
      unfold number_char, is_ident_continue. rewrite Hd. rewrite orb_true_r. reflexivity. }
    assert (Hst : stops number_char r).
    { destruct r as [|d r]; [reflexivity|]. cbn [stops] in *. unfold no_odd in Ho. cbn [stops] in Ho. unfold number_char. rewrite Ha.
      apply orb_false_iff in Ho as [_ Ho]. exact Ho. }
    cbn [forallb] in Hd. apply andb_true_iff in Hd as [Hd _].
    unfold pp_next. cbn [app]. change (c :: s ++ r) with ((c :: s) ++ r).
    assert (is_ident_start c = false) as ->.
    { unfold is_ident_start, is_letter, is_digit, in_range in *. lia. }
    rewrite Hd. rewrite take_while_app, drop_while_app by exact Hall.
    rewrite (take_while_stops _ _ Hst), (drop_while_stops _ _ Hst), app_nil_r. reflexivity.
  - destruct Hp as (Hb & Hn). unfold pp_next. cbn [app].
    change (is_ident_start quote) with false. change (is_digit quote) with false. change (is_quote quote) with true. cbn iota.
    rewrite <- app_assoc. cbn [app]. rewrite (literal_rest_body s r Hb Hn). reflexivity.
  - reflexivity.
  - reflexivity.
  - reflexivity.
  - destruct Hp.
Qed.

Lemma proper_fresh t r : proper t -> fresh (stext t ++ r) /\ no_odd (stext t ++ r) /\ stext t <> [].
Proof.
  intros Hp. destruct t as [s|s|s| | | |s]; cbn [proper] in Hp; cbn [stext].
  - destruct Hp as (c & s' & -> & Hc & _). unfold fresh, no_odd. cbn [app stops]. repeat split; [| |discriminate];
      unfold is_ident_start, is_letter, in_range, is_blank, is_hspace, is_newline in *; lia.
  - destruct Hp as (Hne & Hd & _). destruct s as [|c s]; [congruence|]. cbn [forallb] in Hd. apply andb_true_iff in Hd as [Hd _].
    unfold fresh, no_odd. cbn [app stops]. repeat split; [| |discriminate];
      unfold is_digit, in_range, is_blank, is_hspace, is_newline in *; lia.
  - repeat split; discriminate.
  - repeat split; discriminate.
  - repeat split; discriminate.
  - repeat split; discriminate.
  - destruct Hp.
Qed.

Lemma gap_no_odd g r : gap g -> no_odd r -> no_odd (g ++ r).
Proof.
  intros Hg Hr. destruct Hg as [|c g Hc Hg|b g Hb Hg|b n g Hb Hn Hg]; [exact Hr| |reflexivity|reflexivity].
  unfold no_odd. cbn [app stops]. cbn [In] in Hc. lia.
Qed.

Lemma written_no_odd ts s r : written ts s -> no_odd r -> no_odd (s ++ r).
Proof.
  intros Hw Hr. destruct Hw as [g Hg|g t s ts Hg Ht Ha Hw].
  - apply gap_no_odd; assumption.
  - rewrite <- !app_assoc. apply gap_no_odd; [exact Hg|]. apply proper_fresh, Ht.
Qed.

Lemma pp_lex_more f : forall s l f', pp_lex_fuel f s = Some l -> f <= f' -> pp_lex_fuel f' s = Some l.
Proof.
  induction f as [|f IH]; intros s l f' H Hf; [discriminate|]. destruct f' as [|f']; [lia|].
  cbn [pp_lex_fuel] in *. destruct (skip_blank (S (length s)) s) as [[b s']|]; [|discriminate].
  destruct s' as [|c s']; [exact H|]. destruct (pp_next (c :: s')) as [[t r]|]; [|discriminate].
  destruct (pp_lex_fuel f r) as [l'|] eqn:E; [|discriminate]. rewrite (IH r l' f' E) by lia. exact H.
Qed.

(** Items of a written text. *)
Inductive laid : list stoken -> str -> list item -> Prop :=
| la_end g : gap g -> laid [] g []
| la_token g t r ts l : gap g -> proper t -> apart t r -> laid ts r l ->
    laid (t :: ts) (g ++ stext t ++ r) ((nonempty g, pp_of t) :: l).

Lemma written_laid ts s : written ts s -> exists l, laid ts s l.
Proof.
  induction 1 as [g Hg|g t r ts Hg Ht Ha Hw (l & IH)]; [exists []; constructor; exact Hg|].
  eexists. constructor; eassumption.
Qed.
Lemma laid_written ts s l : laid ts s l -> written ts s.
Proof. induction 1; constructor; assumption. Qed.
Lemma laid_toks ts s l : laid ts s l -> map snd l = map pp_of ts.
Proof. induction 1; cbn; [reflexivity|]. f_equal. assumption. Qed.

Lemma apart_close t r rest : apart t r -> apart t (r ++ ")"%char :: rest).
Proof. destruct t; cbn [apart]; intros H; try exact I; apply stops_app; (exact H || reflexivity). Qed.

Lemma pp_lex_laid ts s l : laid ts s l -> forall rest lr f, pp_lex_fuel (S (length rest)) rest = Some lr ->
  length (s ++ ")"%char :: rest) < f ->
  exists b, pp_lex_fuel f (s ++ ")"%char :: rest) = Some (l ++ (b, close_paren) :: lr).
Proof.
  induction 1 as [g Hg|g t r ts l Hg Ht Ha Hl IH]; intros rest lr f Hlr Hf.
  - destruct f as [|f]; [lia|]. cbn [pp_lex_fuel]. rewrite (skip_blank_gap g Hg) by (reflexivity || lia).
    cbn [pp_next]. change (is_ident_start ")") with false. change (is_digit ")") with false. change (is_quote ")") with false. cbn iota.
    rewrite app_length in Hf. cbn [length] in Hf. rewrite (pp_lex_more _ _ _ f Hlr) by lia. exists (nonempty g). reflexivity.
  - destruct f as [|f]; [lia|]. rewrite <- !app_assoc in *. cbn [pp_lex_fuel].
    pose proof (proper_fresh t (r ++ ")"%char :: rest) Ht) as (Hfr & Hno & Hne).
    rewrite (skip_blank_gap g Hg) by (exact Hfr || lia).
    assert (Hodd : no_odd (r ++ ")"%char :: rest)).
    { apply (written_no_odd ts); [eapply laid_written, Hl|reflexivity]. }
    pose proof (pp_next_token t (r ++ ")"%char :: rest) Ht (apart_close t r rest Ha) Hodd) as Hnext.
    destruct (IH rest lr f Hlr) as (b & IH').
    { rewrite !app_length in *. destruct (stext t); [congruence|]. cbn [length] in *. lia. }
    destruct (stext t ++ r ++ ")"%char :: rest) as [|c z] eqn:E; [destruct (stext t); [congruence|discriminate]|].
    rewrite Hnext, IH'. exists b. reflexivity.
Qed.

(** * The text of an attribute *)

Definition spaced (i : item) : str := (if fst i then $" " else []) ++ spelling (snd i).
Definition spaces (l : list item) : str := concat (map spaced l).

Lemma one_line_spaces l : one_line l = match l with [] => [] | i :: r => spelling (snd i) ++ spaces r end.
Proof. destruct l; reflexivity. Qed.

Lemma spaces_head p ts s l : laid ts s l -> p " "%char = false -> stops p s -> stops p (spaces l).
Proof.
  intros Hl Hp Hs. destruct Hl as [g Hg|g t r ts l Hg Ht Ha Hl]; [exact I|].
  unfold spaces. cbn [map concat]. unfold spaced at 1. cbn [fst snd]. destruct g as [|c g]; cbn [nonempty].
  - cbn [app] in *. rewrite pp_of_spelling. destruct (proper_fresh t r Ht) as (_ & _ & Hne).
    destruct (stext t); [congruence|]. cbn [app stops] in *. exact Hs.
  - cbn. exact Hp.
Qed.

Lemma proper_lexeme ts t r l : proper t -> apart t r -> laid ts r l -> lexeme t (spaces l).
Proof.
  intros Hp Ha Hl. destruct t as [s|s|s| | | |s]; cbn [proper apart] in Hp, Ha.
  - destruct Hp as (c & s' & -> & Hc & Hs). constructor; [exact Hc|exact Hs|]. eapply spaces_head; [exact Hl|reflexivity|].
    eapply stops_weaken; [|exact Ha]. intros d Hd. cbn. rewrite Hd. reflexivity.
  - destruct Hp as (Hne & Hd & Hm). constructor; [exact Hne|exact Hd| |exact Hm]. eapply spaces_head; [exact Hl|reflexivity|].
    eapply stops_weaken; [|exact Ha]. intros d Hd'. unfold is_ident_continue. rewrite Hd'. apply orb_true_r.
  - constructor. apply Hp.
  - constructor.
  - constructor.
  - constructor.
  - destruct Hp.
Qed.

Lemma laid_lexes ts s l : laid ts s l -> lexes (spaces l) ts /\ lexes (one_line l) ts.
Proof.
  induction 1 as [g Hg|g t r ts l Hg Ht Ha Hl [IH _]].
  - split; constructor; reflexivity.
  - pose proof (proper_lexeme ts t r l Ht Ha Hl) as Hx. split.
    + unfold spaces. cbn [map concat]. unfold spaced at 1. cbn [fst snd]. rewrite pp_of_spelling, <- app_assoc.
      apply lexes_cons; [destruct (nonempty g); reflexivity|exact Hx|exact IH].
    + rewrite one_line_spaces. cbn [snd]. rewrite pp_of_spelling.
      apply (lexes_cons [] t (spaces l) ts); [reflexivity|exact Hx|exact IH].
Qed.

(** The literal made by # denotes the text. *)
Inductive encodes : str -> str -> Prop :=
| en_nil : encodes [] []
| en_raw c e s : code c <> 34%N -> code c <> 92%N -> code c <> 10%N -> code c <> 13%N -> encodes e s -> encodes (c :: e) (c :: s)
| en_esc c e s : (code c = 34 \/ code c = 92)%N -> encodes e s -> encodes (ascii_of_N 92 :: c :: e) (c :: s).

Lemma encodes_app a x b y : encodes a x -> encodes b y -> encodes (a ++ b) (x ++ y).
Proof. induction 1; intros H'; cbn [app]; [exact H'| |]; constructor; auto. Qed.

Lemma encodes_read e s : encodes e s -> forall f rest, length s < f -> literal_body f (e ++ quote :: rest) = Some (s, rest).
Proof.
  induction 1 as [|c e s H1 H2 H3 H4 H IH|c e s Hc H IH]; intros f rest Hf; (destruct f as [|f]; [cbn in Hf; lia|]).
  - reflexivity.
  - cbn [app literal_body]. replace (code c =? 34)%N with false by lia.
    replace ((code c =? 10)%N || (code c =? 13)%N) with false by lia. replace (code c =? 92)%N with false by lia.
    rewrite IH by (cbn in Hf; lia). unfold cons_byte. rewrite byte_code. reflexivity.
  - cbn [app literal_body]. change (code (ascii_of_N 92)) with 92%N. cbn iota. cbn [N.eqb Pos.eqb orb].
    assert (is_octal c = false) as -> by (unfold is_octal, in_range; lia).
    replace (code c =? 120)%N with false by lia.
    assert (simple_escape c = Some (code c)) as -> by (unfold simple_escape; destruct Hc as [-> | ->]; reflexivity).
    rewrite IH by (cbn in Hf; lia). unfold cons_byte. rewrite byte_code. reflexivity.
Qed.

Lemma encodes_length e s : encodes e s -> length s <= length e.
Proof. induction 1; cbn; lia. Qed.

(** Tokens as they result from lexing, without stray backslashes. *)
Definition sane (t : pptok) : Prop :=
  match t with
  | PLit s => forall c, In c s -> code c <> 10%N /\ code c <> 13%N
  | _ => forall c, In c (spelling t) -> code c <> 34%N /\ code c <> 92%N /\ code c <> 10%N /\ code c <> 13%N
  end.

Lemma encodes_plain s : (forall c, In c s -> code c <> 34%N /\ code c <> 92%N /\ code c <> 10%N /\ code c <> 13%N) -> encodes s s.
Proof.
  induction s as [|c s IH]; intros H; [constructor|]. destruct (H c (or_introl eq_refl)) as (H1 & H2 & H3 & H4).
  constructor; auto. apply IH. intros d Hd. apply H. right. exact Hd.
Qed.

Lemma encodes_protect s : (forall c, In c s -> code c <> 10%N /\ code c <> 13%N) -> encodes (concat (map protect s)) s.
Proof.
  induction s as [|c s IH]; intros H; [constructor|]. cbn [map concat]. destruct (H c (or_introl eq_refl)) as (H1 & H2).
  assert (IH' := IH (fun d Hd => H d (or_intror Hd))). unfold protect at 1.
  destruct ((code c =? 34)%N || (code c =? 92)%N) eqn:E; cbn [app]; constructor; (assumption || lia).
Qed.

Lemma encodes_token t : sane t -> encodes (stringize_token t) (spelling t).
Proof. destruct t; cbn [sane stringize_token spelling]; intros H; [apply encodes_plain, H|apply encodes_plain, H|apply encodes_protect, H|apply encodes_plain, H]. Qed.

Lemma encodes_spaces l : Forall (fun i => sane (snd i)) l -> encodes (concat (map stringize_item l)) (spaces l).
Proof.
  induction 1 as [|i l Hi Hl IH]; [constructor|]. unfold spaces. cbn [map concat]. apply encodes_app; [|exact IH].
  unfold stringize_item, spaced. apply encodes_app; [|apply encodes_token, Hi].
  destruct (fst i); [|constructor]. apply encodes_plain. intros c [<-|[]]. repeat split; discriminate.
Qed.

Lemma stringize_denotes l : Forall (fun i => sane (snd i)) l -> read_cpp_literal (stringize l) = Some (one_line l, []).
Proof.
  intros H. assert (He : encodes (match l with [] => [] | i :: r => stringize_token (snd i) ++ concat (map stringize_item r) end) (one_line l)).
  { rewrite one_line_spaces. destruct H as [|i l Hi Hl]; [constructor|]. apply encodes_app; [apply encodes_token, Hi|apply encodes_spaces, Hl]. }
  unfold stringize, read_cpp_literal. change (code quote =? 34)%N with true. cbn iota.
  apply encodes_read; [exact He|]. rewrite app_length. apply encodes_length in He.
  eapply Nat.le_lt_trans; [exact He|]. apply le_n_S, Nat.le_add_r.
Qed.

(** * Expansion *)

Definition plain_names (defs : macros) (l : list item) : Prop :=
  forall s, In (PIdent s) (map snd l) -> no_macro defs s.

Lemma no_genpybind_macro name : name <> $"GENPYBIND" -> name <> $"GENPYBIND_MANUAL" -> existsb (str_eqb name) genpybind_macros = false.
Proof.
  intros H1 H2. unfold genpybind_macros. cbn [map existsb]. rewrite (proj2 (str_eqb_neq _ _) H1), (proj2 (str_eqb_neq _ _) H2). reflexivity.
Qed.
Lemma genpybind_macro name : existsb (str_eqb name) genpybind_macros = true <-> name = $"GENPYBIND" \/ name = $"GENPYBIND_MANUAL".
Proof.
  unfold genpybind_macros. cbn [map existsb]. rewrite !orb_true_iff, !str_eqb_eq. intuition discriminate.
Qed.

Lemma find_no_macro defs name : ~ In name (map fst defs) -> find_macro defs name = None.
Proof.
  intros H. unfold find_macro. destruct (find _ defs) as [d|] eqn:E; [|reflexivity].
  apply find_some in E as [E1 E2]. apply str_eqb_eq in E2. destruct H. rewrite <- E2. apply in_map, E1.
Qed.

Lemma expand_plain f defs active l : plain_names defs l -> expand (S f) defs active l = Some l.
Proof.
  induction l as [|[b t] l IH]; intros H; [reflexivity|].
  cbn [expand] in IH |- *. rewrite IH by (intros s Hs; apply H; right; exact Hs).
  destruct t as [name| | |]; try reflexivity. destruct (H name (or_introl eq_refl)) as (H1 & H2 & H3).
  rewrite (no_genpybind_macro name H2 H3), (find_no_macro defs name H1). destruct (existsb _ active); reflexivity.
Qed.

Lemma annotate_plain defs l : plain_names defs l -> Forall (fun i => sane (snd i)) l ->
  annotate_text defs l = Some (lozenge ++ one_line l).
Proof.
  intros H1 H2. unfold annotate_text, expand_all. rewrite expand_plain by exact H1. rewrite stringize_denotes by exact H2. reflexivity.
Qed.

(** * Arguments *)

Lemma code_open c : (code c =? 40)%N = true <-> c = "("%char.
Proof.
  split; [|intros ->; reflexivity]. intros H. apply N.eqb_eq in H. rewrite <- (ascii_N_embedding c). unfold code in H. rewrite H. reflexivity.
Qed.
Lemma code_close c : (code c =? 41)%N = true <-> c = ")"%char.
Proof.
  split; [|intros ->; reflexivity]. intros H. apply N.eqb_eq in H. rewrite <- (ascii_N_embedding c). unfold code in H. rewrite H. reflexivity.
Qed.
Lemma is_open_iff t : is_open t = true <-> t = open_paren.
Proof. destruct t; cbn; try (split; intros H; discriminate H). rewrite code_open. unfold open_paren. split; [intros ->; reflexivity|intros [= ->]; reflexivity]. Qed.
Lemma is_close_iff t : is_close t = true <-> t = close_paren.
Proof. destruct t; cbn; try (split; intros H; discriminate H). rewrite code_close. unfold close_paren. split; [intros ->; reflexivity|intros [= ->]; reflexivity]. Qed.
Lemma not_open t : t <> open_paren -> is_open t = false.
Proof. intros H. destruct (is_open t) eqn:E; [|reflexivity]. apply is_open_iff in E. contradiction. Qed.
Lemma not_close t : t <> close_paren -> is_close t = false.
Proof. intros H. destruct (is_close t) eqn:E; [|reflexivity]. apply is_close_iff in E. contradiction. Qed.

Lemma collect_closed ts : closed ts -> forall l, map snd l = ts -> forall d tail,
  collect d (l ++ tail) = option_map (fun p => (l ++ fst p, snd p)) (collect d tail).
Proof.
  induction 1 as [|t r Ho Hc H IH|a r Ha IHa Hr IHr]; intros l Hl d tail.
  - destruct l; [|discriminate]. cbn. destruct (collect d tail) as [[? ?]|]; reflexivity.
  - destruct l as [|i l]; [discriminate|]. injection Hl as <- Hl. cbn [app collect].
    rewrite (not_open _ Ho), (not_close _ Hc). rewrite (IH l Hl). destruct (collect d tail) as [[? ?]|]; reflexivity.
  - destruct l as [|i l]; [discriminate|]. injection Hl as Hi Hl. apply map_eq_app in Hl as (la & lr & -> & Hla & Hl).
    destruct lr as [|j lr]; [discriminate|]. injection Hl as Hj Hl.
    cbn [app collect]. rewrite Hi. change (is_open open_paren) with true. cbn iota. rewrite <- app_assoc.
    rewrite (IHa la Hla). cbn [app collect]. rewrite Hj. change (is_open close_paren) with false. change (is_close close_paren) with true. cbn iota.
    rewrite (IHr lr Hl). destruct (collect d tail) as [[x y]|]; [|reflexivity]. cbn. rewrite <- app_assoc. reflexivity.
Qed.

Lemma collect_args args b rest : closed (map snd args) -> collect 0 (args ++ (b, close_paren) :: rest) = Some (args, rest).
Proof. intros H. rewrite (collect_closed _ H args eq_refl). cbn. rewrite app_nil_r. reflexivity. Qed.

Lemma closed_insert L : closed L -> forall x y, L = x ++ y -> closed (x ++ open_paren :: close_paren :: y).
Proof.
  induction 1 as [|t r Ho Hc H IH|a r Ha IHa Hr IHr]; intros x y E.
  - destruct x; [|discriminate]. destruct y; [|discriminate]. apply (cl_group [] []); constructor.
  - destruct x as [|u x]; cbn [app] in *.
    + apply (cl_group [] y); [constructor|]. rewrite <- E. constructor; assumption.
    + injection E as <- ->. constructor; auto.
  - destruct x as [|u x]; cbn [app] in *.
    + apply (cl_group [] y); [constructor|]. rewrite <- E. constructor; assumption.
    + injection E as <- E. apply app_eq_app in E as (l & [[-> ->]|[-> E]]).
      * replace (x ++ open_paren :: close_paren :: l ++ close_paren :: r) with ((x ++ open_paren :: close_paren :: l) ++ close_paren :: r)
          by (rewrite <- app_assoc; reflexivity).
        constructor; [|exact Hr]. apply (IHa x l eq_refl).
      * destruct l as [|u l]; cbn [app] in E.
        { subst y. rewrite app_nil_r in *.
          replace (a ++ open_paren :: close_paren :: close_paren :: r) with ((a ++ [open_paren; close_paren]) ++ close_paren :: r)
            by (rewrite <- app_assoc; reflexivity).
          constructor; [|exact Hr]. apply (IHa a []). symmetry. apply app_nil_r. }
        { injection E as <- ->. rewrite <- app_assoc. cbn [app]. constructor; [exact Ha|]. apply (IHr l y eq_refl). }
Qed.

Lemma closed_cons_inner d t ts : t <> open_paren -> t <> close_paren -> closed (repeat open_paren d ++ ts) -> closed (repeat open_paren d ++ t :: ts).
Proof.
  intros Ho Hc H. remember (repeat open_paren d) as x eqn:E. clear E d. remember (x ++ ts) as L eqn:EL. revert x ts EL.
  induction H as [|u r Hu1 Hu2 H IH|a r Ha IHa Hr IHr]; intros x ts E.
  - destruct x; [|discriminate]. destruct ts; [|discriminate]. repeat constructor; assumption.
  - destruct x as [|v x]; cbn [app] in *.
    + subst ts. repeat constructor; assumption.
    + injection E as <- ->. constructor; auto.
  - destruct x as [|v x]; cbn [app] in *.
    + subst ts. constructor; [exact Ho|exact Hc|]. constructor; assumption.
    + injection E as <- E. apply app_eq_app in E as (l & [[-> ->]|[-> E]]).
      * replace (x ++ t :: l ++ close_paren :: r) with ((x ++ t :: l) ++ close_paren :: r) by (rewrite <- app_assoc; reflexivity).
        constructor; [apply (IHa x l eq_refl)|exact Hr].
      * destruct l as [|u l]; cbn [app] in E.
        { subst ts. rewrite app_nil_r in *.
          replace (a ++ t :: close_paren :: r) with ((a ++ [t]) ++ close_paren :: r) by (rewrite <- app_assoc; reflexivity).
          constructor; [|exact Hr]. apply (IHa a []). symmetry. apply app_nil_r. }
        { injection E as <- ->. rewrite <- app_assoc. cbn [app]. constructor; [exact Ha|]. apply (IHr l ts eq_refl). }
Qed.

Lemma collect_sound l : forall d args rest, collect d l = Some (args, rest) ->
  (exists b, l = args ++ (b, close_paren) :: rest) /\ closed (repeat open_paren d ++ map snd args).
Proof.
  induction l as [|[b t] l IH]; intros d args rest H; [discriminate|]. cbn [collect snd] in H.
  destruct (is_open t) eqn:Eo.
  - destruct (collect (S d) l) as [[a r]|] eqn:E; [|discriminate]. cbn in H. injection H as <- <-.
    apply IH in E as [(b' & ->) E]. split; [exists b'; reflexivity|]. apply is_open_iff in Eo as ->.
    cbn [map snd]. cbn [repeat] in E. rewrite repeat_cons, <- app_assoc in E. exact E.
  - destruct (is_close t) eqn:Ec.
    + apply is_close_iff in Ec as ->. destruct d as [|d].
      * injection H as <- <-. split; [exists b; reflexivity|]. constructor.
      * destruct (collect d l) as [[a r]|] eqn:E; [|discriminate]. cbn in H. injection H as <- <-.
        apply IH in E as [(b' & ->) E]. split; [exists b'; reflexivity|]. cbn [map snd].
        cbn [repeat]. rewrite repeat_cons, <- app_assoc. cbn [app]. apply (closed_insert _ E). reflexivity.
    + destruct (collect d l) as [[a r]|] eqn:E; [|discriminate]. cbn in H. injection H as <- <-.
      apply IH in E as [(b' & ->) E]. split; [exists b'; reflexivity|]. cbn [map snd].
      apply closed_cons_inner; [intros ->; discriminate Eo|intros ->; discriminate Ec|exact E].
Qed.

Lemma matched_closed ts : matched ts -> Forall proper ts -> closed (map pp_of ts).
Proof.
  induction 1 as [|t r Ho Hc H IH|a r Ha IHa Hr IHr]; intros Hp.
  - constructor.
  - inversion Hp; subst. cbn [map]. constructor; [| |auto]; destruct t; cbn; try discriminate; congruence.
  - inversion Hp as [|? ? _ Hp']; subst. apply Forall_app in Hp' as [Hp1 Hp2]. inversion Hp2; subst.
    cbn [map]. rewrite map_app. cbn [map pp_of]. apply cl_group; auto.
Qed.

(** * Annotations as written *)

Lemma laid_proper ts s l : laid ts s l -> Forall proper ts.
Proof. induction 1; constructor; assumption. Qed.

Lemma pp_of_sane t : proper t -> sane (pp_of t).
Proof.
  intros Hp. destruct t as [s|s|s| | | |s]; cbn [proper] in Hp; cbn [pp_of sane spelling].
  - destruct Hp as (c & r & -> & Hc & Hr). intros d [<-|Hd].
    + unfold is_ident_start, is_letter, in_range in Hc. lia.
    + rewrite forallb_forall in Hr. specialize (Hr d Hd). unfold is_ident_continue, is_ident_start, is_letter, is_digit, in_range in Hr. lia.
  - destruct Hp as (_ & Hd & _). intros d Hin. rewrite forallb_forall in Hd. specialize (Hd d Hin). unfold is_digit, in_range in Hd. lia.
  - destruct Hp as (_ & Hn). intros d [<-|Hd]; [split; discriminate|]. apply in_app_iff in Hd as [Hd|[<-|[]]]; [apply Hn, Hd|split; discriminate].
  - intros d [<-|[]]. repeat split; discriminate.
  - intros d [<-|[]]. repeat split; discriminate.
  - intros d [<-|[]]. repeat split; discriminate.
  - destruct Hp.
Qed.

Lemma laid_sane ts s l : laid ts s l -> Forall (fun i => sane (snd i)) l.
Proof. induction 1; constructor; [apply pp_of_sane; assumption|assumption]. Qed.

Lemma laid_plain defs ts s l : laid ts s l -> (forall n, In (SIdent n) ts -> no_macro defs n) -> plain_names defs l.
Proof.
  intros Hl H n Hn. rewrite (laid_toks _ _ _ Hl) in Hn. apply in_map_iff in Hn as (t & Et & Ht). apply H.
  pose proof (laid_proper _ _ _ Hl) as Hp. rewrite Forall_forall in Hp. specialize (Hp t Ht).
  destruct t; cbn in Et; try discriminate; [injection Et as ->; exact Ht|destruct Hp].
Qed.

Lemma preprocess_more f : forall on defs c l o f', preprocess f on defs c l = Some o -> f <= f' -> preprocess f' on defs c l = Some o.
Proof.
  induction f as [|f IH]; intros on defs c l o f' H Hf; [discriminate|]. destruct f' as [|f']; [lia|].
  assert (IHm : forall {B} (g : list out -> B) k m x, option_map g (preprocess f on defs k m) = Some x -> option_map g (preprocess f' on defs k m) = Some x).
  { intros B g k m x E. destruct (preprocess f on defs k m) eqn:E'; [|discriminate]. rewrite (IH on defs k m _ f' E') by lia. exact E. }
  cbn [preprocess] in *. destruct l as [|[b t] r]; [exact H|].
  assert (Hplain : forall x,
    match t with
    | PIdent name =>
        if str_eqb name $"__COUNTER__" then option_map (cons (OTok (PNum (decimal c)))) (preprocess f on defs (c + 1) r)
        else if existsb (str_eqb name) genpybind_macros then option_map (cons (OTok t)) (preprocess f on defs c r)
        else match expand_all defs [(b, t)] with
             | None => None
             | Some b => option_map (app (map (fun i => OTok (snd i)) b)) (preprocess f on defs c r)
             end
    | _ => option_map (cons (OTok t)) (preprocess f on defs c r)
    end = Some x ->
    match t with
    | PIdent name =>
        if str_eqb name $"__COUNTER__" then option_map (cons (OTok (PNum (decimal c)))) (preprocess f' on defs (c + 1) r)
        else if existsb (str_eqb name) genpybind_macros then option_map (cons (OTok t)) (preprocess f' on defs c r)
        else match expand_all defs [(b, t)] with
             | None => None
             | Some b => option_map (app (map (fun i => OTok (snd i)) b)) (preprocess f' on defs c r)
             end
    | _ => option_map (cons (OTok t)) (preprocess f' on defs c r)
    end = Some x).
  { intros x. destruct t as [name| | |]; try apply IHm. destruct (str_eqb name _); [apply IHm|].
    destruct (existsb _ _); [apply IHm|]. destruct (expand_all _ _); [apply IHm|discriminate]. }
  destruct t as [name| | |]; try (apply Hplain; exact H). destruct r as [|[b' p] r]; [apply Hplain; exact H|].
  destruct (is_open p && existsb (str_eqb name) genpybind_macros); [|apply Hplain; exact H].
  destruct (collect 0 r) as [[args rest]|]; [|exact H]. destruct (negb on).
  - apply (IH on defs c rest o f' H). lia.
  - destruct (str_eqb name $"GENPYBIND").
    + destruct (annotate_text defs args); [|exact H]. apply IHm, H.
    + destruct (manual_block defs c args); [|exact H]. apply IHm, H.
Qed.

Lemma as_written_lemma defs src ts rest items o :
  written ts src -> matched ts -> (forall n, In (SIdent n) ts -> no_macro defs n) ->
  pp_lex rest = Some items -> preprocess_items true defs items = Some o ->
  exists text, preprocess_text true defs ($"GENPYBIND(" ++ src ++ $")" ++ rest) = Some (OAnnotate (lozenge ++ text) :: o) /\ lexes text ts.
Proof.
  intros Hw Hm Hn Hr Ho. destruct (written_laid _ _ Hw) as (l & Hl). exists (one_line l). split; [|eapply laid_lexes; exact Hl].
  unfold preprocess_text, pp_lex. cbn [list_ascii_of_string app].
  match goal with |- context [pp_lex_fuel (S ?n) ?s] => set (m := n); set (full := s) end.
  assert (Hm1 : m = 10 + length (src ++ ")"%char :: rest)) by reflexivity.
  assert (Hlex : exists b, pp_lex_fuel (S m) full = Some ((false, PIdent $"GENPYBIND") :: (false, open_paren) :: l ++ (b, close_paren) :: items)).
  { destruct (pp_lex_laid _ _ _ Hl rest items (pred m) Hr) as (b & Hb); [lia|]. exists b.
    cbn [pp_lex_fuel]. assert (E1 : skip_blank (S (length full)) full = Some (false, full)) by reflexivity. rewrite E1.
    assert (E2 : pp_next full = Some (PIdent $"GENPYBIND", "("%char :: src ++ ")"%char :: rest)) by reflexivity.
    unfold full at 1. cbn match. fold full. rewrite E2.
    destruct m as [|m']; [lia|]. cbn [pp_lex_fuel pred] in *.
    assert (E3 : skip_blank (S (length ("("%char :: src ++ ")"%char :: rest))) ("("%char :: src ++ ")"%char :: rest) = Some (false, "("%char :: src ++ ")"%char :: rest)) by reflexivity.
    rewrite E3. assert (E4 : pp_next ("("%char :: src ++ ")"%char :: rest) = Some (open_paren, src ++ ")"%char :: rest)) by reflexivity.
    rewrite E4, Hb. reflexivity. }
  destruct Hlex as (b & Hlex). rewrite Hlex. unfold preprocess_items.
  cbn [preprocess]. change (is_open open_paren && existsb (str_eqb $"GENPYBIND") genpybind_macros) with true. cbn iota.
  rewrite collect_args.
  - cbn [negb]. change (str_eqb $"GENPYBIND" $"GENPYBIND") with true. cbn iota.
    rewrite annotate_plain; [|eapply laid_plain; eassumption|eapply laid_sane; exact Hl].
    unfold preprocess_items in Ho. rewrite (preprocess_more _ _ _ _ _ _ _ Ho); [reflexivity|].
    cbn [length]. rewrite app_length. cbn [length]. lia.
  - rewrite (laid_toks _ _ _ Hl). apply matched_closed; [exact Hm|]. eapply laid_proper, Hl.
Qed.

(** Valid annotations have matching parentheses. *)
Lemma matched_app a b : matched a -> matched b -> matched (a ++ b).
Proof.
  induction 1 as [|t r Ho Hc H IH|a' r Ha IHa Hr IHr]; intros Hb; cbn [app]; [exact Hb|apply ma_token; auto|].
  rewrite <- app_assoc. cbn [app]. apply ma_group; auto.
Qed.
Lemma g_value_matched t v r : g_value t v -> matched r -> matched (t :: r).
Proof. intros H Hr. apply ma_token; [| |exact Hr]; inversion H; discriminate. Qed.
Lemma g_values_matched ts vs : g_values ts vs -> matched ts.
Proof.
  induction 1 as [|t v H|t v ts vs H Hs IH]; [constructor| |].
  - eapply g_value_matched; [exact H|constructor].
  - eapply g_value_matched; [exact H|]. apply ma_token; [discriminate|discriminate|exact IH].
Qed.
Lemma g_annotation_matched ts a : g_annotation ts a -> matched ts.
Proof.
  intros [s k H|s k us vs H Hv]; apply ma_token; try discriminate; [constructor|].
  apply ma_group; [eapply g_values_matched; exact Hv|constructor].
Qed.
Lemma g_annotations_matched ts l : g_annotations ts l -> matched ts.
Proof.
  induction 1 as [|ts a H|ts a ts' l H Hs IH]; [constructor|eapply g_annotation_matched; exact H|].
  apply matched_app; [eapply g_annotation_matched; exact H|]. apply ma_token; (discriminate || exact IH).
Qed.

Lemma annotations_as_written_lemma defs src ts l rest items o :
  written ts src -> g_annotations ts l -> (forall n, In (SIdent n) ts -> no_macro defs n) ->
  pp_lex rest = Some items -> preprocess_items true defs items = Some o ->
  exists text, preprocess_text true defs ($"GENPYBIND(" ++ src ++ $")" ++ rest) = Some (OAnnotate (lozenge ++ text) :: o) /\
    denotes text l.
Proof.
  intros Hw Hg Hn Hr Ho.
  destruct (as_written_lemma defs src ts rest items o Hw (g_annotations_matched _ _ Hg) Hn Hr Ho) as (text & H1 & H2).
  exists text. split; [exact H1|]. exists ts. split; assumption.
Qed.

(** * Whole files *)

Lemma literal_rest_sane q s : forall body r, literal_rest q s = Some (body, r) -> forall c, In c body -> code c <> 10%N /\ code c <> 13%N.
Proof.
  remember (length s) as n eqn:En. assert (Hn : length s <= n) by lia. clear En. revert s Hn.
  induction n as [|n IH]; intros s Hn body r H c Hc; (destruct s as [|d s]; [discriminate|]); [cbn in Hn; lia|]. cbn in Hn.
  cbn [literal_rest] in H. destruct (is_newline d) eqn:E1; [discriminate|]. unfold is_newline in E1.
  destruct (code d =? code q)%N; [injection H as <- <-; destruct Hc as [<-|[]]; lia|].
  destruct (code d =? 92)%N eqn:E2.
  - destruct s as [|e s]; [discriminate|]. destruct (is_newline e) eqn:E3; [discriminate|]. unfold is_newline in E3.
    destruct (literal_rest q s) as [[b' r']|] eqn:E; [|discriminate]. cbn in H. injection H as <- <-. cbn in Hn.
    destruct Hc as [<-|[<-|Hc]]; [lia|lia|]. eapply (IH s); [lia|exact E|exact Hc].
  - destruct (literal_rest q s) as [[b' r']|] eqn:E; [|discriminate]. cbn in H. injection H as <- <-.
    destruct Hc as [<-|Hc]; [lia|]. eapply (IH s); [lia|exact E|exact Hc].
Qed.

Lemma skip_blank_head f : forall s b c r, skip_blank f s = Some (b, c :: r) -> is_blank c = false.
Proof.
  induction f as [|f IH]; intros s b c r H; [discriminate|]. cbn [skip_blank] in H. destruct s as [|d s]; [discriminate|].
  assert (Hm : forall x, option_map (fun p : bool * str => (true, snd p)) (skip_blank f x) = Some (b, c :: r) -> is_blank c = false).
  { intros x E. destruct (skip_blank f x) as [[b' z]|] eqn:Ez; [|discriminate]. cbn in E. injection E as _ ->. exact (IH x b' c r Ez). }
  destruct (is_blank d) eqn:Ed; [exact (Hm _ H)|].
  destruct ((code d =? 47)%N && starts 42 s); [destruct (after_block (tl s)); [exact (Hm _ H)|discriminate]|].
  destruct ((code d =? 47)%N && starts 47 s); [exact (Hm _ H)|]. injection H as _ <- _. exact Ed.
Qed.

Lemma pp_next_sane c s t r : is_blank c = false -> pp_next (c :: s) = Some (t, r) -> t <> PPunct (ascii_of_N 92) -> sane t.
Proof.
  intros Hb H Ht. unfold pp_next in H. destruct (is_ident_start c) eqn:E1.
  - destruct (_ && _); [discriminate|]. injection H as <- _. cbn [sane spelling]. intros d Hd.
    pose proof (take_while_forallb is_ident_continue (c :: s)) as Hf. rewrite forallb_forall in Hf. specialize (Hf d Hd).
    unfold is_ident_continue, is_ident_start, is_letter, is_digit, in_range in Hf. lia.
  - destruct (is_digit c) eqn:E2.
    + injection H as <- _. cbn [sane spelling]. intros d Hd.
      pose proof (take_while_forallb number_char (c :: s)) as Hf. rewrite forallb_forall in Hf. specialize (Hf d Hd).
      unfold number_char, is_ident_continue, is_ident_start, is_letter, is_digit, in_range in Hf. lia.
    + destruct (is_quote c) eqn:E3.
      * destruct (literal_rest c s) as [[b z]|] eqn:E; [|discriminate]. cbn in H. injection H as <- _. cbn [sane]. intros d [<-|Hd].
        -- unfold is_quote in E3. lia.
        -- exact (literal_rest_sane c s b z E d Hd).
      * injection H as <- _. cbn [sane spelling]. intros d [<-|[]]. unfold is_quote in E3. unfold is_blank, is_newline in Hb.
        repeat split; try lia. intros E. apply Ht. f_equal. rewrite <- (ascii_N_embedding c). unfold code in E. rewrite E. reflexivity.
Qed.

Lemma pp_lex_sane f : forall s l, pp_lex_fuel f s = Some l -> ~ In (PPunct (ascii_of_N 92)) (map snd l) -> Forall (fun i => sane (snd i)) l.
Proof.
  induction f as [|f IH]; intros s l H Hn; [discriminate|]. cbn [pp_lex_fuel] in H.
  destruct (skip_blank (S (length s)) s) as [[b s']|] eqn:E; [|discriminate].
  destruct s' as [|c s']; [injection H as <-; constructor|].
  destruct (pp_next (c :: s')) as [[t r]|] eqn:E2; [|discriminate].
  destruct (pp_lex_fuel f r) as [l'|] eqn:E3; [|discriminate]. cbn in H. injection H as <-. cbn [map snd In] in Hn. constructor.
  - cbn [snd]. eapply pp_next_sane; [exact (skip_blank_head _ _ _ _ _ E)|exact E2|]. intros ->. apply Hn. left. reflexivity.
  - apply (IH r); [exact E3|]. intros Hi. apply Hn. right. exact Hi.
Qed.

Definition no_counter (l : list item) : Prop := ~ In (PIdent $"__COUNTER__") (map snd l).

Lemma no_counter_cons i l : no_counter (i :: l) -> snd i <> PIdent $"__COUNTER__" /\ no_counter l.
Proof. unfold no_counter. cbn. intuition. Qed.
Lemma no_counter_app a b : no_counter (a ++ b) -> no_counter a /\ no_counter b.
Proof. unfold no_counter. rewrite map_app. intros H. split; intros E; apply H; apply in_or_app; auto. Qed.

Lemma expand_names f defs active l b : expand (S f) defs active l = Some b ->
  forall s, In (PIdent s) (map snd l) -> s <> $"GENPYBIND" /\ s <> $"GENPYBIND_MANUAL".
Proof.
  revert b. induction l as [|[sp t] l IH]; intros b H s Hs; [destruct Hs|]. cbn [expand] in IH, H.
  match type of H with match ?g with _ => _ end = _ => destruct g as [r'|] eqn:E; [|discriminate] end.
  destruct Hs as [Hs|Hs]; [|apply (IH r'); [reflexivity|exact Hs]]. cbn in Hs. subst t.
  destruct (existsb (str_eqb s) genpybind_macros) eqn:Em; [discriminate|].
  split; intros ->; discriminate Em.
Qed.

Lemma annotate_names defs l text : annotate_text defs l = Some text ->
  forall s, In (PIdent s) (map snd l) -> s <> $"GENPYBIND" /\ s <> $"GENPYBIND_MANUAL".
Proof.
  unfold annotate_text. destruct (expand_all defs l) as [b|] eqn:E; [|discriminate]. intros _. exact (expand_names _ _ _ _ _ E).
Qed.

Lemma expand_parent_fuel f l : expand f [parent_type] [$"GENPYBIND_PARENT_TYPE"] (snd parent_type) = Some (snd parent_type) ->
  forall b, expand (S f) [parent_type] [] l = Some b -> map snd b = flat_map with_parent_type (map snd l).
Proof.
  intros Hbody. induction l as [|[sp t] l IH]; intros b H.
  - injection H as <-. reflexivity.
  - cbn [expand] in IH, H.
    match type of H with match ?g with _ => _ end = _ => destruct g as [r'|] eqn:E; [|discriminate] end.
    specialize (IH r' eq_refl). cbn [map flat_map snd]. rewrite <- IH.
    destruct t as [name| | |]; try (injection H as <-; reflexivity).
    destruct (existsb (str_eqb name) genpybind_macros); [discriminate|]. cbn [existsb] in H.
    change (find_macro [parent_type] name) with
      (option_map snd (if str_eqb $"GENPYBIND_PARENT_TYPE" name then Some parent_type else None)) in H.
    cbn [with_parent_type].
    destruct (str_eqb $"GENPYBIND_PARENT_TYPE" name) eqn:En.
    + apply str_eqb_eq in En as <-. rewrite str_eqb_refl.
      cbn [option_map] in H.
      match type of H with context [expand f ?x ?y ?z] => replace (expand f x y z) with (Some (snd parent_type)) in H by (symmetry; exact Hbody) end.
      injection H as <-. reflexivity.
    + assert (str_eqb name $"GENPYBIND_PARENT_TYPE" = false) as ->.
      { apply str_eqb_neq in En. apply str_eqb_neq. congruence. }
      injection H as <-. reflexivity.
Qed.

Lemma expand_parent l b : expand_all [parent_type] l = Some b -> map snd b = flat_map with_parent_type (map snd l).
Proof. apply expand_parent_fuel. vm_compute. reflexivity. Qed.

(** What preprocessing does, one step. *)
Lemma becomes_lemma f : forall on c l o, preprocess f on [] c l = Some o -> no_counter l ->
  (on = true -> Forall (fun i => sane (snd i)) l) -> becomes on l o.
Proof.
  induction f as [|f IH]; intros on c l o H Hc Hs; [discriminate|]. cbn [preprocess] in H. destruct l as [|[b t] r]; [injection H as <-; constructor|].
  apply no_counter_cons in Hc as [Hc Hcr]. cbn [snd] in Hc.
  assert (Hsr : on = true -> Forall (fun i => sane (snd i)) r) by (intros E; specialize (Hs E); inversion Hs; assumption).
  assert (Hplain : forall o, match t with
    | PIdent name =>
        if str_eqb name $"__COUNTER__" then option_map (cons (OTok (PNum (decimal c)))) (preprocess f on [] (c + 1) r)
        else if existsb (str_eqb name) genpybind_macros then option_map (cons (OTok t)) (preprocess f on [] c r)
        else match expand_all [] [(b, t)] with
             | None => None
             | Some b => option_map (app (map (fun i => OTok (snd i)) b)) (preprocess f on [] c r)
             end
    | _ => option_map (cons (OTok t)) (preprocess f on [] c r)
    end = Some o -> exists o', o = OTok t :: o' /\ becomes on r o').
  { assert (Hm : forall o, option_map (cons (OTok t)) (preprocess f on [] c r) = Some o -> exists o', o = OTok t :: o' /\ becomes on r o').
    { intros o' E. destruct (preprocess f on [] c r) as [o''|] eqn:E'; [|discriminate]. injection E as <-. exists o''.
      split; [reflexivity|]. apply (IH on c r o'' E' Hcr Hsr). }
    intros o' E. destruct t as [name| | |]; try (apply Hm, E). destruct (str_eqb name $"__COUNTER__") eqn:En.
    { apply str_eqb_eq in En. congruence. }
    destruct (existsb (str_eqb name) genpybind_macros) eqn:Em; [apply Hm, E|].
    unfold expand_all in E. rewrite expand_plain in E; [apply Hm, E|].
    intros s [Hs'|[]]. cbn in Hs'. injection Hs' as ->. split; [intros []|]. split; intros ->; discriminate Em. }
  destruct t as [name| | |].
  2-4: apply Hplain in H as (o' & -> & Ho); apply (be_other on (b, _) r o'); [left; split; discriminate|exact Ho].
  destruct r as [|[b' p] r].
  { apply Hplain in H as (o' & -> & Ho). apply (be_other on (b, PIdent name) [] o'); [right; discriminate|exact Ho]. }
  destruct (is_open p) eqn:Eo; cbn [andb] in H.
  2:{ apply Hplain in H as (o' & -> & Ho). apply (be_other on (b, PIdent name) _ o'); [|exact Ho]. right. intros b2 r' [= -> -> _]. discriminate Eo. }
  apply is_open_iff in Eo as ->. destruct (existsb (str_eqb name) genpybind_macros) eqn:Em.
  2:{ apply Hplain in H as (o' & -> & Ho). apply (be_other on (b, PIdent name) _ o'); [|exact Ho]. left. cbn [snd].
      split; intros [= ->]; discriminate Em. }
  destruct (collect 0 r) as [[args rest]|] eqn:Ec; [|discriminate].
  apply collect_sound in Ec as [(b3 & ->) Hcl]. cbn [repeat app] in Hcl.
  apply no_counter_cons in Hcr as [_ Hcr]. apply no_counter_app in Hcr as [_ Hcr]. apply no_counter_cons in Hcr as [_ Hcr].
  assert (Hsa : on = true -> Forall (fun i => sane (snd i)) args /\ Forall (fun i => sane (snd i)) rest).
  { intros E. specialize (Hsr E). inversion Hsr as [|? ? _ Hsr']; subst. apply Forall_app in Hsr' as [H1 H2]. inversion H2; subst. auto. }
  destruct on; cbn [negb] in H.
  - destruct (Hsa eq_refl) as [Hs1 Hs2]. destruct (str_eqb name $"GENPYBIND") eqn:En.
    + apply str_eqb_eq in En as ->. destruct (annotate_text [] args) as [text|] eqn:Ea; [|discriminate].
      destruct (preprocess f true [] c rest) as [o'|] eqn:Er; [|discriminate]. injection H as <-.
      assert (Hpn : plain_names [] args).
      { intros s Hin. split; [intros []|]. exact (annotate_names [] args text Ea s Hin). }
      rewrite annotate_plain in Ea by assumption. injection Ea as <-.
      apply be_annotate; [reflexivity|exact Hcl|]. apply (IH true c rest o' Er Hcr). intros _. exact Hs2.
    + destruct (manual_block [] c args) as [m|] eqn:Ea; [|discriminate].
      destruct (preprocess f true [] (c + 1) rest) as [o'|] eqn:Er; [|discriminate]. injection H as <-.
      unfold manual_block in Ea. change (annotate_text [] [(false, PIdent $"manual")]) with (Some (lozenge ++ $"manual")) in Ea.
      destruct (expand_all [parent_type] args) as [body|] eqn:Eb; [|discriminate]. injection Ea as <-.
      rewrite (expand_parent _ _ Eb).
      assert (name = $"GENPYBIND_MANUAL") as ->.
      { apply genpybind_macro in Em as [->|E]; [discriminate En|exact E]. }
      apply be_manual; [reflexivity|exact Hcl|]. apply (IH true (c + 1)%N rest o' Er Hcr). intros _. exact Hs2.
  - apply be_off; [reflexivity|apply genpybind_macro, Em|exact Hcl|]. apply (IH false c rest o H Hcr). discriminate.
Qed.

(** Annotations only add. *)
Lemma program_toks b o : program (map (fun i : item => OTok (snd i)) b ++ o) = map (fun i : item => OTok (snd i)) b ++ program o.
Proof. unfold program. induction b as [|i b IH]; [reflexivity|]. cbn [map app filter]. f_equal. exact IH. Qed.

Lemma only_add_lemma f : forall defs c c' l o, preprocess f true defs c l = Some o -> no_counter l ->
  preprocess f false defs c' l = Some (program o).
Proof.
  induction f as [|f IH]; intros defs c c' l o H Hc; [discriminate|]. cbn [preprocess] in *.
  destruct l as [|[b t] r]; [injection H as <-; reflexivity|].
  apply no_counter_cons in Hc as [Hc Hcr]. cbn [snd] in Hc.
  assert (Hplain : match t with
    | PIdent name =>
        if str_eqb name $"__COUNTER__" then option_map (cons (OTok (PNum (decimal c)))) (preprocess f true defs (c + 1) r)
        else if existsb (str_eqb name) genpybind_macros then option_map (cons (OTok t)) (preprocess f true defs c r)
        else match expand_all defs [(b, t)] with
             | None => None
             | Some b => option_map (app (map (fun i => OTok (snd i)) b)) (preprocess f true defs c r)
             end
    | _ => option_map (cons (OTok t)) (preprocess f true defs c r)
    end = Some o -> match t with
    | PIdent name =>
        if str_eqb name $"__COUNTER__" then option_map (cons (OTok (PNum (decimal c')))) (preprocess f false defs (c' + 1) r)
        else if existsb (str_eqb name) genpybind_macros then option_map (cons (OTok t)) (preprocess f false defs c' r)
        else match expand_all defs [(b, t)] with
             | None => None
             | Some b => option_map (app (map (fun i => OTok (snd i)) b)) (preprocess f false defs c' r)
             end
    | _ => option_map (cons (OTok t)) (preprocess f false defs c' r)
    end = Some (program o)).
  { assert (Hm : forall o, option_map (cons (OTok t)) (preprocess f true defs c r) = Some o ->
                 option_map (cons (OTok t)) (preprocess f false defs c' r) = Some (program o)).
    { intros o' E. destruct (preprocess f true defs c r) as [o''|] eqn:E'; [|discriminate]. injection E as <-.
      rewrite (IH defs c c' r o'' E' Hcr). reflexivity. }
    intros E. destruct t as [name| | |]; try (apply Hm, E). destruct (str_eqb name $"__COUNTER__") eqn:En.
    { apply str_eqb_eq in En. congruence. }
    destruct (existsb (str_eqb name) genpybind_macros); [apply Hm, E|].
    destruct (expand_all defs [(b, PIdent name)]) as [bs|]; [|discriminate].
    destruct (preprocess f true defs c r) as [o''|] eqn:E'; [|discriminate]. injection E as <-.
    rewrite (IH defs c c' r o'' E' Hcr), program_toks. reflexivity. }
  destruct t as [name| | |]; try (apply Hplain, H). destruct r as [|[b' p] r]; [apply Hplain, H|].
  destruct (is_open p && existsb (str_eqb name) genpybind_macros); [|apply Hplain, H].
  destruct (collect 0 r) as [[args rest]|] eqn:Ec; [|discriminate].
  apply collect_sound in Ec as [(b3 & ->) _].
  apply no_counter_cons in Hcr as [_ Hcr]. apply no_counter_app in Hcr as [_ Hcr]. apply no_counter_cons in Hcr as [_ Hcr].
  cbn [negb] in *. destruct (str_eqb name $"GENPYBIND").
  - destruct (annotate_text defs args) as [text|]; [|discriminate].
    destruct (preprocess f true defs c rest) as [o'|] eqn:Er; [|discriminate]. injection H as <-.
    exact (IH defs c c' rest o' Er Hcr).
  - destruct (manual_block defs c args) as [m|] eqn:Em; [|discriminate].
    destruct (preprocess f true defs (c + 1) rest) as [o'|] eqn:Er; [|discriminate]. injection H as <-.
    unfold manual_block in Em. destruct (annotate_text _ _); [|discriminate]. destruct (expand_all _ _); [|discriminate]. injection Em as <-.
    exact (IH defs (c + 1)%N c' rest o' Er Hcr).
Qed.

(** Switched off, every file with matching parentheses is accepted. *)
Lemma off_complete l o : becomes false l o -> no_counter l -> forall f c, length l < f -> preprocess f false [] c l = Some o.
Proof.
  induction 1 as [|i r o Hi H IH|b1 b2 b3 name args r o _ Hname Hcl H IH|b1 b2 b3 args r o E|b1 b2 b3 name args r o E];
    intros Hc f c Hf; try discriminate; (destruct f as [|f]; [lia|]); cbn [preprocess].
  - reflexivity.
  - apply no_counter_cons in Hc as [Hc Hcr]. destruct i as [b t]. cbn [snd] in *. cbn [length] in Hf.
    assert (IH' : preprocess f false [] c r = Some o) by (apply (IH Hcr); lia).
    assert (Hplain : match t with
      | PIdent name =>
          if str_eqb name $"__COUNTER__" then option_map (cons (OTok (PNum (decimal c)))) (preprocess f false [] (c + 1) r)
          else if existsb (str_eqb name) genpybind_macros then option_map (cons (OTok t)) (preprocess f false [] c r)
          else match expand_all [] [(b, t)] with
               | None => None
               | Some b => option_map (app (map (fun i => OTok (snd i)) b)) (preprocess f false [] c r)
               end
      | _ => option_map (cons (OTok t)) (preprocess f false [] c r)
      end = Some (OTok t :: o)).
    { rewrite IH'. destruct t as [name| | |]; try reflexivity. destruct (str_eqb name $"__COUNTER__") eqn:En.
      { apply str_eqb_eq in En. congruence. }
      destruct (existsb (str_eqb name) genpybind_macros) eqn:Em; [reflexivity|]. unfold expand_all. rewrite expand_plain; [reflexivity|].
      intros s [Hs'|[]]. cbn in Hs'. injection Hs' as ->. split; [intros []|]. split; intros ->; discriminate Em. }
    destruct t as [name| | |]; try exact Hplain. destruct r as [|[b' p] r]; [exact Hplain|].
    destruct (is_open p && existsb (str_eqb name) genpybind_macros) eqn:E; [|exact Hplain].
    exfalso. apply andb_true_iff in E as [E1 E2]. apply is_open_iff in E1 as ->. apply genpybind_macro in E2.
    destruct Hi as [[H1 H2]|H1]; [destruct E2 as [-> | ->]; congruence|]. apply (H1 b' r eq_refl).
  - assert (Em : existsb (str_eqb name) genpybind_macros = true) by (apply genpybind_macro, Hname). rewrite Em.
    change (is_open open_paren) with true. cbn [andb negb]. rewrite collect_args by exact Hcl.
    apply no_counter_cons in Hc as [_ Hc]. apply no_counter_cons in Hc as [_ Hc]. apply no_counter_app in Hc as [_ Hc].
    apply no_counter_cons in Hc as [_ Hc]. apply (IH Hc). cbn [length] in Hf. rewrite app_length in Hf. cbn [length] in Hf. unfold item in *. lia.
Qed.

(** Names of manual bindings. *)
Lemma manual_names_lemma f : forall on defs c l o, preprocess f on defs c l = Some o ->
  NoDup (manual_names o) /\ forall n, In n (manual_names o) -> exists k, (c <= k)%N /\ n = $"genpybind_" ++ decimal k.
Proof.
  induction f as [|f IH]; intros on defs c l o H; [discriminate|]. cbn [preprocess] in H.
  destruct l as [|[b t] r]; [injection H as <-; split; [constructor|intros n []]|].
  assert (Hm : forall c' m g, (c <= c')%N -> (forall x, manual_names (g x) = manual_names x) ->
    option_map g (preprocess f on defs c' m) = Some o ->
    NoDup (manual_names o) /\ forall n, In n (manual_names o) -> exists k, (c <= k)%N /\ n = $"genpybind_" ++ decimal k).
  { intros c' m g Hle Hg E. destruct (preprocess f on defs c' m) as [o'|] eqn:E'; [|discriminate]. injection E as <-.
    rewrite Hg. destruct (IH _ _ _ _ _ E') as [H1 H2]. split; [exact H1|]. intros n Hn. destruct (H2 n Hn) as (k & Hk & ->).
    exists k. split; [lia|reflexivity]. }
  assert (Hplain : match t with
    | PIdent name =>
        if str_eqb name $"__COUNTER__" then option_map (cons (OTok (PNum (decimal c)))) (preprocess f on defs (c + 1) r)
        else if existsb (str_eqb name) genpybind_macros then option_map (cons (OTok t)) (preprocess f on defs c r)
        else match expand_all defs [(b, t)] with
             | None => None
             | Some b => option_map (app (map (fun i => OTok (snd i)) b)) (preprocess f on defs c r)
             end
    | _ => option_map (cons (OTok t)) (preprocess f on defs c r)
    end = Some o ->
    NoDup (manual_names o) /\ forall n, In n (manual_names o) -> exists k, (c <= k)%N /\ n = $"genpybind_" ++ decimal k).
  { intros E. destruct t as [name| | |]; try (eapply Hm; [| |exact E]; [lia|reflexivity]).
    destruct (str_eqb name _); [eapply Hm; [| |exact E]; [lia|reflexivity]|].
    destruct (existsb _ _); [eapply Hm; [| |exact E]; [lia|reflexivity]|].
    destruct (expand_all _ _) as [bs|]; [|discriminate]. eapply Hm; [| |exact E]; [lia|].
    intros x. unfold manual_names. rewrite flat_map_app. clear. induction bs as [|i bs IHb]; [reflexivity|]. exact IHb. }
  destruct t as [name| | |]; try (apply Hplain, H). destruct r as [|[b' p] r]; [apply Hplain, H|].
  destruct (is_open p && existsb (str_eqb name) genpybind_macros); [|apply Hplain, H].
  destruct (collect 0 r) as [[args rest]|]; [|discriminate]. destruct (negb on); [exact (IH _ _ _ _ _ H)|].
  destruct (str_eqb name $"GENPYBIND").
  - destruct (annotate_text defs args) as [text|]; [|discriminate]. eapply Hm; [| |exact H]; [lia|reflexivity].
  - destruct (manual_block defs c args) as [m|] eqn:Em; [|discriminate].
    destruct (preprocess f on defs (c + 1) rest) as [o'|] eqn:Er; [|discriminate]. injection H as <-.
    unfold manual_block in Em. destruct (annotate_text _ _); [|discriminate]. destruct (expand_all _ _); [|discriminate]. injection Em as <-.
    destruct (IH _ _ _ _ _ Er) as [H1 H2]. unfold manual_names. cbn [flat_map app]. fold (manual_names o'). split.
    + constructor; [|exact H1]. intros Hin. destruct (H2 _ Hin) as (k & Hk & E). apply (app_inv_head $"genpybind_") in E. apply decimal_inj in E. lia.
    + intros n [<-|Hn]; [exists c; split; [lia|reflexivity]|]. destruct (H2 n Hn) as (k & Hk & ->). exists k. split; [lia|reflexivity].
Qed.
