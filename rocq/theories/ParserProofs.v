From Verif Require Import Base ParserModel ParserSpec.
From Coq Require Import ZifyBool ZifyNat ZifyN.
Ltac Zify.zify_post_hook ::= Z.div_mod_to_equations.

(** ** Lexing *)

Definition tok_of (t : stoken) : token :=
  match t with
  | SIdent s => mkToken TkIdentifier s LNothing
  | SNum s => mkToken TkLiteral s (LUnsigned (dec_value s))
  | SStr s => mkToken TkLiteral (quote :: s ++ [quote]) (LString s)
  | SOpen => mkToken TkOpen $"(" LNothing
  | SClose => mkToken TkClose $")" LNothing
  | SComma => mkToken TkComma $"," LNothing
  | SBad s => mkToken TkInvalid s LNothing
  end.

Definition eof_tok : token := mkToken TkEof [] LNothing.

Lemma skipn_exact {A} (a b : list A) : skipn (length a) (a ++ b) = b.
Proof. induction a; cbn; auto. Qed.

Lemma firstn_exact {A} (a b : list A) : firstn (length a) (a ++ b) = a.
Proof. induction a; cbn; congruence. Qed.

(** *** Numbers *)

Lemma digit_range c : is_digit c = true -> (48 <= code c <= 57)%N.
Proof. unfold is_digit, in_range. lia. Qed.

Definition dec_from (v : N) (s : str) : N :=
  fold_left (fun v c => v * 10 + (code c - 48))%N s v.

Lemma dec_from_mono s : forall v w, (v <= w)%N -> (dec_from v s <= dec_from w s)%N.
Proof.
  induction s as [|c s IH]; intros v w H; cbn; [exact H|]. apply IH. lia.
Qed.

Lemma dec_from_ge s : forall v, (v <= dec_from v s)%N.
Proof.
  induction s as [|c s IH]; intros v; cbn; [lia|].
  etransitivity; [|apply IH]. lia.
Qed.

Lemma consume_unsigned_spec s : forall v, forallb is_digit s = true -> (v < pow64)%N ->
  consume_unsigned s v = if (dec_from v s <? pow64)%N then Some (dec_from v s) else None.
Proof.
  induction s as [|c s IH]; intros v Hd Hv; cbn [consume_unsigned dec_from fold_left].
  - destruct (N.ltb_spec v pow64); [reflexivity|lia].
  - cbn in Hd. apply andb_true_iff in Hd as [Hc Hs].
    apply digit_range in Hc.
    change (fold_left _ s (v * 10 + (code c - 48))%N) with (dec_from (v * 10 + (code c - 48)) s).
    set (w := (v * 10 + (code c - 48))%N).
    assert (Hw : (v * 10 <= w < v * 10 + 10)%N) by (unfold w; lia).
    destruct (N.ltb_spec w pow64) as [Hlt|Hge].
    + rewrite (N.mod_small w pow64) by exact Hlt.
      destruct (N.ltb_spec (w / 10) v) as [Hbad|_].
      * exfalso. assert (v <= w / 10)%N by (apply N.div_le_lower_bound; lia). lia.
      * apply IH; [exact Hs|exact Hlt].
    + assert (Hover : (w mod pow64 / 10 < v)%N).
      { apply N.div_lt_upper_bound; [lia|].
        assert (w mod pow64 <= w - pow64)%N.
        { assert (pow64 <> 0)%N by (unfold pow64; lia).
          pose proof (N.div_mod w pow64 H).
          assert (1 <= w / pow64)%N by (apply N.div_le_lower_bound; lia).
          assert (pow64 * 1 <= pow64 * (w / pow64))%N by (apply N.mul_le_mono_l; assumption).
          lia. }
        assert (10 < pow64)%N by (unfold pow64; lia). lia. }
      destruct (N.ltb_spec (w mod pow64 / 10) v); [|lia].
      pose proof (dec_from_ge s w).
      destruct (N.ltb_spec (dec_from w s) pow64); [lia|reflexivity].
Qed.

Lemma get_as_unsigned_spec s : s <> [] -> forallb is_digit s = true ->
  get_as_unsigned s = if (dec_value s <=? max_unsigned)%N then Some (dec_value s) else None.
Proof.
  intros Hne Hd. unfold get_as_unsigned. destruct s as [|c s]; [congruence|].
  rewrite consume_unsigned_spec by (try exact Hd; unfold pow64; lia).
  change (dec_from 0 (c :: s)) with (dec_value (c :: s)).
  generalize (dec_value (c :: s)); intros v. clear.
  unfold max_unsigned.
  assert (H32 : pow32 = 4294967296%N) by reflexivity.
  assert (H64 : pow64 = 18446744073709551616%N) by reflexivity.
  destruct (N.ltb_spec v pow64) as [Hv|Hv].
  - destruct (N.leb_spec v 4294967295).
    + rewrite N.mod_small by lia. rewrite N.eqb_refl. reflexivity.
    + destruct (N.eqb_spec (v mod pow32) v) as [E|_]; [|reflexivity].
      exfalso. assert (v mod pow32 < pow32)%N by (apply N.mod_lt; lia). lia.
  - destruct (N.leb_spec v 4294967295); [lia|reflexivity].
Qed.

(** *** Strings *)

Lemma scan_string_sound s : forall pos, match scan_string s pos false with
  | Some p => exists b r, s = b ++ quote :: r /\ string_body b /\ p = pos + length b
  | None => forall b r, string_body b -> s <> b ++ quote :: r
  end.
Proof.
  assert (Hstep : forall n s pos, length s <= n -> match scan_string s pos false with
    | Some p => exists b r, s = b ++ quote :: r /\ string_body b /\ p = pos + length b
    | None => forall b r, string_body b -> s <> b ++ quote :: r
    end); [|intros pos; apply (Hstep (length s)); lia].
  induction n as [|n IH]; intros [|c s'] pos Hlen; cbn [scan_string orb negb] in *.
  - intros [|] ? ?; discriminate.
  - cbn in Hlen; lia.
  - intros [|] ? ?; discriminate.
  - cbn in Hlen. destruct (N.eqb_spec (code c) 92) as [Hc|Hc].
    + destruct s' as [|d s'']; cbn [scan_string orb negb].
      * intros b r Hb E. destruct Hb as [|c' b' H1 H2 Hb'|b' c' b'' H1 Hb'].
        -- cbn in E. injection E as E _. rewrite E in Hc. discriminate Hc.
        -- injection E as -> E. destruct b'; discriminate.
        -- injection E as -> E. discriminate.
      * cbn in Hlen. specialize (IH s'' (S (S pos)) ltac:(lia)).
        destruct (scan_string s'' (S (S pos)) false) as [p|].
        -- destruct IH as (b & r & -> & Hb & ->). exists (c :: d :: b), r.
           repeat split; [constructor; assumption|cbn; lia].
        -- intros b r Hb E. destruct Hb as [|c' b' H1 H2 Hb'|b' c' b'' H1 Hb'].
           ++ cbn in E. injection E as E _. rewrite E in Hc. discriminate Hc.
           ++ injection E as -> E. congruence.
           ++ injection E as -> -> E. exact (IH _ _ Hb' E).
    + destruct (N.eqb_spec (code c) 34) as [Hq|Hq].
      * exists [], s'. repeat split; [|constructor|cbn; lia].
        cbn. f_equal. apply code_inj. exact Hq.
      * specialize (IH s' (S pos) ltac:(lia)).
        destruct (scan_string s' (S pos) false) as [p|].
        -- destruct IH as (b & r & -> & Hb & ->). exists (c :: b), r.
           repeat split; [constructor; assumption|cbn; lia].
        -- intros b r Hb E. destruct Hb as [|c' b' H1 H2 Hb'|b' c' b'' H1 Hb'].
           ++ cbn in E. injection E as E _. rewrite E in Hq. apply Hq; reflexivity.
           ++ injection E as -> E. exact (IH _ _ Hb' E).
           ++ injection E as -> E. congruence.
Qed.

Lemma scan_string_body b : forall r pos, string_body b ->
  scan_string (b ++ quote :: r) pos false = Some (pos + length b).
Proof.
  intros r pos Hb; revert pos; induction Hb as [|c s H1 H2 Hb IH|e c s H1 Hb IH]; intros pos; cbn -[Nat.add].
  - f_equal; cbn; lia.
  - destruct (N.eqb_spec (code c) 92); [congruence|].
    destruct (N.eqb_spec (code c) 34); [congruence|]. rewrite IH. f_equal; cbn; lia.
  - rewrite H1. cbn -[Nat.add]. rewrite IH. f_equal; cbn; lia.
Qed.

(** *** The tokenizer recognises exactly the lexemes *)

Lemma start_not_special c : is_ident_start c = true ->
  is_digit c = false /\ is_hspace c = false /\ ~ In (code c) [34; 40; 41; 44]%N.
Proof.
  unfold is_ident_start, is_letter, is_digit, is_hspace, in_range; cbn [In]; intros H.
  repeat split; lia.
Qed.

Lemma digit_not_special c : is_digit c = true ->
  is_ident_start c = false /\ is_hspace c = false /\ ~ In (code c) [34; 40; 41; 44]%N.
Proof.
  unfold is_ident_start, is_letter, is_digit, is_hspace, in_range; cbn [In]; intros H.
  repeat split; lia.
Qed.

Lemma not_in_special c : ~ In (code c) [34; 40; 41; 44]%N ->
  (code c =? 40)%N = false /\ (code c =? 41)%N = false /\ (code c =? 44)%N = false /\ (code c =? 34)%N = false.
Proof. cbn [In]; intros H. repeat split; lia. Qed.

Lemma tokenize_lexeme w t r :
  forallb is_hspace w = true -> lexeme t r -> tokenize (w ++ stext t ++ r) = (tok_of t, r).
Proof.
  intros Hw Hl. unfold tokenize. rewrite drop_while_app by exact Hw.
  destruct Hl as [c s r Hc Hs Hr|s r Hne Hs Hr Hv|s r Hb|r|r|r|s r Hne Hs Hr Hv|s Hun|c r H1 H2 H3 H4];
    cbn [stext].
  - destruct (start_not_special c Hc) as (Hd & Hw' & Hsp).
    apply not_in_special in Hsp as (E1 & E2 & E3 & E4).
    rewrite drop_while_stops by exact Hw'. cbn [app].
    rewrite E1, E2, E3, Hd, E4, Hc.
    unfold tokenize_identifier. cbn [take_while].
    assert (Hcc : is_ident_continue c = true) by (unfold is_ident_continue; rewrite Hc; reflexivity).
    rewrite Hcc, take_while_app, (take_while_stops _ _ Hr), app_nil_r by exact Hs.
    change (c :: s ++ r) with ((c :: s) ++ r). rewrite skipn_exact. reflexivity.
  - destruct s as [|c s]; [congruence|]. pose proof Hs as Hs'. cbn in Hs'.
    apply andb_true_iff in Hs' as [Hc _].
    destruct (digit_not_special c Hc) as (Hd & Hw' & Hsp).
    apply not_in_special in Hsp as (E1 & E2 & E3 & E4).
    rewrite drop_while_stops by exact Hw'. cbn [app]. rewrite E1, E2, E3, Hc.
    unfold tokenize_number. change (c :: s ++ r) with ((c :: s) ++ r).
    rewrite take_while_app, (take_while_stops _ _ Hr), app_nil_r by exact Hs.
    rewrite skipn_exact, get_as_unsigned_spec by assumption.
    destruct (N.leb_spec (dec_value (c :: s)) max_unsigned); [reflexivity|lia].
  - cbn [app]. rewrite drop_while_stops by reflexivity.
    change (code quote =? 40)%N with false; change (code quote =? 41)%N with false;
      change (code quote =? 44)%N with false; change (is_digit quote) with false;
      change (code quote =? 34)%N with true. cbn iota.
    unfold tokenize_string. cbn [skipn]. rewrite <- app_assoc. cbn [app].
    rewrite scan_string_body by exact Hb.
    replace (1 + length s + 1) with (length (quote :: s ++ [quote])) by (cbn; rewrite app_length; cbn; lia).
    replace (quote :: s ++ quote :: r) with ((quote :: s ++ [quote]) ++ r) by (cbn; rewrite <- app_assoc; reflexivity).
    rewrite firstn_exact, skipn_exact. cbn [tok_of]. do 2 f_equal.
    replace (1 + length s - 1) with (length s) by lia. rewrite firstn_exact. reflexivity.
  - reflexivity.
  - reflexivity.
  - reflexivity.
  - destruct s as [|c s]; [congruence|]. pose proof Hs as Hs'. cbn in Hs'.
    apply andb_true_iff in Hs' as [Hc _].
    destruct (digit_not_special c Hc) as (Hd & Hw' & Hsp).
    apply not_in_special in Hsp as (E1 & E2 & E3 & E4).
    rewrite drop_while_stops by exact Hw'. cbn [app]. rewrite E1, E2, E3, Hc.
    unfold tokenize_number. change (c :: s ++ r) with ((c :: s) ++ r).
    rewrite take_while_app, (take_while_stops _ _ Hr), app_nil_r by exact Hs.
    rewrite skipn_exact, get_as_unsigned_spec by assumption.
    destruct (N.leb_spec (dec_value (c :: s)) max_unsigned); [lia|reflexivity].
  - rewrite app_nil_r. rewrite drop_while_stops by reflexivity.
    change (code quote =? 40)%N with false; change (code quote =? 41)%N with false;
      change (code quote =? 44)%N with false; change (is_digit quote) with false;
      change (code quote =? 34)%N with true. cbn iota.
    unfold tokenize_string. cbn [skipn].
    pose proof (scan_string_sound s 1) as Hscan.
    destruct (scan_string s 1 false) as [p|].
    + destruct Hscan as (b & r & -> & Hb & _). exfalso. exact (Hun b r Hb eq_refl).
    + rewrite skipn_all. reflexivity.
  - apply not_in_special in H4 as (E1 & E2 & E3 & E4).
    rewrite drop_while_stops by exact H1. cbn [app]. rewrite E1, E2, E3, H3, E4, H2. reflexivity.
Qed.

Lemma tokenize_end w : forallb is_hspace w = true -> tokenize w = (eof_tok, []).
Proof.
  intros Hw. unfold tokenize. rewrite <- (app_nil_r w), drop_while_app by exact Hw. reflexivity.
Qed.

Lemma lexeme_total s : s <> [] -> stops is_hspace s -> exists t r, s = stext t ++ r /\ lexeme t r.
Proof.
  intros Hne Hsp. destruct s as [|c s]; [congruence|]. cbn in Hsp.
  destruct (is_ident_start c) eqn:Hid.
  { exists (SIdent (c :: take_while is_ident_continue s)), (drop_while is_ident_continue s).
    split; [cbn; rewrite take_drop_while; reflexivity|].
    constructor; [exact Hid|apply take_while_forallb|apply drop_while_stops']. }
  destruct (is_digit c) eqn:Hdg.
  { set (d := take_while is_digit (c :: s)). set (r := drop_while is_digit (c :: s)).
    assert (Hd : forallb is_digit d = true) by apply take_while_forallb.
    assert (Hne' : d <> []) by (unfold d; cbn; rewrite Hdg; discriminate).
    assert (Hr : stops is_digit r) by apply drop_while_stops'.
    assert (E : c :: s = d ++ r) by (symmetry; apply take_drop_while).
    destruct (N.le_gt_cases (dec_value d) max_unsigned).
    - exists (SNum d), r. split; [exact E|]. constructor; assumption.
    - exists (SBad d), r. split; [exact E|]. apply lx_too_large; assumption. }
  destruct (N.eqb_spec (code c) 34) as [Hq|Hq].
  { assert (Ec : c = quote) by (apply code_inj; exact Hq). rewrite Ec.
    pose proof (scan_string_sound s 1) as Hscan.
    destruct (scan_string s 1 false) as [p|].
    - destruct Hscan as (b & r & -> & Hb & _). exists (SStr b), r.
      split; [cbn; rewrite <- app_assoc; reflexivity|constructor; exact Hb].
    - exists (SBad (quote :: s)), []. split; [cbn; rewrite app_nil_r; reflexivity|].
      apply lx_unterminated. exact Hscan. }
  destruct (N.eqb_spec (code c) 40) as [H1|H1].
  { exists SOpen, s. split; [|constructor]. cbn. f_equal. apply code_inj. exact H1. }
  destruct (N.eqb_spec (code c) 41) as [H2|H2].
  { exists SClose, s. split; [|constructor]. cbn. f_equal. apply code_inj. exact H2. }
  destruct (N.eqb_spec (code c) 44) as [H3|H3].
  { exists SComma, s. split; [|constructor]. cbn. f_equal. apply code_inj. exact H3. }
  exists (SBad [c]), s. split; [reflexivity|]. apply lx_char; try assumption.
  cbn [In]. lia.
Qed.

Lemma lexeme_nonempty t r : lexeme t r -> stext t <> [].
Proof. destruct 1; cbn; congruence. Qed.

Lemma lexes_total text : exists ts, lexes text ts.
Proof.
  assert (H : forall n text, length text <= n -> exists ts, lexes text ts); [|apply (H (length text)); lia].
  clear text. induction n as [|n IH]; intros text Hlen.
  - destruct text; [|cbn in Hlen; lia]. exists []. constructor. reflexivity.
  - destruct (drop_while is_hspace text) as [|c s] eqn:E.
    + exists []. constructor. rewrite <- (take_drop_while is_hspace text), E, app_nil_r.
      apply take_while_forallb.
    + destruct (lexeme_total (c :: s)) as (t & r & Er & Hl); [discriminate|rewrite <- E; apply drop_while_stops'|].
      assert (Et : text = take_while is_hspace text ++ stext t ++ r)
        by (rewrite <- Er, <- E; symmetry; apply take_drop_while).
      assert (Hr : length r < length text).
      { rewrite Et, !app_length. pose proof (lexeme_nonempty _ _ Hl). destruct (stext t); [congruence|cbn; lia]. }
      destruct (IH r) as [ts Hts]; [lia|].
      exists (t :: ts). rewrite Et. constructor; [apply take_while_forallb|assumption|assumption].
Qed.

Lemma tok_of_inj a b : tok_of a = tok_of b -> a = b.
Proof.
  destruct a, b; cbn; try discriminate; intros E; try reflexivity; try congruence.
Qed.

Lemma lexes_det text ts1 : lexes text ts1 -> forall ts2, lexes text ts2 -> ts1 = ts2.
Proof.
  induction 1 as [w Hw|w t r ts Hw Hl Hts IH]; intros ts2 H2.
  - pose proof (tokenize_end w Hw) as E. inversion H2 as [w' Hw' | w' t' r' ts' Hw' Hl' Hts']; subst; [reflexivity|].
    rewrite (tokenize_lexeme _ _ _ Hw' Hl') in E. injection E as E _. destruct t'; discriminate.
  - pose proof (tokenize_lexeme _ _ _ Hw Hl) as E.
    inversion H2 as [w' Hw' E' | w' t' r' ts' Hw' Hl' Hts' E']; subst.
    + rewrite tokenize_end in E by exact Hw'. injection E as E _. destruct t; discriminate.
    + rewrite <- E' in E. rewrite (tokenize_lexeme _ _ _ Hw' Hl') in E. injection E as Et Er.
      apply tok_of_inj in Et. subst. f_equal. apply IH. assumption.
Qed.

Lemma lexes_length text ts : lexes text ts -> length ts <= length text.
Proof.
  induction 1 as [w Hw|w t r ts Hw Hl Hts IH]; cbn; [lia|].
  rewrite !app_length. pose proof (lexeme_nonempty _ _ Hl). destruct (stext t); [congruence|cbn; lia].
Qed.

(** Token stream delivered by the tokenizer. *)
Fixpoint stream (tz : tokenizer) (ts : list stoken) : Prop :=
  match ts with
  | [] => tz = mkTokenizer [] eof_tok
  | t :: ts' => tz_next tz = tok_of t /\ stream (make_tokenizer (tz_text tz)) ts'
  end.

Lemma lexes_stream text ts : lexes text ts -> stream (make_tokenizer text) ts.
Proof.
  induction 1 as [w Hw|w t r ts Hw Hl Hts IH]; cbn [stream]; unfold make_tokenizer at 1.
  - rewrite tokenize_end by exact Hw. reflexivity.
  - unfold make_tokenizer at 2. rewrite (tokenize_lexeme _ _ _ Hw Hl). cbn. split; [reflexivity|exact IH].
Qed.

Lemma stream_eof : stream (make_tokenizer []) [].
Proof. reflexivity. Qed.

(** ** Parsing of token lists *)

Definition head_tok (ts : list stoken) : token := match ts with [] => eof_tok | t :: _ => tok_of t end.

Lemma stream_next tz ts : stream tz ts -> tz_next tz = head_tok ts.
Proof. destruct ts; cbn; [intros ->; reflexivity|intros [H _]; exact H]. Qed.

Lemma stream_consume tz ts : stream tz ts -> stream (snd (consume_token tz)) (tl ts).
Proof. destruct ts; cbn; [intros ->; reflexivity|intros [_ H]; exact H]. Qed.

(** Reference parser on token lists (used only in proofs). *)
Definition pl_value (ts : list stoken) : option (lit * list stoken) :=
  match ts with
  | SIdent s :: ts' => Some (value_of_identifier s, ts')
  | SNum s :: ts' => Some (LUnsigned (dec_value s), ts')
  | SStr s :: ts' => Some (LString s, ts')
  | _ => None
  end.

Fixpoint pl_values (fuel : nat) (ts : list stoken) (args : list lit) : option (list lit * list stoken) :=
  match fuel with
  | O => None
  | S fuel' =>
      match pl_value ts with
      | Some (v, SComma :: ts') => pl_values fuel' ts' (args ++ [v])
      | Some (v, ts') => Some (args ++ [v], ts')
      | None => Some (args, ts)
      end
  end.

Lemma stream_kind tz ts : stream tz ts -> token_kind tz = t_kind (head_tok ts).
Proof. intros H. unfold token_kind. rewrite (stream_next _ _ H). reflexivity. Qed.

Lemma value_of_identifier_has s : has_value (value_of_identifier s) = true.
Proof. unfold value_of_identifier. repeat destruct (str_eqb _ _); reflexivity. Qed.

Lemma parse_value_stream tz ts : stream tz ts ->
  match pl_value ts with
  | Some (v, ts') => has_value v = true /\ exists tz', parse_value tz = (v, tz') /\ stream tz' ts'
  | None => parse_value tz = (LNothing, tz)
  end.
Proof.
  intros H. unfold parse_value. rewrite (stream_kind _ _ H).
  pose proof (stream_consume _ _ H) as Hc. pose proof (stream_next _ _ H) as Hn.
  destruct ts as [|[s|s|s| | | |s] ts]; cbn [pl_value head_tok tok_of t_kind tkind_eqb] in *;
    try reflexivity.
  - split; [apply value_of_identifier_has|]. unfold consume_token in *. rewrite Hn. cbn. eexists; split; [reflexivity|exact Hc].
  - split; [reflexivity|]. unfold consume_token in *. rewrite Hn. cbn. eexists; split; [reflexivity|exact Hc].
  - split; [reflexivity|]. unfold consume_token in *. rewrite Hn. cbn. eexists; split; [reflexivity|exact Hc].
Qed.

Lemma skip_comma_stream tz ts : stream tz ts ->
  match ts with
  | SComma :: ts' => exists tz', skip_comma tz = (true, tz') /\ stream tz' ts'
  | _ => skip_comma tz = (false, tz)
  end.
Proof.
  intros H. unfold skip_comma. rewrite (stream_kind _ _ H).
  pose proof (stream_consume _ _ H) as Hc.
  destruct ts as [|[s|s|s| | | |s] ts]; cbn [head_tok tok_of t_kind tkind_eqb] in *; try reflexivity.
  eexists; split; [reflexivity|exact Hc].
Qed.

Lemma parse_values_stream fuel : forall tz ts args, stream tz ts ->
  match pl_values fuel ts args with
  | Some (vs, ts') => exists tz', parse_values fuel tz args = Some (vs, tz') /\ stream tz' ts'
  | None => parse_values fuel tz args = None
  end.
Proof.
  induction fuel as [|fuel IH]; intros tz ts args H; cbn [pl_values parse_values]; [reflexivity|].
  pose proof (parse_value_stream _ _ H) as Hv.
  destruct (pl_value ts) as [[v ts1]|].
  - destruct Hv as (Hhas & tz1 & -> & H1). rewrite Hhas.
    pose proof (skip_comma_stream _ _ H1) as Hs.
    destruct ts1 as [|[s|s|s| | | |s] ts1]; try (rewrite Hs; eexists; split; [reflexivity|exact H1]).
    destruct Hs as (tz2 & -> & H2). apply IH. exact H2.
  - rewrite Hv. cbn. eexists; split; [reflexivity|exact H].
Qed.

(** Result of parsing a token list: status, annotations, tokens before the end. *)
Inductive pres :=
| POk (l : list annotation)
| PErr (e : perror_kind) (rest : list stoken) (l : list annotation)
| PFuel.

Definition pl_end (ts : list stoken) (acc : list annotation) : pres :=
  match ts with [] => POk acc | _ => PErr InvalidToken ts acc end.

Fixpoint pl_loop (fuel : nat) (ts : list stoken) (acc : list annotation) : pres :=
  match fuel with
  | O => PFuel
  | S fuel' =>
      match ts with
      | SIdent s :: ts1 =>
          match kind_of_spelling s with
          | None => PErr InvalidAnnotation ts acc
          | Some k =>
              let continue args ts2 :=
                let acc' := acc ++ [mkAnnotation k args] in
                match ts2 with
                | SComma :: ts3 => pl_loop fuel' ts3 acc'
                | _ => pl_end ts2 acc'
                end in
              match ts1 with
              | SOpen :: ts1' =>
                  match pl_values fuel' ts1' [] with
                  | None => PFuel
                  | Some (args, SClose :: ts2) => continue args ts2
                  | Some (_, ts2) =>
                      PErr (match ts2 with SBad _ :: _ => InvalidToken | _ => MissingClosingParen end) ts2 acc
                  end
              | _ => continue [] ts1
              end
          end
      | _ => pl_end ts acc
      end
  end.

Definition pres_rel (r : res unit * list annotation) (p : pres) : Prop :=
  match p with
  | POk l => r = (ROk tt, l)
  | PErr e rest l => r = (RErr (mkError e (offending_text rest)), l)
  | PFuel => fst r = RFuel
  end.

Lemma t_text_head ts : t_text (head_tok ts) = offending_text ts.
Proof. destruct ts as [|[] ts]; reflexivity. Qed.

Lemma parse_end_stream tz ts acc : stream tz ts -> pres_rel (parse_end tz, acc) (pl_end ts acc).
Proof.
  intros H. unfold parse_end. rewrite (stream_kind _ _ H).
  pose proof (stream_next _ _ H) as Hn. rewrite Hn, t_text_head.
  destruct ts as [|[] ts]; reflexivity.
Qed.

Lemma parse_loop_stream fuel : forall tz ts acc, stream tz ts ->
  pres_rel (parse_loop fuel tz acc) (pl_loop fuel ts acc).
Proof.
  induction fuel as [|fuel IH]; intros tz ts acc H; [reflexivity|].
  cbn [parse_loop pl_loop]. rewrite (stream_kind _ _ H).
  destruct ts as [|t ts1]; [apply parse_end_stream; exact H|].
  destruct t as [s|s|s| | | |s]; try (apply parse_end_stream; exact H).
  cbn [head_tok tok_of t_kind tkind_eqb].
  unfold parse_kind.
  pose proof (stream_consume _ _ H) as H1. pose proof (stream_next _ _ H) as Hn.
  unfold consume_token in *. rewrite Hn. cbn [head_tok tok_of t_text tl snd] in *.
  destruct (kind_of_spelling s) as [k|]; [|reflexivity].
  set (tz1 := make_tokenizer (tz_text tz)) in *.
  (* what happens after the arguments *)
  assert (Hcont : forall args tz2 ts2, stream tz2 ts2 ->
    pres_rel (let acc' := acc ++ [mkAnnotation k args] in
              let '(comma, tz3) := skip_comma tz2 in
              if comma then parse_loop fuel tz3 acc' else (parse_end tz3, acc'))
             (let acc' := acc ++ [mkAnnotation k args] in
              match ts2 with SComma :: ts3 => pl_loop fuel ts3 acc' | _ => pl_end ts2 acc' end)).
  { intros args tz2 ts2 H2. cbv zeta. pose proof (skip_comma_stream _ _ H2) as Hs.
    destruct ts2 as [|[] ts2]; try (rewrite Hs; apply parse_end_stream; exact H2).
    destruct Hs as (tz3 & -> & H3). apply IH. exact H3. }
  unfold parse_arguments. rewrite (stream_kind _ _ H1).
  destruct ts1 as [|t1 ts1']; [apply (Hcont [] tz1 []); exact H1|].
  destruct t1 as [s1|s1|s1| | | |s1]; cbn [head_tok tok_of t_kind tkind_eqb];
    try exact (Hcont [] tz1 _ H1).
  pose proof (stream_consume _ _ H1) as H2. cbn [tl] in H2.
  pose proof (parse_values_stream fuel _ _ [] H2) as Hv.
  destruct (pl_values fuel ts1' []) as [[args ts2]|].
  - destruct Hv as (tz2 & E & Hs2). unfold consume_token in E |- *. cbn [snd] in *. rewrite E.
    pose proof (stream_consume _ _ Hs2) as H3. pose proof (stream_next _ _ Hs2) as Hn2.
    unfold consume_token in *. rewrite Hn2.
    destruct ts2 as [|t2 ts2]; cbn [head_tok tok_of t_kind tkind_eqb t_text eof_tok]; [reflexivity|].
    destruct t2; cbn [tok_of t_kind tkind_eqb t_text]; try reflexivity.
    cbn [tl snd] in H3. apply Hcont. exact H3.
  - unfold consume_token in Hv |- *. cbn [snd] in *. rewrite Hv. reflexivity.
Qed.

(** ** The reference parser implements the grammar *)

Lemma names_spec s k : names s k <-> s = kind_spelling k.
Proof.
  unfold names. split.
  - intros (n & Hin & ->). cbn in Hin.
    repeat destruct Hin as [Hin|Hin]; try (injection Hin as <- <-; reflexivity); contradiction.
  - intros ->. destruct k; eexists; (split; [|reflexivity]); cbn;
      repeat (first [left; reflexivity|right]).
Qed.

Lemma kind_of_spelling_complete k : kind_of_spelling (kind_spelling k) = Some k.
Proof. destruct k; reflexivity. Qed.

Lemma kind_of_spelling_some s k : kind_of_spelling s = Some k <-> names s k.
Proof.
  rewrite names_spec. split.
  - unfold kind_of_spelling. intros H. apply find_some in H as [_ H]. apply str_eqb_eq in H. exact H.
  - intros ->. apply kind_of_spelling_complete.
Qed.

Lemma kind_of_spelling_none s : kind_of_spelling s = None -> forall k, ~ names s k.
Proof. intros H k Hk. apply kind_of_spelling_some in Hk. congruence. Qed.

Lemma g_value_ident s : g_value (SIdent s) (value_of_identifier s).
Proof.
  unfold value_of_identifier.
  destruct (str_eqb s $"true") eqn:E1; [apply str_eqb_eq in E1; subst; constructor|].
  destruct (str_eqb s $"false") eqn:E2; [apply str_eqb_eq in E2; subst; constructor|].
  destruct (str_eqb s $"default") eqn:E3; [apply str_eqb_eq in E3; subst; constructor|].
  apply str_eqb_neq in E1, E2, E3. constructor; assumption.
Qed.

Lemma g_value_pl t v : g_value t v -> forall ts, pl_value (t :: ts) = Some (v, ts).
Proof.
  destruct 1; intros; cbn [pl_value]; try reflexivity.
  unfold value_of_identifier. apply str_eqb_neq in H, H0, H1. rewrite H, H0, H1. reflexivity.
Qed.

Lemma pl_value_some ts v ts' : pl_value ts = Some (v, ts') -> exists t, ts = t :: ts' /\ g_value t v.
Proof.
  destruct ts as [|[s|s|s| | | |s] ts]; cbn; try discriminate; intros [= <- <-];
    eexists; (split; [reflexivity|]); try constructor. apply g_value_ident.
Qed.

Lemma pl_value_none ts : pl_value ts = None -> forall t v ts', g_value t v -> ts <> t :: ts'.
Proof. intros H t v ts' Hv ->. rewrite (g_value_pl _ _ Hv) in H. discriminate. Qed.

(** Prefixes ending before a value is expected. *)
Inductive vpre : list stoken -> list lit -> Prop :=
| vpre_nil : vpre [] []
| vpre_snoc ts vs t v : vpre ts vs -> g_value t v -> vpre (ts ++ [t; SComma]) (vs ++ [v]).

Lemma vpre_app ts vs : vpre ts vs -> forall ts' vs', g_values ts' vs' -> g_values (ts ++ ts') (vs ++ vs').
Proof.
  induction 1 as [|ts vs t v Hp IH Hv]; intros ts' vs' H'; [exact H'|].
  rewrite <- !app_assoc. apply IH. cbn. constructor; assumption.
Qed.

Lemma pl_values_sound fuel : forall ts args vs ts' pre,
  vpre pre args -> pl_values fuel ts args = Some (vs, ts') ->
  exists mid, ts = mid ++ ts' /\ g_values (pre ++ mid) vs /\
    (* either a value was expected (and is missing), or a comma *)
    ((vpre (pre ++ mid) vs /\ pl_value ts' = None) \/
     (exists pre' t vs' v, pre ++ mid = pre' ++ [t] /\ vpre pre' vs' /\ g_value t v /\ vs = vs' ++ [v] /\
        hd_error ts' <> Some SComma)).
Proof.
  induction fuel as [|fuel IH]; intros ts args vs ts' pre Hp; cbn [pl_values]; [discriminate|].
  destruct (pl_value ts) as [[v ts1]|] eqn:Ev.
  - apply pl_value_some in Ev as (t & -> & Hv).
    assert (Hstop : hd_error ts1 <> Some SComma -> Some (args ++ [v], ts1) = Some (vs, ts') ->
      exists mid, t :: ts1 = mid ++ ts' /\ g_values (pre ++ mid) vs /\
      ((vpre (pre ++ mid) vs /\ pl_value ts' = None) \/
       (exists pre' t' vs' v', pre ++ mid = pre' ++ [t'] /\ vpre pre' vs' /\ g_value t' v' /\ vs = vs' ++ [v'] /\
          hd_error ts' <> Some SComma))).
    { intros Hh [= <- <-]. exists [t]. split; [reflexivity|]. split.
      - apply vpre_app; [exact Hp|constructor; exact Hv].
      - right. exists pre, t, args, v. repeat split; assumption. }
    destruct ts1 as [|[s|s|s| | | |s] ts1]; try (apply Hstop; discriminate).
    intros H. destruct (IH ts1 (args ++ [v]) vs ts' (pre ++ [t; SComma])) as (mid & -> & Hg & Hor); [constructor; assumption|exact H|].
    exists (t :: SComma :: mid). split; [reflexivity|].
    replace (pre ++ t :: SComma :: mid) with ((pre ++ [t; SComma]) ++ mid) by (rewrite <- app_assoc; reflexivity).
    split; assumption.
  - intros [= <- <-]. exists []. split; [reflexivity|]. rewrite app_nil_r. split.
    + rewrite <- (app_nil_r pre), <- (app_nil_r args). apply vpre_app; [exact Hp|constructor].
    + left. split; assumption.
Qed.

Lemma pl_values_vpre pre vs : vpre pre vs -> forall fuel ts args, length (pre ++ ts) < fuel ->
  exists fuel', length ts < fuel' /\ pl_values fuel (pre ++ ts) args = pl_values fuel' ts (args ++ vs).
Proof.
  induction 1 as [|pre vs t v Hp IH Hv]; intros fuel ts args Hlen.
  - exists fuel. rewrite app_nil_r. split; [exact Hlen|reflexivity].
  - rewrite <- app_assoc in *. destruct (IH fuel _ args Hlen) as (f & Hf & ->).
    cbn [app] in *. destruct f as [|f]; [lia|]. cbn [pl_values]. rewrite (g_value_pl _ _ Hv).
    exists f. rewrite <- app_assoc. split; [cbn in Hf; lia|reflexivity].
Qed.

Lemma pl_values_fuel fuel : forall ts args, length ts < fuel -> pl_values fuel ts args <> None.
Proof.
  induction fuel as [|fuel IH]; intros ts args Hlen; cbn [pl_values]; [lia|].
  destruct (pl_value ts) as [[v ts1]|] eqn:Ev; [|discriminate].
  apply pl_value_some in Ev as (t & -> & Hv). cbn in Hlen.
  destruct ts1 as [|[] ts1]; try discriminate. apply IH. cbn in Hlen. lia.
Qed.

Lemma pl_values_complete ts vs : g_values ts vs -> forall fuel args ts', length ts < fuel ->
  pl_value ts' = None -> hd_error ts' <> Some SComma ->
  pl_values fuel (ts ++ ts') args = Some (args ++ vs, ts').
Proof.
  induction 1 as [|t v Hv|t v ts vs Hv Hvs IH]; intros fuel args ts' Hlen Hn Hc;
    (destruct fuel as [|fuel]; [cbn in Hlen; lia|]); cbn [pl_values app].
  - rewrite Hn, app_nil_r. reflexivity.
  - rewrite (g_value_pl _ _ Hv). destruct ts' as [|[] ts']; try reflexivity. cbn in Hc; congruence.
  - rewrite (g_value_pl _ _ Hv). rewrite IH; [|cbn in Hlen; lia|exact Hn|exact Hc].
    rewrite <- app_assoc. reflexivity.
Qed.

(** *** Facts on the grammar *)

Lemma g_values_no_close ts vs : g_values ts vs -> ~ In SClose ts.
Proof.
  induction 1 as [|t v Hv|t v ts vs Hv Hvs IH]; cbn; [tauto| |].
  - destruct Hv; intros [E|[]]; discriminate.
  - destruct Hv; intros [E|[E|E]]; try discriminate; tauto.
Qed.

Lemma split_at_close (a b c d : list stoken) :
  ~ In SClose a -> ~ In SClose c -> a ++ SClose :: b = c ++ SClose :: d -> a = c /\ b = d.
Proof.
  revert c. induction a as [|x a IH]; intros [|y c] Ha Hc E; cbn in *.
  - injection E as <-. split; reflexivity.
  - injection E as <- _. exfalso; apply Hc; left; reflexivity.
  - injection E as -> _. exfalso; apply Ha; left; reflexivity.
  - injection E as <- E. destruct (IH c) as [-> ->]; auto.
Qed.

(** The annotation at the start of a valid token list. *)
Lemma g_annotations_inv ts l : g_annotations ts l ->
  (ts = [] /\ l = []) \/
  (exists s k, names s k /\
     ((exists l', (ts = [SIdent s] \/ exists ts', ts = SIdent s :: SComma :: ts' /\ g_annotations ts' l') /\
                  l = mkAnnotation k [] :: (match ts with [_] => [] | _ => l' end)) \/
      (exists args vs rest, ts = SIdent s :: SOpen :: args ++ SClose :: rest /\ g_values args vs /\
         ((rest = [] /\ l = [mkAnnotation k vs]) \/
          (exists ts' l', rest = SComma :: ts' /\ g_annotations ts' l' /\ l = mkAnnotation k vs :: l'))))).
Proof.
  destruct 1 as [|ts a Ha|ts a ts' l Ha Hl]; [left; auto|right|right].
  - destruct Ha as [s k Hk|s k ts vs Hk Hv]; exists s, k; (split; [exact Hk|]).
    + left. exists []. split; [left; reflexivity|reflexivity].
    + right. exists ts, vs, []. split; [reflexivity|]. split; [exact Hv|]. left; auto.
  - destruct Ha as [s k Hk|s k ts vs Hk Hv]; exists s, k; (split; [exact Hk|]).
    + left. exists l. split; [right; exists ts'; split; [reflexivity|exact Hl]|reflexivity].
    + right. exists ts, vs, (SComma :: ts'). split; [cbn; rewrite <- app_assoc; reflexivity|].
      split; [exact Hv|]. right. exists ts', l. auto.
Qed.

(** Completeness. *)
Lemma pl_loop_complete ts l : g_annotations ts l -> forall fuel acc, length ts < fuel ->
  pl_loop fuel ts acc = POk (acc ++ l).
Proof.
  induction 1 as [|ts a Ha|ts a ts' l Ha Hl IH]; intros fuel acc Hlen;
    (destruct fuel as [|fuel]; [lia|]).
  - cbn. rewrite app_nil_r. reflexivity.
  - destruct Ha as [s k Hk|s k ts vs Hk Hv]; apply kind_of_spelling_some in Hk; cbn [pl_loop]; rewrite Hk.
    + reflexivity.
    + rewrite (pl_values_complete _ _ Hv fuel [] [SClose]); try reflexivity; try discriminate.
      cbn in Hlen; rewrite app_length in Hlen; cbn in Hlen; lia.
  - destruct Ha as [s k Hk|s k ts vs Hk Hv]; apply kind_of_spelling_some in Hk; cbn [pl_loop app]; rewrite Hk.
    + rewrite IH by (cbn in Hlen; lia). rewrite <- app_assoc. reflexivity.
    + rewrite <- app_assoc. cbn [app].
      rewrite (pl_values_complete _ _ Hv fuel [] (SClose :: SComma :: ts')); try reflexivity; try discriminate.
      * rewrite IH; [rewrite <- app_assoc; reflexivity|].
        cbn in Hlen; rewrite !app_length in Hlen; cbn in Hlen; lia.
      * cbn in Hlen; rewrite !app_length in Hlen; cbn in Hlen; lia.
Qed.

Lemma g_annotations_unique ts l1 l2 : g_annotations ts l1 -> g_annotations ts l2 -> l1 = l2.
Proof.
  intros H1 H2. pose proof (pl_loop_complete _ _ H1 (S (length ts)) [] ltac:(lia)) as E1.
  pose proof (pl_loop_complete _ _ H2 (S (length ts)) [] ltac:(lia)) as E2.
  rewrite E1 in E2. injection E2 as E2. exact E2.
Qed.

(** *** Positions *)

Lemma at_position_expect_app pre anns p : at_position pre anns p -> p = ExpectAnnotation ->
  forall ts l, g_annotations ts l -> g_annotations (pre ++ ts) (anns ++ l).
Proof.
  intros H. assert (Hgen : (p = ExpectAnnotation -> forall ts l, g_annotations ts l -> g_annotations (pre ++ ts) (anns ++ l)) /\
    (p = AfterAnnotation -> (g_annotations pre anns) /\ forall ts l, g_annotations ts l -> g_annotations (pre ++ SComma :: ts) (anns ++ l))).
  { induction H as [|done anns H IH|done anns ts a H IH Ha|done anns s k part H IH Hk Hm]; split; try discriminate; intros _.
    - intros ts l Hl; exact Hl.
    - intros ts l Hl. rewrite <- app_assoc. cbn. apply (proj2 IH eq_refl). exact Hl.
    - destruct IH as [IH _]. specialize (IH eq_refl). split.
      + apply IH. constructor; exact Ha.
      + intros ts' l Hl. rewrite <- !app_assoc. apply IH. cbn. constructor; assumption. }
  apply Hgen.
Qed.

Lemma at_position_after pre anns p : at_position pre anns p -> p = AfterAnnotation -> g_annotations pre anns.
Proof.
  intros H E. destruct H as [|done anns H|done anns ts a H Ha|done anns s k part H Hk Hm]; try discriminate.
  eapply at_position_expect_app; [exact H|reflexivity|]. constructor; exact Ha.
Qed.

Lemma at_position_viable pre anns p : at_position pre anns p -> viable pre.
Proof.
  intros H. destruct p.
  - exists [], anns. rewrite <- (app_nil_r anns). eapply at_position_expect_app; [exact H|reflexivity|constructor].
  - exists [], anns. rewrite app_nil_r. eapply at_position_after; [exact H|reflexivity].
  - remember InsideArguments as p eqn:E. destruct H as [| | |done anns s k part H Hk (more & vs & Hm)]; try discriminate.
    exists (more ++ [SClose]), (anns ++ [mkAnnotation k vs]).
    rewrite <- app_assoc. eapply at_position_expect_app; [exact H|reflexivity|].
    constructor. cbn. rewrite app_assoc. constructor; assumption.
Qed.

(** Appending: parsing after a complete prefix continues with the rest. *)
Lemma pl_loop_at pre anns p : at_position pre anns p -> p = ExpectAnnotation ->
  forall ts fuel acc, length (pre ++ ts) < fuel ->
  exists fuel', length ts < fuel' /\ pl_loop fuel (pre ++ ts) acc = pl_loop fuel' ts (acc ++ anns).
Proof.
  intros H.
  assert (Hgen : (p = ExpectAnnotation -> forall ts fuel acc, length (pre ++ ts) < fuel ->
      exists fuel', length ts < fuel' /\ pl_loop fuel (pre ++ ts) acc = pl_loop fuel' ts (acc ++ anns)) /\
    (p = AfterAnnotation -> forall ts fuel acc, length (pre ++ SComma :: ts) < fuel ->
      exists fuel', length ts < fuel' /\ pl_loop fuel (pre ++ SComma :: ts) acc = pl_loop fuel' ts (acc ++ anns))).
  { induction H as [|done anns H IH|done anns ts a H IH Ha|done anns s k part H IH Hk Hm]; split; try discriminate; intros _.
    - intros ts fuel acc Hlen. exists fuel. rewrite app_nil_r. split; [exact Hlen|reflexivity].
    - intros ts fuel acc Hlen. rewrite <- app_assoc in *. apply (proj2 IH eq_refl). exact Hlen.
    - intros ts' fuel acc Hlen. rewrite <- app_assoc in *.
      destruct (proj1 IH eq_refl (ts ++ SComma :: ts') fuel acc Hlen) as (fuel1 & Hf1 & ->).
      destruct fuel1 as [|fuel1]; [lia|].
      destruct Ha as [s k Hk|s k ts vs Hk Hv]; apply kind_of_spelling_some in Hk; cbn [pl_loop app]; rewrite Hk.
      + exists fuel1. rewrite <- app_assoc. split; [cbn in Hf1; lia|reflexivity].
      + rewrite <- app_assoc. cbn [app].
        rewrite (pl_values_complete _ _ Hv fuel1 [] (SClose :: SComma :: ts')); try reflexivity; try discriminate.
        * exists fuel1. rewrite <- app_assoc. split; [|reflexivity].
          cbn in Hf1; rewrite !app_length in Hf1; cbn in Hf1; lia.
        * cbn in Hf1; rewrite !app_length in Hf1; cbn in Hf1; lia. }
  apply Hgen.
Qed.

(** What the loop finds out, starting at a position where an annotation is expected. *)
Lemma pl_loop_sound fuel : forall ts pre anns,
  at_position pre anns ExpectAnnotation -> length ts < fuel ->
  match pl_loop fuel ts anns with
  | POk l => g_annotations (pre ++ ts) l
  | PErr e rest l => exists pre' p mid, ts = mid ++ rest /\ pre' = pre ++ mid /\
      at_position pre' l p /\ e = error_at p (offending rest) /\
      dead_end pre' rest
  | PFuel => False
  end.
Proof.
  induction fuel as [|fuel IH]; intros ts pre anns Hp Hlen; [lia|].
  assert (Hdead : forall t rest, (forall ts l, g_annotations (t :: ts) l -> False) -> dead_end pre (t :: rest)).
  { intros t rest Hno cont l Hg.
    pose proof (pl_loop_complete _ _ Hg (S (length (pre ++ t :: cont))) [] ltac:(lia)) as E.
    destruct (pl_loop_at _ _ _ Hp eq_refl (t :: cont) (S (length (pre ++ t :: cont))) [] ltac:(lia)) as (f & Hf & E').
    rewrite E' in E. cbn [app] in E.
    destruct f as [|f]; [cbn in Hf; lia|].
    destruct t as [s|s|s| | | |s]; cbn [pl_loop pl_end] in E; try discriminate E.
    destruct (kind_of_spelling s) as [k|] eqn:Ek; [|discriminate E].
    apply kind_of_spelling_some in Ek.
    apply (Hno [] [mkAnnotation k []]). constructor. constructor. exact Ek. }
  destruct ts as [|t ts1].
  - cbn. rewrite app_nil_r. rewrite <- (app_nil_r pre), <- (app_nil_r anns).
    eapply at_position_expect_app; [exact Hp|reflexivity|constructor].
  - assert (Hother : (forall s, t <> SIdent s) ->
      match PErr InvalidToken (t :: ts1) anns with
      | POk l => g_annotations (pre ++ t :: ts1) l
      | PErr e rest l => exists pre' p mid, t :: ts1 = mid ++ rest /\ pre' = pre ++ mid /\
          at_position pre' l p /\ e = error_at p (offending rest) /\ dead_end pre' rest
      | PFuel => False
      end).
    { intros Hne. exists pre, ExpectAnnotation, []. rewrite app_nil_r.
      repeat split; try assumption.
      - destruct t; try reflexivity. exfalso; eapply Hne; reflexivity.
      - apply Hdead. intros ts l Hg. apply g_annotations_inv in Hg as [[E _]|(s & k & Hk & Hor)]; [discriminate|].
        destruct Hor as [(l' & [E|(ts' & E & _)] & _)|(args & vs & rest & E & _)];
          injection E as E _; exact (Hne _ E). }
    destruct t as [s|s|s| | | |s]; try (cbn [pl_loop pl_end]; apply Hother; discriminate).
    cbn [pl_loop]. destruct (kind_of_spelling s) as [k|] eqn:Ek.
    2:{ exists pre, ExpectAnnotation, []. rewrite app_nil_r. repeat split; try assumption.
        apply Hdead. intros ts l Hg.
        apply g_annotations_inv in Hg as [[E _]|(s' & k & Hk & Hor)]; [discriminate|].
        apply (kind_of_spelling_none _ Ek k).
        destruct Hor as [(l' & [E|(ts' & E & _)] & _)|(args & vs & rest & E & _)];
          injection E as -> _; exact Hk. }
    apply kind_of_spelling_some in Ek. rename Ek into Hk.
    cbn in Hlen.
    (* what happens after a complete annotation *)
    assert (Hcont : forall ats args ts2, g_annotation ats (mkAnnotation k args) -> length ts2 < fuel ->
      (ats = [SIdent s] -> hd_error ts2 <> Some SOpen) ->
      match (let acc' := anns ++ [mkAnnotation k args] in
             match ts2 with SComma :: ts3 => pl_loop fuel ts3 acc' | _ => pl_end ts2 acc' end) with
      | POk l => g_annotations (pre ++ ats ++ ts2) l
      | PErr e rest l => exists pre' p mid, ats ++ ts2 = mid ++ rest /\ pre' = pre ++ mid /\
          at_position pre' l p /\ e = error_at p (offending rest) /\ dead_end pre' rest
      | PFuel => False
      end).
    { intros ats args ts2 Ha Hl2 Hopn. cbv zeta.
      assert (Hafter : at_position (pre ++ ats) (anns ++ [mkAnnotation k args]) AfterAnnotation)
        by (constructor; assumption).
      assert (Hno : forall t2 ts2', ts2 = t2 :: ts2' -> t2 <> SComma -> (ats = [SIdent s] -> t2 <> SOpen) ->
        dead_end (pre ++ ats) (t2 :: ts2')).
      { intros t2 ts2' -> Hnc Hopen cont l Hg. rewrite <- app_assoc in Hg.
        pose proof (pl_loop_complete _ _ Hg (S (length (pre ++ ats ++ t2 :: cont))) [] ltac:(lia)) as E.
        destruct (pl_loop_at _ _ _ Hp eq_refl (ats ++ t2 :: cont) (S (length (pre ++ ats ++ t2 :: cont))) [] ltac:(lia)) as (f & Hf & E').
        rewrite E' in E. cbn [app] in E. clear E'.
        destruct f as [|f]; [cbn in Hf; lia|].
        inversion Ha as [s' k' Hk' Es Ek'|s' k' tsv vs Hk' Hv Es Ek']; subst; cbn [app pl_loop] in E;
          apply kind_of_spelling_some in Hk'; rewrite Hk' in E.
        - destruct t2; try discriminate E; try congruence.
          apply (Hopen); [|reflexivity]. f_equal. f_equal.
          apply kind_of_spelling_some in Hk'. apply names_spec in Hk', Hk. congruence.
        - rewrite <- app_assoc in E. cbn [app] in E.
          rewrite (pl_values_complete _ _ Hv f [] (SClose :: t2 :: cont)) in E; try reflexivity; try discriminate.
          + destruct t2; try discriminate E. congruence.
          + cbn in Hf; rewrite !app_length in Hf; cbn in Hf; lia. }
      destruct ts2 as [|t2 ts2'].
      - cbn. rewrite app_nil_r. eapply at_position_after; [exact Hafter|reflexivity].
      - destruct (match t2 with SComma => true | _ => false end) eqn:Ec.
        + destruct t2; try discriminate Ec.
          specialize (IH ts2' ((pre ++ ats) ++ [SComma]) (anns ++ [mkAnnotation k args])).
          destruct (pl_loop fuel ts2' (anns ++ [mkAnnotation k args])) as [l|e rest l|].
          * rewrite <- !app_assoc in IH. apply IH; [|cbn in Hl2; lia].
            rewrite app_assoc. constructor. exact Hafter.
          * destruct IH as (pre' & p & mid & -> & -> & H1 & H2 & H3); [constructor; exact Hafter|cbn in Hl2; lia|].
            exists (((pre ++ ats) ++ [SComma]) ++ mid), p, (ats ++ SComma :: mid).
            repeat split; try assumption; rewrite <- ?app_assoc; reflexivity.
          * apply IH; [constructor; exact Hafter|cbn in Hl2; lia].
        + assert (Hpl : (match t2 :: ts2' with SComma :: ts3 => pl_loop fuel ts3 (anns ++ [mkAnnotation k args]) | _ => pl_end (t2 :: ts2') (anns ++ [mkAnnotation k args]) end)
                        = PErr InvalidToken (t2 :: ts2') (anns ++ [mkAnnotation k args]))
            by (destruct t2; try reflexivity; discriminate Ec).
          rewrite Hpl. exists (pre ++ ats), AfterAnnotation, ats. repeat split; try assumption.
          * destruct t2; reflexivity.
          * apply (Hno t2 ts2' eq_refl); [intros ->; discriminate|]. intros Eats ->. apply (Hopn Eats). reflexivity. }
    assert (Hbare : forall t2 ts2, t2 <> SOpen -> ts1 = t2 :: ts2 ->
      match (let acc' := anns ++ [mkAnnotation k []] in
             match ts1 with SComma :: ts3 => pl_loop fuel ts3 acc' | _ => pl_end ts1 acc' end) with
      | POk l => g_annotations (pre ++ SIdent s :: ts1) l
      | PErr e rest l => exists pre' p mid, SIdent s :: ts1 = mid ++ rest /\ pre' = pre ++ mid /\
          at_position pre' l p /\ e = error_at p (offending rest) /\ dead_end pre' rest
      | PFuel => False
      end).
    { intros t2 ts2 Hne E2. apply (Hcont [SIdent s] [] ts1); [constructor; exact Hk|lia|].
      rewrite E2. cbn. congruence. }
    destruct ts1 as [|t1 ts1'].
    { apply (Hcont [SIdent s] [] []); [constructor; exact Hk|cbn; lia|discriminate]. }
    destruct t1 as [s1|s1|s1| | | |s1]; try (refine (Hbare _ _ _ eq_refl); discriminate).
    cbn in Hlen.
    destruct (pl_values fuel ts1' []) as [[args ts2]|] eqn:Ev.
    2:{ exfalso. revert Ev. apply pl_values_fuel. lia. }
    destruct (pl_values_sound fuel ts1' [] args ts2 [] vpre_nil Ev) as (mid & -> & Hg & Hor).
    cbn [app] in Hg, Hor.
    destruct (match ts2 with SClose :: _ => true | _ => false end) eqn:Ecl.
    + destruct ts2 as [|[] ts2]; try discriminate Ecl.
      replace (SIdent s :: SOpen :: mid ++ SClose :: ts2)
        with ((SIdent s :: SOpen :: mid ++ [SClose]) ++ ts2) by (cbn; rewrite <- app_assoc; reflexivity).
      apply Hcont; [constructor; assumption|rewrite app_length in Hlen; cbn in Hlen; lia|discriminate].
    + assert (Hpl : match ts2 with SClose :: ts2' => (let acc' := anns ++ [mkAnnotation k args] in
             match ts2' with SComma :: ts3 => pl_loop fuel ts3 acc' | _ => pl_end ts2' acc' end)
             | _ => PErr (match ts2 with SBad _ :: _ => InvalidToken | _ => MissingClosingParen end) ts2 anns end
             = PErr (match ts2 with SBad _ :: _ => InvalidToken | _ => MissingClosingParen end) ts2 anns)
        by (destruct ts2 as [|[] ?]; try reflexivity; discriminate Ecl).
      cbv zeta in Hpl |- *.
      match goal with |- match ?x with _ => _ end => change x with
        (match ts2 with SClose :: ts2' => (let acc' := anns ++ [mkAnnotation k args] in
             match ts2' with SComma :: ts3 => pl_loop fuel ts3 acc' | _ => pl_end ts2' acc' end)
             | _ => PErr (match ts2 with SBad _ :: _ => InvalidToken | _ => MissingClosingParen end) ts2 anns end) end.
      cbv zeta. rewrite Hpl.
      exists (pre ++ SIdent s :: SOpen :: mid), InsideArguments, (SIdent s :: SOpen :: mid).
      split; [reflexivity|]. split; [reflexivity|]. split.
      { eapply ap_open; [exact Hp|exact Hk|]. exists [], args. rewrite app_nil_r. exact Hg. }
      split; [destruct ts2 as [|[] ?]; reflexivity|].
      (* no continuation: any valid list would close the parenthesis *)
      assert (Hno : forall cont l, hd_error cont = hd_error ts2 -> ~ g_annotations (pre ++ SIdent s :: SOpen :: mid ++ cont) l).
      { intros cont l Hhd Hga.
        pose proof (pl_loop_complete _ _ Hga (S (length (pre ++ SIdent s :: SOpen :: mid ++ cont))) [] ltac:(lia)) as E.
        destruct (pl_loop_at _ _ _ Hp eq_refl (SIdent s :: SOpen :: mid ++ cont) (S (length (pre ++ SIdent s :: SOpen :: mid ++ cont))) [] ltac:(lia)) as (f & Hf & E').
        rewrite E' in E. cbn [app] in E. clear E'.
        destruct f as [|f]; [cbn in Hf; lia|]. cbn [pl_loop] in E.
        pose proof Hk as Hk2. apply kind_of_spelling_some in Hk2. rewrite Hk2 in E.
        assert (Hnv : pl_value cont = None \/ hd_error cont = None \/ True) by tauto.
        assert (Hvals : exists vs2 ts3, pl_values f (mid ++ cont) [] = Some (vs2, ts3) /\ hd_error ts3 = hd_error ts2 /\ (ts2 = [] -> ts3 = [])).
        { destruct Hor as [[Hpre Hnv2]|(pre' & t' & vs' & v' & Emid & Hpre & Hv' & Evs & Hc)].
          - assert (Hn : pl_value cont = None).
            { destruct cont as [|c cont]; [reflexivity|]. destruct ts2 as [|c2 ts2]; [discriminate Hhd|].
              injection Hhd as ->. destruct c2; cbn in *; try reflexivity; discriminate. }
            destruct (pl_values_vpre mid args Hpre f cont []) as (f' & Hf' & ->).
            { cbn in Hf; lia. }
            destruct f' as [|f']; [lia|]. cbn [pl_values]. rewrite Hn. eexists _, _. split; [reflexivity|].
            split; [exact Hhd|]. intros ->. destruct cont; [reflexivity|discriminate Hhd].
          - rewrite Emid, <- app_assoc. cbn [app].
            destruct (pl_values_vpre pre' vs' Hpre f (t' :: cont) []) as (f' & Hf' & ->).
            { cbn in Hf. rewrite Emid, !app_length in Hf. rewrite app_length. cbn in *. lia. }
            destruct f' as [|f']; [cbn in Hf'; lia|]. cbn [pl_values]. rewrite (g_value_pl _ _ Hv').
            assert (Hh : hd_error cont <> Some SComma) by congruence.
            exists (([] ++ vs') ++ [v']), cont. split; [|split; [exact Hhd|intros ->; destruct cont; [reflexivity|discriminate Hhd]]].
            destruct cont as [|[] cont]; try reflexivity. cbn in Hh. congruence. }
        destruct Hvals as (vs2 & ts3 & Evals & Hh3 & Hnil). rewrite Evals in E.
        destruct ts3 as [|t3 ts3]; [discriminate E|].
        destruct t3; try discriminate E.
        destruct ts2 as [|[] ts2]; try discriminate Hh3. discriminate Ecl. }
      destruct ts2 as [|t2 ts2]; cbn [dead_end].
      * intros l Hl. apply (Hno [] l eq_refl). rewrite app_nil_r. exact Hl.
      * intros cont l Hl. apply (Hno (t2 :: cont) l eq_refl). rewrite <- app_assoc in Hl. exact Hl.
Qed.

(** ** Main results on parsing *)

Lemma pl_loop_acc fuel : forall ts acc, pl_loop fuel ts acc =
  match pl_loop fuel ts [] with
  | POk l => POk (acc ++ l)
  | PErr e rest l => PErr e rest (acc ++ l)
  | PFuel => PFuel
  end.
Proof.
  induction fuel as [|fuel IH]; intros ts acc; [reflexivity|].
  assert (Hend : forall ts2 a, pl_end ts2 (acc ++ a) =
    match pl_end ts2 a with POk l => POk (acc ++ l) | PErr e rest l => PErr e rest (acc ++ l) | PFuel => PFuel end)
    by (intros [|] ?; reflexivity).
  assert (Hcont : forall k args ts2,
    (let acc' := acc ++ [mkAnnotation k args] in
     match ts2 with SComma :: ts3 => pl_loop fuel ts3 acc' | _ => pl_end ts2 acc' end) =
    match (let acc' := [] ++ [mkAnnotation k args] in
     match ts2 with SComma :: ts3 => pl_loop fuel ts3 acc' | _ => pl_end ts2 acc' end)
    with POk l => POk (acc ++ l) | PErr e rest l => PErr e rest (acc ++ l) | PFuel => PFuel end).
  { intros k args ts2. cbv zeta. cbn [app].
    destruct ts2 as [|[] ts2]; try apply Hend.
    rewrite (IH ts2 (acc ++ _)), (IH ts2 [_]).
    destruct (pl_loop fuel ts2 []); rewrite <- ?app_assoc; reflexivity. }
  assert (Hend0 : forall ts2, pl_end ts2 acc =
    match pl_end ts2 [] with POk l => POk (acc ++ l) | PErr e rest l => PErr e rest (acc ++ l) | PFuel => PFuel end)
    by (intros [|] ; cbn; rewrite app_nil_r; reflexivity).
  cbn [pl_loop]. destruct ts as [|[] ts1]; try apply Hend0.
  destruct (kind_of_spelling s) as [k|]; [|rewrite app_nil_r; reflexivity].
  destruct ts1 as [|t1 ts1]; [exact (Hcont k [] [])|].
  pose proof (Hcont k [] (t1 :: ts1)) as Hc. destruct t1; try exact Hc. clear Hc.
  destruct (pl_values fuel ts1 []) as [[args ts2]|]; [|reflexivity].
  destruct ts2 as [|[] ts2]; try (cbn; rewrite app_nil_r; reflexivity). exact (Hcont k args ts2).
Qed.

Lemma parse_into_pl text ts acc : lexes text ts ->
  pres_rel (parse_annotations_into text acc) (pl_loop (2 + length text) ts acc).
Proof. intros H. apply parse_loop_stream, lexes_stream, H. Qed.

Lemma parse_into_total text acc :
  exists ts, lexes text ts /\
   ((exists l, g_annotations ts l /\ parse_annotations_into text acc = (ROk tt, acc ++ l)) \/
    (exists pre rest anns p, ts = pre ++ rest /\ at_position pre anns p /\ dead_end pre rest /\
       parse_annotations_into text acc = (RErr (mkError (error_at p (offending rest)) (offending_text rest)), acc ++ anns))).
Proof.
  destruct (lexes_total text) as [ts Hts]. exists ts. split; [exact Hts|].
  pose proof (parse_into_pl text ts acc Hts) as Hrel.
  pose proof (lexes_length _ _ Hts) as Hlen.
  pose proof (pl_loop_sound (2 + length text) ts [] [] ap_start ltac:(lia)) as Hs.
  rewrite pl_loop_acc in Hrel.
  destruct (pl_loop (2 + length text) ts []) as [l|e rest l|]; [| |contradiction].
  - left. exists l. split; [exact Hs|exact Hrel].
  - destruct Hs as (pre' & p & mid & -> & -> & Hp & -> & Hd).
    right. exists mid, rest, l, p. unfold pres_rel in Hrel. rewrite Hrel. auto.
Qed.

Lemma g_annotations_no_dead pre rest l : g_annotations (pre ++ rest) l -> ~ dead_end pre rest.
Proof.
  intros Hg Hd. destruct rest as [|t rest]; cbn in Hd.
  - rewrite app_nil_r in Hg. exact (Hd _ Hg).
  - exact (Hd _ _ Hg).
Qed.

Lemma parse_ok_iff text l : parse_annotations text = ROk l <-> denotes text l.
Proof.
  unfold parse_annotations.
  destruct (parse_into_total text []) as (ts & Hts & [(l' & Hg & ->)|(pre & rest & anns & p & -> & Hp & Hd & ->)]); cbn.
  - split.
    + intros [= <-]. exists ts. auto.
    + intros (ts2 & Hts2 & Hg2). rewrite (lexes_det _ _ Hts2 _ Hts) in Hg2.
      rewrite (g_annotations_unique _ _ _ Hg Hg2). reflexivity.
  - split; [discriminate|]. intros (ts2 & Hts2 & Hg2). rewrite (lexes_det _ _ Hts2 _ Hts) in Hg2.
    exfalso. exact (g_annotations_no_dead _ _ _ Hg2 Hd).
Qed.

Lemma denotes_unique text l1 l2 : denotes text l1 -> denotes text l2 -> l1 = l2.
Proof. rewrite <- !parse_ok_iff. congruence. Qed.

Lemma parse_fuel text : parse_annotations text <> RFuel.
Proof.
  unfold parse_annotations.
  destruct (parse_into_total text []) as (ts & Hts & [(l' & Hg & ->)|(pre & rest & anns & p & -> & Hp & Hd & ->)]); discriminate.
Qed.

Lemma parse_error_dead_end text acc e acc' : parse_annotations_into text acc = (RErr e, acc') ->
  exists pre rest anns p, lexes text (pre ++ rest) /\ at_position pre anns p /\ viable pre /\ dead_end pre rest /\
    e = mkError (error_at p (offending rest)) (offending_text rest) /\ acc' = acc ++ anns.
Proof.
  intros H. destruct (parse_into_total text acc) as (ts & Hts & [(l' & Hg & E)|(pre & rest & anns & p & -> & Hp & Hd & E)]);
    rewrite E in H; [discriminate|]. injection H as <- <-.
  exists pre, rest, anns, p. repeat split; try assumption. eapply at_position_viable; exact Hp.
Qed.

Lemma parse_into_ok text acc acc' : parse_annotations_into text acc = (ROk tt, acc') <->
  exists l, denotes text l /\ acc' = acc ++ l.
Proof.
  split.
  - intros H. destruct (parse_into_total text acc) as (ts & Hts & [(l' & Hg & E)|(pre & rest & anns & p & -> & Hp & Hd & E)]);
      rewrite E in H; [|discriminate]. injection H as <-. exists l'. split; [exists ts; auto|reflexivity].
  - intros (l & (ts & Hts & Hg) & ->).
    destruct (parse_into_total text acc) as (ts2 & Hts2 & [(l' & Hg' & E)|(pre & rest & anns & p & -> & Hp & Hd & E)]).
    + rewrite (lexes_det _ _ Hts2 _ Hts) in Hg'. rewrite (g_annotations_unique _ _ _ Hg Hg'). exact E.
    + rewrite (lexes_det _ _ Hts _ Hts2) in Hg. exfalso. exact (g_annotations_no_dead _ _ _ Hg Hd).
Qed.

(** At most one dead end: the error position is determined by the text. *)
Lemma dead_end_unique pre1 rest1 pre2 rest2 :
  pre1 ++ rest1 = pre2 ++ rest2 -> viable pre1 -> dead_end pre1 rest1 -> viable pre2 -> dead_end pre2 rest2 ->
  pre1 = pre2 /\ rest1 = rest2.
Proof.
  assert (Hgen : forall pre1 rest1 pre2 rest2, length pre1 <= length pre2 ->
    pre1 ++ rest1 = pre2 ++ rest2 -> dead_end pre1 rest1 -> viable pre2 -> pre1 = pre2 /\ rest1 = rest2).
  { clear. intros pre1 rest1 pre2 rest2 Hle E Hd (cont & l & Hg).
    assert (Hmid : exists mid, pre2 = pre1 ++ mid /\ rest1 = mid ++ rest2).
    { revert pre2 Hle E Hg. induction pre1 as [|x pre1 IH]; intros pre2 Hle E Hg.
      - exists pre2. split; [reflexivity|exact E].
      - destruct pre2 as [|y pre2]; [cbn in Hle; lia|]. cbn in E. injection E as -> E.
        assert (Hm : exists mid, pre2 = pre1 ++ mid /\ rest1 = mid ++ rest2).
        { clear IH Hg Hd. cbn in Hle. apply le_S_n in Hle. revert pre2 Hle E.
          induction pre1 as [|z pre1 IH]; intros pre2 Hle E; [exists pre2; auto|].
          destruct pre2 as [|z' pre2]; [cbn in Hle; lia|]. cbn in E. injection E as -> E.
          destruct (IH pre2 ltac:(cbn in Hle; lia) E) as (mid & -> & ->). exists mid. auto. }
        destruct Hm as (mid & -> & ->). exists mid. auto. }
    destruct Hmid as (mid & -> & ->).
    destruct mid as [|t mid]; [rewrite app_nil_r; auto|].
    exfalso. cbn in Hd. rewrite <- app_assoc in Hg. exact (Hd _ _ Hg). }
  intros E V1 D1 V2 D2. destruct (Nat.le_ge_cases (length pre1) (length pre2)) as [Hle|Hle].
  - apply Hgen; assumption.
  - symmetry in E. destruct (Hgen _ _ _ _ Hle E D2 V1) as [-> ->]. auto.
Qed.

(** ** Tokens delivered *)


Lemma consume_eof m : consume_n m (mkTokenizer [] eof_tok) = repeat eof_tok m.
Proof. induction m as [|m IH]; [reflexivity|]. cbn. f_equal. exact IH. Qed.

Lemma consume_stream ts : forall tz m, stream tz ts ->
  consume_n (length ts + m) tz = map tok_of ts ++ repeat eof_tok m.
Proof.
  induction ts as [|t ts IH]; intros tz m H.
  - cbn in H. subst tz. apply consume_eof.
  - destruct H as [Hn Hs]. cbn [length Nat.add consume_n consume_token map app].
    rewrite Hn. f_equal. apply IH. exact Hs.
Qed.

Lemma lexes_pieces text ts : lexes text ts -> exists ws wlast,
  length ws = length ts /\ Forall (fun w => forallb is_hspace w = true) ws /\
  forallb is_hspace wlast = true /\
  text = concat (map (fun p => fst p ++ snd p) (combine ws (map stext ts))) ++ wlast.
Proof.
  induction 1 as [w Hw|w t r ts Hw Hl Hts IH].
  - exists [], w. repeat split; [constructor|exact Hw].
  - destruct IH as (ws & wlast & Hlen & Hws & Hwl & ->).
    exists (w :: ws), wlast. cbn. repeat split; [congruence|constructor; assumption|assumption|].
    rewrite <- !app_assoc. reflexivity.
Qed.

Lemma tok_of_text t : t_text (tok_of t) = stext t.
Proof. destruct t; reflexivity. Qed.

Lemma lexes_texts_nonempty text ts : lexes text ts -> Forall (fun t => stext t <> []) ts.
Proof. induction 1 as [|w t r ts Hw Hl Hts IH]; constructor; [eapply lexeme_nonempty; exact Hl|exact IH]. Qed.

Lemma tokenizer_lossless_lemma text : exists n ws wlast,
  let toks := consume_n n (make_tokenizer text) in
  length ws = n /\ Forall (fun w => forallb is_hspace w = true) ws /\ forallb is_hspace wlast = true /\
  text = concat (map (fun p => fst p ++ snd p) (combine ws (map t_text toks))) ++ wlast /\
  Forall (fun t => t_kind t <> TkEof /\ t_text t <> []) toks /\
  forall m, consume_n (n + m) (make_tokenizer text) = toks ++ repeat (mkToken TkEof [] LNothing) m.
Proof.
  destruct (lexes_total text) as [ts Hts].
  destruct (lexes_pieces _ _ Hts) as (ws & wlast & Hlen & Hws & Hwl & E).
  pose proof (lexes_stream _ _ Hts) as Hs.
  assert (Ht : consume_n (length ts) (make_tokenizer text) = map tok_of ts).
  { pose proof (consume_stream ts _ 0 Hs) as H. rewrite Nat.add_0_r, app_nil_r in H. exact H. }
  exists (length ts), ws, wlast. cbv zeta. rewrite Ht. repeat split; try assumption.
  - rewrite map_map. rewrite (map_ext _ stext) by apply tok_of_text. exact E.
  - apply Forall_map. eapply Forall_impl; [|apply (lexes_texts_nonempty _ _ Hts)].
    intros t Hne. rewrite tok_of_text. split; [destruct t; discriminate|exact Hne].
  - intros m. apply consume_stream. exact Hs.
Qed.

(** ** White space *)

Lemma lexes_same_parse t1 t2 ts acc : lexes t1 ts -> lexes t2 ts ->
  parse_annotations_into t1 acc = parse_annotations_into t2 acc.
Proof.
  intros H1 H2.
  destruct (parse_into_total t1 acc) as (ts1 & Hts1 & R1).
  destruct (parse_into_total t2 acc) as (ts2 & Hts2 & R2).
  assert (ts1 = ts) by (eapply lexes_det; eassumption).
  assert (ts2 = ts) by (eapply lexes_det; eassumption). subst ts1 ts2.
  pose proof (parse_into_pl t1 ts acc H1) as P1. pose proof (parse_into_pl t2 ts acc H2) as P2.
  assert (Hfuel : forall n m ts acc, length ts < n -> length ts < m -> pl_loop n ts acc = pl_loop m ts acc).
  { clear. assert (Hv : forall n m ts args, length ts < n -> length ts < m -> pl_values n ts args = pl_values m ts args).
    { induction n as [|n IH]; intros [|m] ts args Hn Hm; try lia. cbn [pl_values].
      destruct (pl_value ts) as [[v ts']|] eqn:E; [|reflexivity].
      apply pl_value_some in E as (t & -> & _). cbn in *.
      destruct ts' as [|[] ts']; try reflexivity. cbn in *. apply IH; lia. }
    induction n as [|n IH]; intros [|m] ts acc Hn Hm; try lia. cbn [pl_loop].
    destruct ts as [|[] ts]; try reflexivity. destruct (kind_of_spelling s); [|reflexivity].
    cbn in *.
    destruct ts as [|[] ts]; try reflexivity; cbn in *; [|apply IH; lia].
    rewrite (Hv n m) by lia.
    destruct (pl_values m ts []) as [[args ts2]|] eqn:E; [|reflexivity].
    apply pl_values_sound with (pre := []) in E as (mid & -> & _); [|constructor].
    rewrite app_length in *.
    destruct ts2 as [|[] ts2]; try reflexivity.
    destruct ts2 as [|[] ts2]; try reflexivity. cbn in *. apply IH; lia. }
  pose proof (lexes_length _ _ H1). pose proof (lexes_length _ _ H2).
  rewrite (Hfuel (2 + length t2) (2 + length t1)) in P2 by lia.
  destruct (pl_loop (2 + length t1) ts acc) as [l|e rest l|] eqn:E; unfold pres_rel in P1, P2; [congruence|congruence|].
  exfalso.
  destruct R1 as [(l & _ & R)|(pre & rest & anns & p & _ & _ & _ & R)]; rewrite R in P1; discriminate.
Qed.


Lemma stops_app {A} (p : A -> bool) a b : stops p a -> stops p b -> stops p (a ++ b).
Proof. destruct a; cbn; auto. Qed.

Lemma hspace_not_continue c : is_hspace c = true -> is_ident_continue c = false /\ is_digit c = false.
Proof. unfold is_hspace, is_ident_continue, is_ident_start, is_letter, is_digit, in_range. lia. Qed.

Lemma lexes_app_ws a ts1 : lexes a ts1 -> Forall good_token ts1 -> forall w b ts2,
  w <> [] -> forallb is_hspace w = true -> lexes b ts2 -> lexes (a ++ w ++ b) (ts1 ++ ts2).
Proof.
  induction 1 as [w0 Hw0|w0 t r ts Hw0 Hl Hts IH]; intros Hgood w b ts2 Hne Hw Hb; cbn [app].
  - rewrite app_assoc. assert (Hww : forallb is_hspace (w0 ++ w) = true) by (rewrite forallb_app, Hw0, Hw; reflexivity).
    destruct Hb as [w2 Hw2|w2 t2 r2 ts2 Hw2 Hl2 Hts2].
    + constructor. rewrite forallb_app, Hww, Hw2. reflexivity.
    + rewrite app_assoc. constructor; [rewrite forallb_app, Hww, Hw2; reflexivity|assumption|assumption].
  - rewrite <- !app_assoc. inversion Hgood as [|? ? Hg Hgs]; subst. constructor; [exact Hw0| |apply IH; assumption].
    destruct w as [|c w]; [congruence|]. cbn in Hw. apply andb_true_iff in Hw as [Hc Hw].
    apply hspace_not_continue in Hc as [Hc1 Hc2].
    destruct Hl; cbn in Hg; try contradiction; try (constructor; assumption).
    + constructor; try assumption. apply stops_app; [assumption|exact Hc1].
    + constructor; try assumption. apply stops_app; [assumption|exact Hc2].
Qed.

Lemma whitespace_between a b ts1 ts2 w1 w2 acc :
  lexes a ts1 -> lexes b ts2 -> Forall good_token ts1 ->
  w1 <> [] -> w2 <> [] -> forallb is_hspace w1 = true -> forallb is_hspace w2 = true ->
  parse_annotations_into (a ++ w1 ++ b) acc = parse_annotations_into (a ++ w2 ++ b) acc.
Proof.
  intros Ha Hb Hg Hn1 Hn2 H1 H2. eapply lexes_same_parse; apply lexes_app_ws; eassumption.
Qed.

Lemma lexes_ws_front w a ts : forallb is_hspace w = true -> lexes a ts -> lexes (w ++ a) ts.
Proof.
  intros Hw Ha. destruct Ha as [w2 Hw2|w2 t r ts Hw2 Hl Hts].
  - constructor. rewrite forallb_app, Hw, Hw2. reflexivity.
  - rewrite app_assoc. constructor; [rewrite forallb_app, Hw, Hw2; reflexivity|assumption|assumption].
Qed.

Lemma whitespace_around a ts w1 w2 acc :
  lexes a ts -> Forall good_token ts -> forallb is_hspace w1 = true -> forallb is_hspace w2 = true ->
  parse_annotations_into (w1 ++ a ++ w2) acc = parse_annotations_into a acc.
Proof.
  intros Ha Hg H1 H2. eapply lexes_same_parse; [|exact Ha].
  apply lexes_ws_front; [exact H1|].
  destruct w2 as [|c w2]; [rewrite app_nil_r; exact Ha|].
  replace (a ++ c :: w2) with (a ++ [c] ++ w2) by reflexivity.
  rewrite <- (app_nil_r ts). cbn in H2. apply andb_true_iff in H2 as [Hc H2].
  apply lexes_app_ws; try assumption; [discriminate|cbn; rewrite Hc; reflexivity|constructor; exact H2].
Qed.

(** ** Numbers *)

Lemma kind_spelling_ident k : exists c s, kind_spelling k = c :: s /\ is_ident_start c = true /\ forallb is_ident_continue s = true.
Proof. destruct k; eexists _, _; (split; [reflexivity|split; reflexivity]). Qed.

Lemma lexes_kind k r ts : stops is_ident_continue r -> lexes r ts -> lexes (kind_spelling k ++ r) (SIdent (kind_spelling k) :: ts).
Proof.
  intros Hr Hts. change (kind_spelling k ++ r) with ([] ++ stext (SIdent (kind_spelling k)) ++ r).
  constructor; [reflexivity| |exact Hts].
  destruct (kind_spelling_ident k) as (c & s & -> & Hc & Hs). constructor; assumption.
Qed.

Lemma lexes_tok0 t r ts : lexeme t r -> lexes r ts -> lexes (stext t ++ r) (t :: ts).
Proof. intros Hl Hts. change (stext t ++ r) with ([] ++ stext t ++ r). constructor; [reflexivity|assumption|assumption]. Qed.

Lemma lexes_nil : lexes [] [].
Proof. constructor; reflexivity. Qed.

Lemma number_argument_lemma k s : s <> [] -> forallb is_digit s = true ->
  parse_annotations (kind_spelling k ++ $"(" ++ s ++ $")") =
  if (dec_value s <=? max_unsigned)%N then ROk [mkAnnotation k [LUnsigned (dec_value s)]]
  else RErr (mkError InvalidToken s).
Proof.
  intros Hne Hd. destruct (N.leb_spec (dec_value s) max_unsigned) as [Hle|Hgt].
  - apply parse_ok_iff. exists [SIdent (kind_spelling k); SOpen; SNum s; SClose]. split.
    + apply lexes_kind; [reflexivity|]. apply (lexes_tok0 SOpen); [constructor|].
      apply (lexes_tok0 (SNum s)); [constructor; try assumption; reflexivity|].
      apply (lexes_tok0 SClose []); [constructor|apply lexes_nil].
    + constructor. apply (ga_args _ _ [SNum s] _); [apply names_spec; reflexivity|].
      constructor. constructor.
  - assert (Hts : lexes (kind_spelling k ++ $"(" ++ s ++ $")") [SIdent (kind_spelling k); SOpen; SBad s; SClose]).
    { apply lexes_kind; [reflexivity|]. apply (lexes_tok0 SOpen); [constructor|].
      apply (lexes_tok0 (SBad s)); [apply lx_too_large; try assumption; reflexivity|].
      apply (lexes_tok0 SClose []); [constructor|apply lexes_nil]. }
    pose proof (parse_into_pl _ _ [] Hts) as Hrel.
    unfold parse_annotations.
    assert (E : pl_loop (2 + length (kind_spelling k ++ $"(" ++ s ++ $")")) [SIdent (kind_spelling k); SOpen; SBad s; SClose] []
                = PErr InvalidToken [SBad s; SClose] []).
    { cbn [Nat.add pl_loop]. rewrite kind_of_spelling_complete.
      destruct (length (kind_spelling k ++ $"(" ++ s ++ $")")); reflexivity. }
    rewrite E in Hrel. unfold pres_rel in Hrel. rewrite Hrel. reflexivity.
Qed.

Lemma dec_value_leading_zero s : dec_value (ascii_of_N 48 :: s) = dec_value s.
Proof. reflexivity. Qed.


Lemma g_values_range text ts vs pre post : lexes text (pre ++ ts ++ post) -> g_values ts vs -> Forall lit_in_range vs.
Proof.
  intros Hlex Hg.
  assert (Hnum : forall s, In (SNum s) (pre ++ ts ++ post) -> (dec_value s <= max_unsigned)%N).
  { clear Hg. revert Hlex. generalize (pre ++ ts ++ post). clear. intros l Hlex.
    induction Hlex as [|w t r ts Hw Hl Hts IH]; intros s Hin; [contradiction|].
    destruct Hin as [->|Hin]; [|apply IH; exact Hin]. inversion Hl; assumption. }
  assert (Hsub : forall s, In (SNum s) ts -> (dec_value s <= max_unsigned)%N).
  { intros s Hin. apply Hnum. rewrite !in_app_iff. auto. }
  clear Hlex Hnum. induction Hg as [|t v Hv|t v ts vs Hv Hvs IH]; [constructor| |].
  - constructor; [|constructor]. destruct Hv; cbn; auto. apply Hsub. left; reflexivity.
  - constructor; [destruct Hv; cbn; auto; apply Hsub; left; reflexivity|].
    apply IH. intros s Hin. apply Hsub. right; right; exact Hin.
Qed.

Lemma parse_values_in_range text l : parse_annotations text = ROk l ->
  Forall (fun a => Forall lit_in_range (a_args a)) l.
Proof.
  rewrite parse_ok_iff. intros (ts & Hts & Hg).
  assert (Hgen : forall ts l, g_annotations ts l -> forall pre, lexes text (pre ++ ts) ->
    Forall (fun a => Forall lit_in_range (a_args a)) l).
  { clear. induction 1 as [|ts a Ha|ts a ts' l Ha Hl IH]; intros pre Hlex; [constructor| |].
    - constructor; [|constructor]. destruct Ha as [s k Hk|s k ts vs Hk Hv]; cbn; [constructor|].
      apply (g_values_range text ts vs (pre ++ [SIdent s; SOpen]) [SClose]); [|exact Hv].
      rewrite <- app_assoc. exact Hlex.
    - constructor.
      + destruct Ha as [s k Hk|s k ts vs Hk Hv]; cbn; [constructor|].
        apply (g_values_range text ts vs (pre ++ [SIdent s; SOpen]) (SClose :: SComma :: ts')); [|exact Hv].
        rewrite <- app_assoc. cbn in Hlex |- *. rewrite <- app_assoc in Hlex. exact Hlex.
      + apply (IH (pre ++ ts ++ [SComma])). rewrite <- !app_assoc. exact Hlex. }
  exact (Hgen ts l Hg [] Hts).
Qed.

(** ** Printing and parsing *)

Lemma code_ascii n : (n < 256)%N -> code (ascii_of_N n) = n.
Proof. apply N_ascii_embedding. Qed.

Lemma dec_value_snoc s c : dec_value (s ++ [c]) = (dec_value s * 10 + (code c - 48))%N.
Proof. unfold dec_value. rewrite fold_left_app. reflexivity. Qed.

Lemma digit_char n : (n < 10)%N -> is_digit (ascii_of_N (48 + n)) = true /\ (code (ascii_of_N (48 + n)) - 48 = n)%N.
Proof.
  intros H. unfold is_digit, in_range. rewrite code_ascii by lia. lia.
Qed.

Lemma digits_fuel_spec f : forall n acc, (n < 10 ^ N.of_nat (S f))%N -> exists ds,
  digits_fuel (S f) n acc = ds ++ acc /\ ds <> [] /\ forallb is_digit ds = true /\ dec_value ds = n.
Proof.
  induction f as [|f IH]; intros n acc Hn; cbn [digits_fuel].
  - assert (n < 10)%N by (cbn in Hn; lia).
    rewrite N.mod_small by lia. rewrite N.div_small by lia. cbn [N.eqb].
    exists [ascii_of_N (48 + n)]. destruct (digit_char n H) as [H1 H2].
    repeat split; [discriminate|cbn [forallb]; rewrite H1; reflexivity|]. unfold dec_value; cbn [fold_left]. rewrite H2. lia.
  - assert (Hm : (n mod 10 < 10)%N) by (apply N.mod_lt; lia).
    destruct (digit_char _ Hm) as [H1 H2].
    destruct (N.eqb_spec (n / 10) 0) as [E|E].
    + exists [ascii_of_N (48 + n mod 10)]. repeat split; [discriminate|cbn [forallb]; rewrite H1; reflexivity|].
      unfold dec_value; cbn [fold_left]. rewrite H2.
      pose proof (N.div_mod n 10 ltac:(lia)). lia.
    + assert (Hd : (n / 10 < 10 ^ N.of_nat (S f))%N).
      { apply N.div_lt_upper_bound; [lia|]. rewrite <- N.pow_succ_r'. rewrite <- Nnat.Nat2N.inj_succ. exact Hn. }
      destruct (IH (n / 10)%N (ascii_of_N (48 + n mod 10) :: acc) Hd) as (ds & E1 & Hne & Hds & Hv).
      cbn [digits_fuel] in E1. rewrite E1.
      exists (ds ++ [ascii_of_N (48 + n mod 10)]). rewrite <- app_assoc. repeat split.
      * destruct ds; discriminate.
      * rewrite forallb_app, Hds. cbn [forallb]. rewrite H1. reflexivity.
      * rewrite dec_value_snoc, Hv, H2. pose proof (N.div_mod n 10 ltac:(lia)). lia.
Qed.

Lemma print_unsigned_spec n : (n <= max_unsigned)%N ->
  print_unsigned n <> [] /\ forallb is_digit (print_unsigned n) = true /\ dec_value (print_unsigned n) = n.
Proof.
  intros Hn. unfold print_unsigned. destruct (digits_fuel_spec 9 n []) as (ds & E & H1 & H2 & H3).
  - unfold max_unsigned in Hn. change (10 ^ N.of_nat 10)%N with 10000000000%N. lia.
  - rewrite E, app_nil_r. auto.
Qed.

Lemma octal_digit_plain n : code (octal_digit n) <> 34%N /\ code (octal_digit n) <> 92%N.
Proof.
  unfold octal_digit. assert (n mod 8 < 8)%N by (apply N.mod_lt; lia).
  rewrite code_ascii by lia. lia.
Qed.

Lemma string_body_app a b : string_body a -> string_body b -> string_body (a ++ b).
Proof. induction 1; intros Hb; cbn; [exact Hb|apply sb_plain; auto|apply sb_escaped; auto]. Qed.

Lemma escape_char_body c : string_body (escape_char c).
Proof.
  unfold escape_char.
  destruct (N.eqb_spec (code c) 92); [apply sb_escaped; [reflexivity|constructor]|].
  destruct (N.eqb_spec (code c) 9); [apply sb_escaped; [reflexivity|constructor]|].
  destruct (N.eqb_spec (code c) 10); [apply sb_escaped; [reflexivity|constructor]|].
  destruct (N.eqb_spec (code c) 34); [apply sb_escaped; [reflexivity|constructor]|].
  destruct ((32 <=? code c) && (code c <=? 126))%N; [apply sb_plain; [assumption|assumption|constructor]|].
  apply sb_escaped; [reflexivity|].
  apply sb_plain; try apply octal_digit_plain. apply sb_plain; try apply octal_digit_plain. constructor.
Qed.

Lemma write_escaped_body s : string_body (write_escaped s).
Proof.
  induction s as [|c s IH]; cbn; [constructor|]. apply string_body_app; [apply escape_char_body|exact IH].
Qed.

(** What is read back for a printed argument. *)
Definition reread (v : lit) : lit :=
  match v with
  | LString s => LString (write_escaped s)
  | LNothing => LString $"nothing"
  | v => v
  end.

Definition arg_token (v : lit) : stoken :=
  match v with
  | LString s => SStr (write_escaped s)
  | LUnsigned n => SNum (print_unsigned n)
  | LBool true => SIdent $"true"
  | LBool false => SIdent $"false"
  | LNothing => SIdent $"nothing"
  | LDefault => SIdent $"default"
  end.

Fixpoint arg_tokens (vs : list lit) : list stoken :=
  match vs with [] => [] | [v] => [arg_token v] | v :: vs' => arg_token v :: SComma :: arg_tokens vs' end.


Lemma arg_token_g v : printable_lit v -> g_value (arg_token v) (reread v).
Proof.
  destruct v as [|s|n|[]|]; cbn [arg_token reread printable_lit]; intros H; try constructor; try discriminate.
  destruct (print_unsigned_spec n H) as (_ & _ & E). pose proof (gv_num (print_unsigned n)) as G.
  rewrite E in G. exact G.
Qed.

Lemma arg_token_text v : stext (arg_token v) = print_lit v.
Proof. destruct v as [|s|n|[]|]; reflexivity. Qed.

Lemma arg_token_lexeme v r : printable_lit v -> stops is_ident_continue r -> stops is_digit r -> lexeme (arg_token v) r.
Proof.
  destruct v as [|s|n|[]|]; cbn [arg_token printable_lit]; intros H H1 H2; try (constructor; try reflexivity; assumption).
  - constructor. apply write_escaped_body.
  - destruct (print_unsigned_spec n H) as (Hne & Hd & E). constructor; try assumption. rewrite E; exact H.
Qed.

Lemma arg_tokens_g vs : Forall printable_lit vs -> g_values (arg_tokens vs) (map reread vs).
Proof.
  induction 1 as [|v vs Hv Hvs IH]; [constructor|].
  destruct vs as [|v2 vs]; [constructor; apply arg_token_g; exact Hv|].
  change (arg_tokens (v :: v2 :: vs)) with (arg_token v :: SComma :: arg_tokens (v2 :: vs)).
  cbn [map]. constructor; [apply arg_token_g; exact Hv|exact IH].
Qed.

Lemma lexes_print_args vs : Forall printable_lit vs -> forall r ts, lexes ($")" ++ r) ts ->
  lexes (print_args vs ++ $")" ++ r) (arg_tokens vs ++ ts).
Proof.
  induction 1 as [|v vs Hv Hvs IH]; intros r ts Hr; [exact Hr|].
  destruct vs as [|v2 vs].
  - cbn [print_args arg_tokens app]. rewrite <- arg_token_text. apply lexes_tok0; [|exact Hr].
    apply arg_token_lexeme; [exact Hv|reflexivity|reflexivity].
  - change (print_args (v :: v2 :: vs)) with (print_lit v ++ $", " ++ print_args (v2 :: vs)).
    change (arg_tokens (v :: v2 :: vs)) with (arg_token v :: SComma :: arg_tokens (v2 :: vs)).
    rewrite <- !app_assoc. rewrite <- arg_token_text. cbn [app]. apply lexes_tok0.
    + apply arg_token_lexeme; [exact Hv|reflexivity|reflexivity].
    + apply (lexes_tok0 SComma); [constructor|].
      apply (lexes_ws_front $" "); [reflexivity|]. apply IH. exact Hr.
Qed.


Definition reread_annotation (a : annotation) : annotation := mkAnnotation (a_kind a) (map reread (a_args a)).

Lemma print_parse a : printable a -> parse_annotations (print_annotation a) = ROk [reread_annotation a].
Proof.
  intros Hp. apply parse_ok_iff. destruct a as [k args]. cbn in Hp.
  exists (SIdent (kind_spelling k) :: SOpen :: arg_tokens args ++ [SClose]). split.
  - unfold print_annotation. cbn [a_kind a_args]. apply lexes_kind; [reflexivity|].
    apply (lexes_tok0 SOpen); [constructor|].
    replace (print_args args ++ $")") with (print_args args ++ $")" ++ []) by (rewrite app_nil_r; reflexivity).
    apply lexes_print_args; [exact Hp|]. apply (lexes_tok0 SClose []); [constructor|apply lexes_nil].
  - constructor. constructor; [apply names_spec; reflexivity|]. apply arg_tokens_g. exact Hp.
Qed.



Lemma escape_char_length c : ~ plain_char c -> 1 < length (escape_char c).
Proof.
  unfold plain_char, escape_char. intros H.
  destruct (N.eqb_spec (code c) 92); [cbn; lia|].
  destruct (N.eqb_spec (code c) 9); [cbn; lia|].
  destruct (N.eqb_spec (code c) 10); [cbn; lia|].
  destruct (N.eqb_spec (code c) 34); [cbn; lia|].
  destruct ((32 <=? code c) && (code c <=? 126))%N eqn:E; [|cbn; lia].
  exfalso. apply H. lia.
Qed.

Lemma escape_char_plain c : plain_char c -> escape_char c = [c].
Proof.
  unfold plain_char, escape_char. intros (H1 & H2 & H3).
  destruct (N.eqb_spec (code c) 92); [lia|]. destruct (N.eqb_spec (code c) 9); [lia|].
  destruct (N.eqb_spec (code c) 10); [lia|]. destruct (N.eqb_spec (code c) 34); [lia|].
  destruct ((32 <=? code c) && (code c <=? 126))%N eqn:E; [reflexivity|lia].
Qed.

Lemma escape_char_nonempty c : 1 <= length (escape_char c).
Proof.
  unfold escape_char. repeat match goal with |- context [if ?b then _ else _] => destruct b end; cbn; lia.
Qed.

Lemma write_escaped_length s : length s <= length (write_escaped s).
Proof.
  induction s as [|c s IH]; [cbn; lia|]. change (write_escaped (c :: s)) with (escape_char c ++ write_escaped s).
  rewrite app_length. cbn [length]. pose proof (escape_char_nonempty c). lia.
Qed.

Lemma plain_char_dec c : {plain_char c} + {~ plain_char c}.
Proof.
  unfold plain_char.
  destruct (32 <=? code c)%N eqn:E1; [|right; lia]. destruct (code c <=? 126)%N eqn:E2; [|right; lia].
  destruct (N.eq_dec (code c) 34); [right; lia|]. destruct (N.eq_dec (code c) 92); [right; lia|left; lia].
Qed.

Lemma write_escaped_id s : write_escaped s = s <-> Forall plain_char s.
Proof.
  assert (Hcons : forall c s, write_escaped (c :: s) = escape_char c ++ write_escaped s) by reflexivity.
  split.
  - induction s as [|c s IH]; [constructor|]. rewrite Hcons. intros E.
    destruct (plain_char_dec c) as [Hc|Hc].
    + rewrite (escape_char_plain c Hc) in E. injection E as E. constructor; auto.
    + exfalso. apply escape_char_length in Hc. apply (f_equal (@length ascii)) in E.
      rewrite app_length in E. cbn [length] in E. pose proof (write_escaped_length s). lia.
  - induction 1 as [|c s Hc Hs IH]; [reflexivity|]. rewrite Hcons, (escape_char_plain c Hc). cbn [app]. f_equal. exact IH.
Qed.

Lemma reread_id v : reread v = v <-> plain_lit v.
Proof.
  destruct v as [|s|n|b|]; cbn; try (split; [tauto|reflexivity]).
  - split; [discriminate|contradiction].
  - rewrite <- write_escaped_id. split; congruence.
Qed.

Lemma map_id_iff {A} (f : A -> A) l : map f l = l <-> Forall (fun x => f x = x) l.
Proof.
  induction l as [|x l IH]; cbn; [split; constructor|]. split.
  - intros [= E1 E2]. constructor; tauto.
  - intros H. inversion H; subst. f_equal; tauto.
Qed.

Lemma round_trip_iff a : printable a ->
  (parse_annotations (print_annotation a) = ROk [a] <-> Forall plain_lit (a_args a)).
Proof.
  intros Hp. rewrite (print_parse a Hp). destruct a as [k args]. unfold reread_annotation. cbn [a_kind a_args].
  split.
  - intros [= E]. apply map_id_iff in E. eapply Forall_impl; [|exact E]. intros v. apply reread_id.
  - intros H. do 3 f_equal. apply map_id_iff. eapply Forall_impl; [|exact H]. intros v. apply reread_id.
Qed.

Lemma printed_parses a : printable a -> exists args, length args = length (a_args a) /\
    parse_annotations (print_annotation a) = ROk [mkAnnotation (a_kind a) args].
Proof.
  intros Hp. exists (map reread (a_args a)). split; [apply map_length|]. exact (print_parse a Hp).
Qed.

Lemma round_trip_refuted : exists a, printable a /\ parse_annotations (print_annotation a) <> ROk [a].
Proof.
  exists (mkAnnotation ExposeAs [LString $"a""b"]). split; [repeat constructor|]. vm_compute. discriminate.
Qed.

Lemma parsed_round_trip_refuted :
  exists text a, parse_annotations text = ROk [a] /\ parse_annotations (print_annotation a) <> ROk [a].
Proof.
  exists $"manual(""c.def(\""x\"")"")", (mkAnnotation Manual [LString $"c.def(\""x\"")"]).
  split; [vm_compute; reflexivity|vm_compute; discriminate].
Qed.

Lemma lexes_total_unique text : exists ts, lexes text ts /\ forall ts', lexes text ts' -> ts' = ts.
Proof.
  destruct (lexes_total text) as [ts H]. exists ts. split; [exact H|]. intros ts' H'. eapply lexes_det; eassumption.
Qed.

Lemma tokenizer_follows text ts : lexes text ts ->
    map (fun t => (t_kind t, t_text t, t_value t)) (consume_n (length ts) (make_tokenizer text)) =
    map (fun t => (lexical_kind t, stext t, lexical_value t)) ts.
Proof.
  intros H. pose proof (consume_stream ts _ 0 (lexes_stream _ _ H)) as E.
  rewrite Nat.add_0_r, app_nil_r in E. rewrite E, map_map. apply map_ext. intros []; reflexivity.
Qed.

Lemma lexes_app_punct a ts1 : lexes a ts1 -> Forall good_token ts1 -> forall p b ts2,
  In p [SOpen; SClose; SComma] -> lexes b ts2 -> lexes (a ++ stext p ++ b) (ts1 ++ p :: ts2).
Proof.
  intros Ha Hg p b ts2 Hp Hb.
  assert (Hlp : lexeme p b) by (destruct Hp as [<-|[<-|[<-|[]]]]; constructor).
  assert (Hst : forall r, stops is_ident_continue (stext p ++ r) /\ stops is_digit (stext p ++ r)).
  { intros r. destruct Hp as [<-|[<-|[<-|[]]]]; split; reflexivity. }
  induction Ha as [w0 Hw0|w0 t r ts Hw0 Hl Hts IH].
  - constructor; assumption.
  - rewrite <- !app_assoc. inversion Hg as [|? ? Hgt Hgs]; subst. cbn [app]. constructor; [exact Hw0| |apply IH; exact Hgs].
    destruct (Hst b) as [Hs1 Hs2].
    destruct Hl; cbn in Hgt; try contradiction; try (constructor; assumption).
    + constructor; try assumption. apply stops_app; assumption.
    + constructor; try assumption. apply stops_app; assumption.
Qed.

Lemma lexes_ws_end a ts w : lexes a ts -> Forall good_token ts -> forallb is_hspace w = true -> lexes (a ++ w) ts.
Proof.
  intros Ha Hg Hw. destruct w as [|c w]; [rewrite app_nil_r; exact Ha|].
  replace (a ++ c :: w) with (a ++ [c] ++ w) by reflexivity.
  rewrite <- (app_nil_r ts). cbn in Hw. apply andb_true_iff in Hw as [Hc Hw].
  apply lexes_app_ws; try assumption; [discriminate|cbn; rewrite Hc; reflexivity|constructor; exact Hw].
Qed.

Lemma whitespace_punctuation a b p ts1 ts2 w1 w2 acc :
    lexes a ts1 -> lexes b ts2 -> Forall good_token ts1 -> In p [SOpen; SClose; SComma] ->
    forallb is_hspace w1 = true -> forallb is_hspace w2 = true ->
    parse_annotations_into (a ++ w1 ++ stext p ++ w2 ++ b) acc = parse_annotations_into (a ++ stext p ++ b) acc.
Proof.
  intros Ha Hb Hg Hp H1 H2. eapply lexes_same_parse.
  - rewrite app_assoc. apply lexes_app_punct; [apply lexes_ws_end; eassumption|assumption|assumption|].
    apply lexes_ws_front; eassumption.
  - apply lexes_app_punct; assumption.
Qed.

(** ** The annotations complete at a position are determined *)

Definition opens (t : stoken) : bool := match t with SOpen => true | _ => false end.
Definition closes (t : stoken) : bool := match t with SClose => true | _ => false end.
Definition balanced (ts : list stoken) : Prop := length (filter opens ts) = length (filter closes ts).

Lemma g_values_flat ts vs : g_values ts vs -> filter opens ts = [] /\ filter closes ts = [].
Proof.
  induction 1 as [|t v Hv|t v ts vs Hv Hvs [IH1 IH2]]; [split; reflexivity| |];
    destruct Hv; cbn; auto.
Qed.

Lemma g_annotation_balanced ts a : g_annotation ts a -> balanced ts.
Proof.
  unfold balanced. destruct 1 as [s k Hk|s k ts vs Hk Hv]; [reflexivity|].
  apply g_values_flat in Hv as [E1 E2]. cbn. rewrite !filter_app, E1, E2. reflexivity.
Qed.

Lemma g_annotations_balanced ts l : g_annotations ts l -> balanced ts.
Proof.
  unfold balanced. induction 1 as [|ts a Ha|ts a ts' l Ha Hl IH]; [reflexivity|apply g_annotation_balanced in Ha; exact Ha|].
  apply g_annotation_balanced in Ha. unfold balanced in Ha. rewrite !filter_app, !app_length. cbn. lia.
Qed.

Lemma g_values_close part : forall more vs, g_values (part ++ more) vs -> exists vs', g_values part vs'.
Proof.
  induction part as [part IH] using (well_founded_induction (Wf_nat.well_founded_ltof _ (@length stoken))).
  intros more vs H. destruct part as [|t [|t2 part]].
  - exists []. constructor.
  - cbn in H. inversion H; subst; eexists; constructor; eassumption.
  - cbn in H. inversion H as [| |t0 v ts0 vs0 Hv0 Hvs0]; subst. destruct (IH part) with (more := more) (vs := vs0) as [vs' Hv']; [unfold Wf_nat.ltof; cbn; lia|assumption|].
    exists (v :: vs'). constructor; assumption.
Qed.

Lemma at_position_complete pre anns p : at_position pre anns p -> p <> InsideArguments -> g_annotations pre anns.
Proof.
  intros H Hp. destruct p; [|eapply at_position_after; [exact H|reflexivity]|congruence].
  rewrite <- (app_nil_r pre), <- (app_nil_r anns). eapply at_position_expect_app; [exact H|reflexivity|constructor].
Qed.

Lemma at_position_close pre anns : at_position pre anns InsideArguments -> exists a, g_annotations (pre ++ [SClose]) (anns ++ [a]).
Proof.
  intros H. remember InsideArguments as p eqn:E. destruct H as [| | |done anns s k part H Hk (more & vs & Hm)]; try discriminate.
  destruct (g_values_close _ _ _ Hm) as [vs' Hv']. exists (mkAnnotation k vs'). rewrite <- app_assoc.
  eapply at_position_expect_app; [exact H|reflexivity|]. constructor. cbn. constructor; assumption.
Qed.

Lemma at_position_unique pre l1 p1 l2 p2 : at_position pre l1 p1 -> at_position pre l2 p2 -> l1 = l2.
Proof.
  intros H1 H2.
  assert (Hmix : forall a b p, at_position pre a InsideArguments -> at_position pre b p -> p <> InsideArguments -> False).
  { intros a b p Ha Hb Hp. apply at_position_close in Ha as [x Ha]. apply at_position_complete in Hb; [|exact Hp].
    apply g_annotations_balanced in Ha, Hb. unfold balanced in *. rewrite !filter_app, !app_length in Ha. cbn in Ha. lia. }
  assert (D : forall p, p = InsideArguments \/ p <> InsideArguments) by (intros []; auto; right; discriminate).
  destruct (D p1) as [->|N1], (D p2) as [->|N2].
  - apply at_position_close in H1 as [x H1]. apply at_position_close in H2 as [y H2].
    pose proof (g_annotations_unique _ _ _ H1 H2) as E. apply app_inj_tail in E as [E _]. exact E.
  - destruct (Hmix _ _ _ H1 H2 N2).
  - destruct (Hmix _ _ _ H2 H1 N1).
  - eapply g_annotations_unique; eapply at_position_complete; eassumption.
Qed.
