(** * Printed annotations: proofs *)
From Verif Require Import Base ParserModel ParserSpec ParserProofs StringModel StringSpec StringProofs CommandProofs NoteSpec.

Lemma digits_lead f : forall n acc, n <> 0%N -> (n < 10 ^ N.of_nat (S f))%N -> exists c ds, digits_fuel (S f) n acc = c :: ds /\ c <> "0"%char.
Proof.
  assert (L : forall n, n <> 0%N -> (n < 10)%N -> ascii_of_N (48 + n mod 10) <> "0"%char).
  { intros n H0 H1 E. apply (f_equal code) in E. rewrite N.mod_small in E by lia. rewrite (code_ascii (48 + n)) in E by lia. change (code "0"%char) with 48%N in E. lia. }
  induction f as [|f IH]; intros n acc H0 Hn; cbn [digits_fuel].
  - assert (n < 10)%N by (cbn in Hn; lia). rewrite N.div_small by lia. cbn. eexists _, _. split; [reflexivity|]. apply L; lia.
  - destruct (N.eqb_spec (n / 10) 0) as [E|E].
    + eexists _, _. split; [reflexivity|]. apply L; [exact H0|]. apply N.div_small_iff in E; lia.
    + change (exists c ds, digits_fuel (S f) (n / 10) (ascii_of_N (48 + n mod 10) :: acc) = c :: ds /\ c <> "0"%char). apply IH; [exact E|].
      apply N.div_lt_upper_bound; [lia|]. rewrite Nat2N.inj_succ, N.pow_succ_r' in Hn. exact Hn.
Qed.

Lemma lit_prints v : printable_lit v -> prints v (print_lit v).
Proof.
  destruct v as [|s|n|[]|]; cbn [print_lit printable_lit]; intros H; try constructor.
  - pose proof (string_literal_denotes s []) as E. rewrite app_nil_r in E. exact E.
  - apply string_literal_printable.
  - destruct (N.eq_dec n 0) as [->|N0]; [apply pr_zero|]. destruct (print_unsigned_spec n H) as (_ & D & V).
    destruct (digits_lead 9 n [] N0) as (c & ds & E & C); [unfold max_unsigned in H; change (10 ^ N.of_nat 10)%N with 10000000000%N; lia|].
    unfold print_unsigned in *. rewrite E in *. constructor; assumption.
Qed.

Lemma args_separated vs : separated (map print_lit vs) (print_args vs).
Proof.
  induction vs as [|v [|v2 vs] IH]; [constructor|constructor|].
  change (print_args (v :: v2 :: vs)) with (print_lit v ++ $", " ++ print_args (v2 :: vs)). cbn [map]. apply se_more; [discriminate|exact IH].
Qed.

Lemma annotation_noted a : printable a -> noted a (print_annotation a).
Proof.
  intros P. exists (kind_spelling (a_kind a)), (map print_lit (a_args a)), (print_args (a_args a)).
  split; [apply names_spec; reflexivity|]. split; [|split; [apply args_separated|reflexivity]].
  unfold printable in P. induction P; constructor; [apply lit_prints|]; assumption.
Qed.

Lemma print_lexes a : printable a -> lexes (print_annotation a) (SIdent (kind_spelling (a_kind a)) :: SOpen :: arg_tokens (a_args a) ++ [SClose]).
Proof.
  intros Hp. destruct a as [k args]. unfold print_annotation. cbn [a_kind a_args]. apply lexes_kind; [reflexivity|].
  apply (lexes_tok0 SOpen); [constructor|].
  replace (print_args args ++ $")") with (print_args args ++ $")" ++ []) by (rewrite app_nil_r; reflexivity).
  apply lexes_print_args; [exact Hp|]. apply (lexes_tok0 SClose []); [constructor|apply lexes_nil].
Qed.

Lemma unsigned_inj n m : (n <= max_unsigned)%N -> (m <= max_unsigned)%N -> print_unsigned n = print_unsigned m -> n = m.
Proof. intros Hn Hm E. destruct (print_unsigned_spec n Hn) as (_ & _ & V), (print_unsigned_spec m Hm) as (_ & _ & V'). congruence. Qed.

Lemma token_inj v w : printable_lit v -> printable_lit w -> arg_token v = arg_token w -> v = w.
Proof.
  destruct v as [|s|n|[]|], w as [|s'|n'|[]|]; cbn [arg_token printable_lit]; intros H H' E; try discriminate E; try reflexivity.
  - injection E as E. destruct (escaped_injective s s' [] []) as [-> _]; [rewrite E|]; reflexivity.
  - injection E as E. rewrite (unsigned_inj n n' H H' E). reflexivity.
Qed.

Lemma token_not v : arg_token v <> SClose /\ arg_token v <> SComma.
Proof. destruct v as [|s|n|[]|]; split; discriminate. Qed.

Lemma tokens_inj vs : forall ws, Forall printable_lit vs -> Forall printable_lit ws -> arg_tokens vs ++ [SClose] = arg_tokens ws ++ [SClose] -> vs = ws.
Proof.
  induction vs as [|v vs IH]; intros [|w ws] Hv Hw E; [reflexivity| | |].
  - exfalso. destruct (token_not w) as [H _]. destruct ws; cbn in E; injection E as E; congruence.
  - exfalso. destruct (token_not v) as [H _]. destruct vs; cbn in E; injection E as E; congruence.
  - apply Forall_cons_iff in Hv, Hw. destruct Hv as [Hv Hvs], Hw as [Hw Hws].
    destruct vs as [|v2 vs], ws as [|w2 ws].
    + cbn in E. injection E as E. rewrite (token_inj v w Hv Hw E). reflexivity.
    + cbn in E. discriminate E.
    + cbn in E. discriminate E.
    + change (arg_token v :: SComma :: (arg_tokens (v2 :: vs) ++ [SClose]) = arg_token w :: SComma :: (arg_tokens (w2 :: ws) ++ [SClose])) in E.
      assert (E1 : arg_token v = arg_token w) by (apply (f_equal (hd SComma)) in E; exact E).
      assert (E2 : arg_tokens (v2 :: vs) ++ [SClose] = arg_tokens (w2 :: ws) ++ [SClose]) by (apply (f_equal (fun l => tl (tl l))) in E; exact E).
      rewrite (token_inj v w Hv Hw E1), (IH _ Hvs Hws E2). reflexivity.
Qed.

Lemma print_injective a b : printable a -> printable b -> print_annotation a = print_annotation b -> a = b.
Proof.
  intros Pa Pb E. pose proof (print_lexes a Pa) as La. pose proof (print_lexes b Pb) as Lb. rewrite <- E in Lb.
  pose proof (lexes_det _ _ La _ Lb) as T. destruct a as [k args], b as [k' args']. cbn [a_kind a_args] in *.
  assert (E1 : kind_spelling k = kind_spelling k') by congruence.
  assert (E2 : arg_tokens args ++ [SClose] = arg_tokens args' ++ [SClose]) by congruence.
  rewrite (tokens_inj args args' Pa Pb E2). f_equal. pose proof (kind_of_spelling_complete k) as K. rewrite E1, kind_of_spelling_complete in K. congruence.
Qed.
