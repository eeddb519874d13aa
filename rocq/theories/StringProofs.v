From Coq Require Import ZifyBool ZifyNat ZifyN.
From Verif Require Import Base ParserModel ParserProofs StringModel StringSpec.

(** * Identifier conversion *)

(** Functional counterpart of the specification. *)
Fixpoint collapse (inrun : bool) (s : str) : str :=
  match s with
  | [] => []
  | c :: r =>
      if is_ident_continue c then c :: collapse false r
      else if inrun then collapse true r else underscore :: collapse true r
  end.

Definition conv (s : str) : str :=
  let r := drop_while not_start s in
  (match take_while not_start s with [] => [] | _ => [underscore] end) ++ collapse false r.

Lemma start_continue c : is_ident_start c = true -> is_ident_continue c = true.
Proof. unfold is_ident_continue. intros ->. reflexivity. Qed.

Lemma not_continue_false c : not_continue c = false <-> is_ident_continue c = true.
Proof. unfold not_continue. destruct (is_ident_continue c); cbn; split; congruence. Qed.
Lemma not_continue_true c : not_continue c = true <-> is_ident_continue c = false.
Proof. unfold not_continue. destruct (is_ident_continue c); cbn; split; congruence. Qed.
Lemma not_start_false c : not_start c = false <-> is_ident_start c = true.
Proof. unfold not_start. destruct (is_ident_start c); cbn; split; congruence. Qed.
Lemma not_start_true c : not_start c = true <-> is_ident_start c = false.
Proof. unfold not_start. destruct (is_ident_start c); cbn; split; congruence. Qed.

Lemma collapse_true_run run : forall s, forallb not_continue run = true -> collapse true (run ++ s) = collapse true s.
Proof.
  induction run as [|c run IH]; intros s; cbn [forallb app collapse]; [reflexivity|].
  rewrite andb_true_iff. intros [H1 H2]. apply not_continue_true in H1. rewrite H1. apply IH, H2.
Qed.

Lemma collapse_stops s b : stops not_continue s -> collapse b s = collapse false s.
Proof. destruct s as [|c s]; [reflexivity|]. cbn [stops]. intros H. apply not_continue_false in H. cbn. rewrite H. reflexivity. Qed.

Lemma collapse_run run s : run <> [] -> forallb not_continue run = true -> stops not_continue s ->
  collapse false (run ++ s) = underscore :: collapse false s.
Proof.
  destruct run as [|c run]; [congruence|]. intros _ H Hs. cbn [forallb] in H. apply andb_true_iff in H as [H1 H2].
  apply not_continue_true in H1. cbn [app collapse]. rewrite H1. rewrite collapse_true_run by exact H2.
  rewrite collapse_stops by exact Hs. reflexivity.
Qed.

Lemma collapsed_collapse s t : collapsed s t -> t = collapse false s.
Proof.
  induction 1 as [|c s t Hc Hs IH|run s t Hne Hr Hst Hs IH]; [reflexivity| |].
  - cbn [collapse]. rewrite Hc, <- IH. reflexivity.
  - rewrite collapse_run by assumption. rewrite <- IH. reflexivity.
Qed.

Lemma collapse_collapsed_len n : forall s, length s <= n -> collapsed s (collapse false s).
Proof.
  induction n as [|n IH]; intros s Hs.
  - destruct s; [constructor|cbn in Hs; lia].
  - destruct s as [|c s]; [constructor|]. destruct (is_ident_continue c) eqn:Hc.
    + cbn [collapse]. rewrite Hc. constructor; [exact Hc|]. apply IH. cbn in Hs. lia.
    + pose proof (take_drop_while not_continue (c :: s)) as E.
      assert (Hne : take_while not_continue (c :: s) <> []).
      { cbn [take_while]. apply not_continue_true in Hc. rewrite Hc. discriminate. }
      assert (Hlen : length (drop_while not_continue (c :: s)) <= n).
      { pose proof (f_equal (@length ascii) E) as El. rewrite app_length in El.
        destruct (take_while not_continue (c :: s)); [congruence|]. cbn [length app] in El, Hs. lia. }
      rewrite <- E at 2. rewrite collapse_run; [|exact Hne|apply take_while_forallb|apply drop_while_stops'].
      rewrite <- E at 1. apply co_run; [exact Hne|apply take_while_forallb|apply drop_while_stops'|].
      apply IH, Hlen.
Qed.

Lemma collapse_collapsed s : collapsed s (collapse false s).
Proof. apply (collapse_collapsed_len (length s)). lia. Qed.

Lemma converted_conv s t : converted s t <-> t = conv s.
Proof.
  split.
  - intros [s' t' Hs Hc|run s' t' Hne Hr Hs Hc]; apply collapsed_collapse in Hc as ->; unfold conv.
    + rewrite take_while_stops, drop_while_stops by exact Hs. reflexivity.
    + rewrite take_while_app, drop_while_app by exact Hr.
      rewrite take_while_stops, drop_while_stops, app_nil_r by exact Hs. destruct run; [congruence|reflexivity].
  - intros ->. unfold conv. pose proof (take_drop_while not_start s) as E.
    destruct (take_while not_start s) as [|c run] eqn:Et.
    + cbn [app] in E. rewrite E. apply cv_clean; [rewrite <- E; apply drop_while_stops'|apply collapse_collapsed].
    + rewrite <- E at 1. apply cv_lead; [discriminate|rewrite <- Et; apply take_while_forallb|apply drop_while_stops'|apply collapse_collapsed].
Qed.

(** ** The in-place algorithm *)

Definition good_access (orig : str) (a : access) : Prop :=
  match a with Rd i c => nth_error orig i = Some c | Wr i _ => i < length orig end.

Lemma skipn_cons_nth {A} (l : list A) i c : nth_error l i = Some c -> skipn i l = c :: skipn (S i) l.
Proof. revert i. induction l as [|x l IH]; intros [|i] H; try discriminate; [cbn in *; congruence|]. exact (IH i H). Qed.

Lemma nth_skipn {A} (l : list A) i c r : skipn i l = c :: r -> nth_error l i = Some c /\ r = skipn (S i) l.
Proof.
  revert i. induction l as [|x l IH]; intros [|i] H; try discriminate.
  - cbn in *. split; congruence.
  - exact (IH i H).
Qed.

(** Buffer contents: output so far, then the rest of the original. *)
Definition content (orig O : str) : str := O ++ skipn (length O) orig.

Lemma content_length orig O : length O <= length orig -> length (content orig O) = length orig.
Proof. intros H. unfold content. rewrite app_length, skipn_length. lia. Qed.

Lemma content_nth orig O i : length O <= i -> nth_error (content orig O) i = nth_error orig i.
Proof.
  intros H. unfold content. rewrite nth_error_app2 by exact H.
  rewrite <- (firstn_skipn (length O) orig) at 2.
  destruct (Nat.lt_ge_cases (length O) (length orig)) as [Hl|Hl].
  - rewrite nth_error_app2 by (rewrite firstn_length; lia). rewrite firstn_length, Nat.min_l by lia. reflexivity.
  - rewrite skipn_all2 by lia. rewrite app_nil_r. rewrite firstn_all2 by lia.
    transitivity (@None ascii); [destruct (i - length O); reflexivity|]. symmetry. apply nth_error_None. lia.
Qed.

Lemma write_content orig O c tr : length O < length orig ->
  write (mkBuffer (content orig O) tr) (length O) c = Some (mkBuffer (content orig (O ++ [c])) (tr ++ [Wr (length O) c])).
Proof.
  intros H. unfold write. cbn [b_data b_trace]. rewrite content_length by lia.
  destruct (Nat.ltb_spec (length O) (length orig)); [|lia]. f_equal. f_equal.
  unfold content. rewrite firstn_exact. rewrite <- app_assoc. cbn [app]. f_equal. f_equal.
  rewrite app_length. cbn [length].
  rewrite skipn_app. rewrite skipn_all2 by lia. cbn [app].
  replace (S (length O) - length O) with 1 by lia.
  rewrite Nat.add_1_r. clear tr c.
  assert (H2 : exists x, nth_error orig (length O) = Some x).
  { destruct (nth_error orig (length O)) eqn:E; [eauto|]. apply nth_error_None in E. lia. }
  destruct H2 as [x Hx]. rewrite (skipn_cons_nth _ _ _ Hx). reflexivity.
Qed.

Lemma read_content orig O i c tr : length O <= i -> nth_error orig i = Some c ->
  read (mkBuffer (content orig O) tr) i = Some (c, mkBuffer (content orig O) (tr ++ [Rd i c])).
Proof. intros H E. unfold read. cbn [b_data b_trace]. rewrite content_nth by exact H. rewrite E. reflexivity. Qed.

Lemma find_if_content orig O pred : length O <= length orig -> forall fuel i tr,
  length O <= i <= length orig -> length orig - i <= fuel ->
  exists tr', find_if fuel pred (mkBuffer (content orig O) tr) i =
      Some (i + length (take_while (fun c => negb (pred c)) (skipn i orig)), mkBuffer (content orig O) (tr ++ tr')) /\
    Forall (good_access orig) tr' /\
    length tr' <= length (take_while (fun c => negb (pred c)) (skipn i orig)) +
       (if Nat.eqb (i + length (take_while (fun c => negb (pred c)) (skipn i orig))) (length orig) then 0 else 1).
Proof.
  intros HO. induction fuel as [|fuel IH]; intros i tr Hi Hf; cbn [find_if b_data].
  - rewrite content_length by exact HO. assert (i = length orig) as -> by lia. rewrite Nat.eqb_refl.
    rewrite skipn_all. cbn [take_while length]. exists []. rewrite app_nil_r, Nat.add_0_r. repeat split; [constructor|cbn; lia].
  - rewrite content_length by exact HO. destruct (Nat.eqb_spec i (length orig)) as [->|Hne].
    + rewrite skipn_all. cbn [take_while length]. exists []. rewrite app_nil_r, Nat.add_0_r. repeat split; [constructor|cbn; lia].
    + destruct (nth_error orig i) as [c|] eqn:Ec; [|apply nth_error_None in Ec; lia].
      rewrite (read_content orig O i c tr) by (try exact Ec; lia).
      rewrite (skipn_cons_nth _ _ _ Ec). cbn [take_while].
      destruct (pred c) eqn:Hp; cbn [negb].
      * exists [Rd i c]. cbn [length]. rewrite Nat.add_0_r. repeat split.
        -- constructor; [exact Ec|constructor].
        -- destruct (Nat.eqb_spec i (length orig)); [contradiction|lia].
      * destruct (IH (S i) (tr ++ [Rd i c]) ltac:(lia) ltac:(lia)) as (tr' & E & Hg & Hl).
        exists (Rd i c :: tr'). cbn [length]. rewrite E. replace (i + S _) with (S i + length (take_while (fun c0 => negb (pred c0)) (skipn (S i) orig))) by lia.
        rewrite <- app_assoc. repeat split; [constructor; [exact Ec|exact Hg]|]. lia.
Qed.

Lemma take_while_eq {A} (p q : A -> bool) l : (forall x, p x = q x) -> take_while p l = take_while q l.
Proof. intros H. induction l as [|x l IH]; [reflexivity|]. cbn. rewrite H, IH. reflexivity. Qed.

Lemma skipn_skipn_add {A} (l : list A) a b : skipn a (skipn b l) = skipn (b + a) l.
Proof. revert l. induction b as [|b IH]; intros l; [reflexivity|]. destruct l; [rewrite skipn_nil; destruct a; reflexivity|]. apply IH. Qed.

Lemma skipn_take_while {A} (p : A -> bool) l : skipn (length (take_while p l)) l = drop_while p l.
Proof. rewrite <- (take_drop_while p l) at 2. apply skipn_exact. Qed.

(** [tail orig input last]: what is still to be written. *)
Definition todo (orig : str) (input last : nat) : str :=
  (if Nat.eqb input last then [] else [underscore]) ++ collapse false (skipn input orig).

Lemma convert_loop_content orig : forall fuel O input last tr,
  length O <= last -> last <= input <= length orig -> length orig - input <= fuel ->
  (forall c, nth_error orig input = Some c -> is_ident_continue c = true) ->
  length tr <= input + (if Nat.eqb input (length orig) then 0 else 1) + last + length O ->
  Forall (good_access orig) tr ->
  exists tr', convert_loop fuel (mkBuffer (content orig O) tr) input last (length O) = Some (O ++ todo orig input last, tr') /\
    Forall (good_access orig) tr' /\ length tr' <= 2 * length orig + length (O ++ todo orig input last) /\
    length (O ++ todo orig input last) <= length orig.
Proof.
  induction fuel as [|fuel IH]; intros O input last tr HO Hi Hf Hv Hl Hg; cbn [convert_loop b_data b_trace].
  - rewrite content_length by lia. assert (input = length orig) as -> by lia. rewrite Nat.eqb_refl in *. unfold todo.
    rewrite skipn_all. cbn [collapse]. rewrite app_nil_r.
    rewrite (Nat.eqb_sym (length orig) last). destruct (Nat.eqb_spec last (length orig)) as [->|Hne].
    + eexists. split; [cbn [b_data b_trace]; unfold content; rewrite firstn_exact, app_nil_r; reflexivity|].
      split; [exact Hg|]. rewrite app_nil_r. lia.
    + rewrite write_content by lia. cbn [b_data b_trace]. eexists. split.
      { unfold content. replace (S (length O)) with (length (O ++ [underscore])) by (rewrite app_length; cbn; lia). rewrite firstn_exact. reflexivity. }
      split; [apply Forall_app; split; [exact Hg|constructor; [cbn; lia|constructor]]|].
      rewrite !app_length. cbn [length]. lia.
  - rewrite content_length by lia. destruct (Nat.eqb_spec input (length orig)) as [->|Hne].
    + unfold todo. rewrite skipn_all. cbn [collapse]. rewrite app_nil_r.
      rewrite (Nat.eqb_sym (length orig) last). destruct (Nat.eqb_spec last (length orig)) as [->|Hne].
      * eexists. split; [cbn [b_data b_trace]; unfold content; rewrite firstn_exact, app_nil_r; reflexivity|].
        split; [exact Hg|]. rewrite app_nil_r. lia.
      * rewrite write_content by lia. cbn [b_data b_trace]. eexists. split.
        { unfold content. replace (S (length O)) with (length (O ++ [underscore])) by (rewrite app_length; cbn; lia). rewrite firstn_exact. reflexivity. }
        split; [apply Forall_app; split; [exact Hg|constructor; [cbn; lia|constructor]]|].
        rewrite !app_length. cbn [length]. lia.
    + destruct (nth_error orig input) as [c|] eqn:Ec; [|apply nth_error_None in Ec; lia].
      specialize (Hv c eq_refl).
      (* common part after the optional underscore *)
      assert (Hcont : forall O1 tr1, length O1 <= input -> Forall (good_access orig) tr1 -> length tr1 <= input + 1 + last + length O1 ->
         exists tr', match read (mkBuffer (content orig O1) tr1) input with
            | None => None
            | Some (c, b2) =>
                match write b2 (length O1) c with
                | None => None
                | Some b3 =>
                    match find_if (length (b_data b3)) is_ident_continue b3 (S input) with
                    | None => None
                    | Some (input'', b4) => convert_loop fuel b4 input'' (S input) (S (length O1))
                    end
                end
            end = Some (O1 ++ collapse false (skipn input orig), tr') /\ Forall (good_access orig) tr' /\
            length tr' <= 2 * length orig + length (O1 ++ collapse false (skipn input orig)) /\
            length (O1 ++ collapse false (skipn input orig)) <= length orig).
      { intros O1 tr1 HO1 Hg1 Hl1. rewrite (read_content orig O1 input c tr1 HO1 Ec).
        rewrite write_content by lia. cbn [b_data]. rewrite content_length by (rewrite app_length; cbn; lia).
        destruct (find_if_content orig (O1 ++ [c]) is_ident_continue) with (fuel := length orig) (i := S input)
          (tr := (tr1 ++ [Rd input c]) ++ [Wr (length O1) c]) as (tr2 & E2 & Hg2 & Hl2).
        { rewrite app_length; cbn; lia. } { rewrite app_length; cbn; lia. } { lia. }
        rewrite E2. set (k := length (take_while _ _)) in *.
        assert (Hk : S input + k <= length orig).
        { pose proof (take_drop_while (fun c0 => negb (is_ident_continue c0)) (skipn (S input) orig)) as Et.
          apply (f_equal (@length ascii)) in Et. rewrite app_length, skipn_length in Et. unfold k. lia. }
        replace (S (length O1)) with (length (O1 ++ [c])) by (rewrite app_length; cbn; lia).
        assert (Hhd : skipn (S input + k) orig = drop_while not_continue (skipn (S input) orig)).
        { rewrite <- skipn_skipn_add. apply skipn_take_while. }
        destruct (IH (O1 ++ [c]) (S input + k) (S input) (((tr1 ++ [Rd input c]) ++ [Wr (length O1) c]) ++ tr2)) as (tr' & E & Hg' & Hl' & Hl'').
        { rewrite app_length; cbn; lia. } { lia. } { lia. }
        { intros c' Ec'. rewrite (skipn_cons_nth _ _ _ Ec') in Hhd. symmetry in Hhd. apply drop_while_head in Hhd.
          apply not_continue_false, Hhd. }
        { rewrite !app_length. cbn [length]. lia. }
        { rewrite !Forall_app. repeat split; try assumption; constructor; try constructor; cbn; try exact Ec; lia. }
        assert (Etodo : (O1 ++ [c]) ++ todo orig (S input + k) (S input) = O1 ++ collapse false (skipn input orig)).
        { rewrite <- app_assoc. f_equal. rewrite (skipn_cons_nth _ _ _ Ec). cbn [collapse]. rewrite Hv. cbn [app]. f_equal.
          unfold todo. rewrite Hhd.
          pose proof (take_drop_while not_continue (skipn (S input) orig)) as Et.
          assert (Ek : k = length (take_while not_continue (skipn (S input) orig))) by reflexivity.
          destruct (Nat.eqb_spec (S input + k) (S input)) as [E0|E0].
          - cbn [app]. assert (E1 : take_while not_continue (skipn (S input) orig) = []).
            { apply length_zero_iff_nil. rewrite <- Ek. lia. }
            rewrite E1 in Et. cbn [app] in Et. rewrite Et. reflexivity.
          - rewrite <- Et at 2. rewrite collapse_run; [reflexivity| |apply take_while_forallb|apply drop_while_stops'].
            intros E1. rewrite E1 in Ek. cbn [length] in Ek. lia. }
        exists tr'. rewrite E. rewrite Etodo in *. repeat split; try assumption. }
      unfold todo. destruct (Nat.eqb_spec input last) as [->|Hil].
      * cbn [app]. apply Hcont; [exact HO|exact Hg|]. destruct (Nat.eqb_spec last (length orig)); lia.
      * rewrite write_content by lia. replace (S (length O)) with (length (O ++ [underscore])) by (rewrite app_length; cbn; lia).
        rewrite app_assoc. apply Hcont.
        { rewrite app_length; cbn; lia. }
        { apply Forall_app. split; [exact Hg|]. constructor; [cbn; lia|constructor]. }
        { rewrite !app_length. cbn [length]. lia. }
Qed.

Lemma make_valid_identifier_run_spec s : exists tr, make_valid_identifier_run s = Some (conv s, tr) /\
  Forall (good_access s) tr /\ length tr <= 2 * length s + length (conv s) /\ length (conv s) <= length s.
Proof.
  unfold make_valid_identifier_run.
  destruct (find_if_content s [] is_ident_start ltac:(cbn; lia) (length s) 0 [] ltac:(cbn; lia) ltac:(lia)) as (tr & E & Hg & Hl).
  cbn [skipn app length content] in E, Hg, Hl. unfold content in E. cbn [app length skipn] in E. rewrite E. cbn [Nat.add] in *.
  set (k := length (take_while _ s)) in *.
  assert (Hhd : skipn k s = drop_while not_start s) by apply skipn_take_while.
  assert (Hk : k <= length s).
  { pose proof (take_drop_while not_start s) as Et. apply (f_equal (@length ascii)) in Et. rewrite app_length in Et. unfold k.
    change (fun c => negb (is_ident_start c)) with not_start. lia. }
  destruct (convert_loop_content s (length s) [] k 0 tr) as (tr' & E' & Hg' & Hl' & Hl'').
  { cbn; lia. } { lia. } { lia. }
  { intros c Ec. rewrite (skipn_cons_nth _ _ _ Ec) in Hhd. symmetry in Hhd. apply drop_while_head in Hhd.
    apply start_continue, not_start_false, Hhd. }
  { cbn [length]. lia. } { exact Hg. }
  unfold content in E'. cbn [app length skipn] in E', Hl', Hl''.
  assert (Ec : todo s k 0 = conv s).
  { unfold todo, conv. rewrite Hhd. f_equal. unfold k. change (fun c => negb (is_ident_start c)) with not_start.
    destruct (take_while not_start s); reflexivity. }
  rewrite Ec in *. exists tr'. auto.
Qed.

Lemma make_valid_identifier_conv s : make_valid_identifier s = conv s.
Proof. unfold make_valid_identifier. destruct (make_valid_identifier_run_spec s) as (tr & -> & _). reflexivity. Qed.

Lemma make_valid_identifier_spec s t : make_valid_identifier s = t <-> converted s t.
Proof. rewrite make_valid_identifier_conv, converted_conv. split; congruence. Qed.

Lemma collapse_valid b s : forallb is_ident_continue (collapse b s) = true.
Proof.
  revert b. induction s as [|c s IH]; intros b; [reflexivity|]. cbn [collapse].
  destruct (is_ident_continue c) eqn:E; [cbn [forallb]; rewrite E; apply IH|]. destruct b; [apply IH|]. cbn [forallb]. rewrite IH. reflexivity.
Qed.

Lemma is_valid_identifier_iff s : is_valid_identifier s = true <-> identifier s.
Proof.
  unfold is_valid_identifier, identifier. destruct s as [|c r]; [split; [discriminate|intros (c & r & [=] & _)]|].
  rewrite andb_true_iff. split; [intros [H1 H2]; eauto|]. intros (c' & r' & [= <- <-] & H1 & H2). auto.
Qed.

Lemma conv_identifier s : s <> [] -> identifier (conv s).
Proof.
  intros Hne. unfold conv. destruct (take_while not_start s) as [|c run] eqn:Et.
  - assert (E : drop_while not_start s = s) by (rewrite <- (take_drop_while not_start s) at 2; rewrite Et; reflexivity).
    rewrite E. destruct s as [|c s]; [congruence|]. pose proof (drop_while_head _ _ _ _ E) as Hc. apply not_start_false in Hc.
    cbn [app collapse]. rewrite (start_continue c Hc). exists c, (collapse false s). split; [reflexivity|]. split; [exact Hc|apply collapse_valid].
  - cbn [app]. eexists _, _. split; [reflexivity|]. split; [reflexivity|apply collapse_valid].
Qed.

Lemma collapse_id s : forallb is_ident_continue s = true -> collapse false s = s.
Proof.
  induction s as [|c s IH]; cbn [forallb collapse]; [reflexivity|]. rewrite andb_true_iff. intros [-> H]. rewrite IH by exact H. reflexivity.
Qed.

Lemma conv_id s : identifier s -> conv s = s.
Proof.
  intros (c & r & -> & Hc & Hr). unfold conv. assert (Hn : not_start c = false) by (apply not_start_false, Hc).
  cbn [take_while drop_while]. rewrite Hn. cbn [app]. apply collapse_id. cbn [forallb]. rewrite (start_continue c Hc). exact Hr.
Qed.

Lemma make_id_empty : make_valid_identifier [] = [].
Proof. reflexivity. Qed.

Lemma make_id_valid s : s <> [] -> identifier (make_valid_identifier s).
Proof. intros H. rewrite make_valid_identifier_conv. apply conv_identifier, H. Qed.

Lemma make_id_unchanged s : identifier s -> make_valid_identifier s = s.
Proof. intros H. rewrite make_valid_identifier_conv. apply conv_id, H. Qed.

Lemma make_id_idempotent s : make_valid_identifier (make_valid_identifier s) = make_valid_identifier s.
Proof.
  destruct s as [|c s]; [reflexivity|]. apply make_id_unchanged, make_id_valid. discriminate.
Qed.

(** * String literals *)

Lemma literal_body_escape c : forall f s, literal_body (S f) (escape_char c ++ s) = cons_byte (code c) (literal_body f s).
Proof.
  intros f s. unfold escape_char.
  destruct (N.eqb_spec (code c) 92) as [E|N1]; [rewrite E; reflexivity|].
  destruct (N.eqb_spec (code c) 9) as [E|N2]; [rewrite E; reflexivity|].
  destruct (N.eqb_spec (code c) 10) as [E|N3]; [rewrite E; reflexivity|].
  destruct (N.eqb_spec (code c) 34) as [E|N4]; [rewrite E; reflexivity|].
  destruct ((32 <=? code c) && (code c <=? 126))%N eqn:Hp.
  - cbn [app literal_body]. destruct (N.eqb_spec (code c) 34); [lia|].
    destruct (N.eqb_spec (code c) 10); [lia|]. destruct (N.eqb_spec (code c) 13); [lia|].
    destruct (N.eqb_spec (code c) 92); [lia|]. reflexivity.
  - cbn [app literal_body].
    assert (Ho : forall n, is_octal (octal_digit n) = true /\ octal_value (octal_digit n) = (n mod 8)%N).
    { intros n. unfold is_octal, in_range, octal_value, octal_digit. assert (n mod 8 < 8)%N by (apply N.mod_lt; lia).
      rewrite code_ascii by lia. lia. }
    change (code (ascii_of_N 92) =? 34)%N with false. change (code (ascii_of_N 92) =? 10)%N with false.
    change (code (ascii_of_N 92) =? 13)%N with false. change (code (ascii_of_N 92) =? 92)%N with true. cbn [orb].
    destruct (Ho (code c / 64)%N) as [O1 V1]. destruct (Ho (code c / 8)%N) as [O2 V2]. destruct (Ho (code c)) as [O3 V3].
    rewrite O1. cbn [firstn take_while]. rewrite O2, O3. cbn [length skipn fold_left]. rewrite V1, V2, V3.
    replace (((0 * 8 + (code c / 64) mod 8) * 8 + (code c / 8) mod 8) * 8 + code c mod 8)%N with (code c); [reflexivity|].
    pose proof (code_bound c).
    assert (E1 : (code c / 64 < 8)%N) by (apply N.div_lt_upper_bound; lia).
    rewrite (N.mod_small (code c / 64) 8) by exact E1.
    assert (E2 : (code c / 64 = code c / 8 / 8)%N) by (rewrite N.div_div by lia; reflexivity).
    pose proof (N.div_mod (code c) 8 ltac:(lia)). pose proof (N.div_mod (code c / 8) 8 ltac:(lia)). lia.
Qed.

Lemma byte_code c : byte (code c) = Some c.
Proof.
  unfold byte. pose proof (code_bound c). destruct (N.ltb_spec (code c) 256); [|lia].
  f_equal. apply ascii_N_embedding.
Qed.

Lemma literal_body_escaped s : forall f rest, length s < f ->
  literal_body f (write_escaped s ++ quote :: rest) = Some (s, rest).
Proof.
  induction s as [|c s IH]; intros f rest Hf.
  - destruct f as [|f]; [cbn in Hf; lia|]. reflexivity.
  - destruct f as [|f]; [cbn in Hf; lia|]. change (write_escaped (c :: s)) with (escape_char c ++ write_escaped s).
    rewrite <- app_assoc, literal_body_escape, IH by (cbn in Hf; lia). unfold cons_byte. rewrite byte_code. reflexivity.
Qed.

Lemma string_literal_denotes s rest : read_cpp_literal (emit_string_literal s ++ rest) = Some (s, rest).
Proof.
  unfold emit_string_literal. cbn [app]. rewrite <- app_assoc. cbn [app]. unfold read_cpp_literal.
  change (code quote =? 34)%N with true. cbn iota. apply literal_body_escaped.
  rewrite app_length. cbn [length]. pose proof (write_escaped_length s). lia.
Qed.

(** Every emitted character is printable ASCII. *)
Lemma escape_char_printable c : Forall (fun d => (32 <= code d <= 126)%N) (escape_char c).
Proof.
  unfold escape_char.
  destruct (N.eqb_spec (code c) 92); [repeat constructor; cbn; lia|].
  destruct (N.eqb_spec (code c) 9); [repeat constructor; cbn; lia|].
  destruct (N.eqb_spec (code c) 10); [repeat constructor; cbn; lia|].
  destruct (N.eqb_spec (code c) 34); [repeat constructor; cbn; lia|].
  destruct ((32 <=? code c) && (code c <=? 126))%N eqn:Hp; [repeat constructor; lia|].
  assert (Ho : forall m, (32 <= code (octal_digit m) <= 126)%N).
  { intros m. unfold octal_digit. assert (m mod 8 < 8)%N by (apply N.mod_lt; lia). rewrite code_ascii by lia. lia. }
  constructor; [cbn; lia|]. repeat constructor; apply Ho.
Qed.

Lemma string_literal_printable s : Forall (fun d => (32 <= code d <= 126)%N) (emit_string_literal s).
Proof.
  unfold emit_string_literal. constructor; [cbn; lia|]. apply Forall_app. split; [|constructor; [cbn; lia|constructor]].
  unfold write_escaped. induction s as [|c s IH]; [constructor|]. cbn [flat_map]. apply Forall_app. split; [apply escape_char_printable|exact IH].
Qed.

Lemma conversion_in_place name : exists trace, make_valid_identifier_run name = Some (make_valid_identifier name, trace) /\
    (forall i c, In (Rd i c) trace -> nth_error name i = Some c) /\
    (forall i c, In (Wr i c) trace -> i < length name) /\
    length (make_valid_identifier name) <= length name /\
    length trace <= 3 * length name.
Proof.
  destruct (make_valid_identifier_run_spec name) as (tr & E & Hg & Hl & Hl'). rewrite make_valid_identifier_conv.
  exists tr. rewrite Forall_forall in Hg. repeat split; [exact E| | |exact Hl'|lia].
  - intros i c H. exact (Hg _ H).
  - intros i c H. exact (Hg _ H).
Qed.
