(** * Proofs about the generated text *)
From Coq Require Import DecimalString.
From Verif Require Import Base ParserModel StringModel StringSpec StringProofs AnnotModel GraphModel EmitModel ModuleModel TextModel TextSpec.

(** ** The lexer is deterministic, and tokens of parts are parts of the tokens *)

Lemma step_quote st c : ch 34 c = true -> step st c = None.
Proof. intro H. unfold step. now rewrite H. Qed.
Lemma step_apostrophe st c : ch 39 c = true -> step st c = None.
Proof. intro H. unfold step. rewrite H. now rewrite orb_true_r. Qed.

Lemma literal_starts s bytes rest : read_cpp_literal s = Some (bytes, rest) -> exists c r, s = c :: r /\ ch 34 c = true.
Proof. destruct s as [|c r]; cbn; [discriminate|]. unfold ch. destruct (code c =? 34)%N eqn:E; [|discriminate]. eauto. Qed.

Lemma ch_unique n m c : ch n c = true -> ch m c = true -> n = m.
Proof. unfold ch. intros H1%N.eqb_eq H2%N.eqb_eq. congruence. Qed.

Theorem scans_deterministic st s st1 ts1 : scans st s st1 ts1 -> forall st2 ts2, scans st s st2 ts2 -> st1 = st2 /\ ts1 = ts2.
Proof.
  induction 1 as [st|st c s st1 st2 ts Hs _ IH|st s bytes rest st2 ts Hr Hp Hl _ IH|st c s body rest st2 ts Hc Hd Hp Hb Hl _ IH]; intros st3 ts3 H.
  - inversion H; subst; auto. match goal with E : read_cpp_literal [] = _ |- _ => discriminate E end.
  - inversion H as [|? ? ? st1' ? ts' Hs' H'|? ? bytes rest ? ? Hr Hp Hl H'|? ? ? body rest ? ? Hc Hd Hp Hb Hl H']; subst.
    + rewrite Hs in Hs'. injection Hs' as <-. destruct (IH _ _ H') as [-> ->]. auto.
    + destruct (literal_starts _ _ _ Hl) as (c' & r & E & Hq). injection E as <- _. rewrite step_quote in Hs by assumption. discriminate.
    + rewrite step_apostrophe in Hs by assumption. discriminate.
  - inversion H as [|? ? ? st1' ? ts' Hs' H'|? ? bytes' rest' ? ? Hr' Hp' Hl' H'|? ? ? body' rest' ? ? Hc' Hd' Hp' Hb' Hl' H']; subst.
    + discriminate Hl.
    + destruct (literal_starts _ _ _ Hl) as (c' & r & E & Hq). injection E as <- _. rewrite step_quote in Hs' by assumption. discriminate.
    + rewrite Hl in Hl'. injection Hl' as <- <-. destruct (IH _ _ H') as [-> ->]. auto.
    + destruct (literal_starts _ _ _ Hl) as (c' & r & E & Hq). injection E as <- _. discriminate (ch_unique _ _ _ Hq Hc').
  - inversion H as [|? ? ? st1' ? ts' Hs' H'|? ? bytes' rest' ? ? Hr' Hp' Hl' H'|? ? ? body' rest' ? ? Hc' Hd' Hp' Hb' Hl' H']; subst.
    + rewrite step_apostrophe in Hs' by assumption. discriminate.
    + destruct (literal_starts _ _ _ Hl') as (c' & r & E & Hq). injection E as <- _. discriminate (ch_unique _ _ _ Hq Hc).
    + rewrite Hl in Hl'. injection Hl' as <- <-. destruct (IH _ _ H') as [-> ->]. auto.
Qed.

(** A literal that ends does so whatever follows. *)
Lemma cons_byte_some n r bs rest : cons_byte n r = Some (bs, rest) ->
  exists c bs', byte n = Some c /\ r = Some (bs', rest) /\ bs = c :: bs'.
Proof.
  unfold cons_byte. destruct (byte n) as [c|]; [|discriminate]. destruct r as [[bs' rest']|]; [|discriminate].
  intros [= <- <-]. eauto.
Qed.

Lemma take_while_all {A} (f : A -> bool) l : length (take_while f l) <= length l.
Proof. induction l as [|a l IH]; cbn; [lia|]. destruct (f a); cbn; lia. Qed.

Lemma skipn_take_while {A} (f : A -> bool) (l : list A) : skipn (length (take_while f l)) l = [] \/ exists a r, skipn (length (take_while f l)) l = a :: r /\ f a = false.
Proof. induction l as [|a l IH]; cbn; [auto|]. destruct (f a) eqn:E; cbn; [exact IH|]. right. eauto. Qed.

Lemma take_while_app {A} (f : A -> bool) (l t : list A) : skipn (length (take_while f l)) l <> [] -> take_while f (l ++ t) = take_while f l.
Proof. induction l as [|a l IH]; cbn; [congruence|]. destruct (f a); cbn; [|reflexivity]. intro H. now rewrite IH. Qed.

Lemma skipn_app_le {A} n (l t : list A) : n <= length l -> skipn n (l ++ t) = skipn n l ++ t.
Proof. intro H. rewrite skipn_app. replace (n - length l) with 0 by lia. reflexivity. Qed.

Lemma literal_body_nonempty f bs rest : literal_body f [] <> Some (bs, rest).
Proof. destruct f; discriminate. Qed.

Lemma literal_body_app f : forall s bs rest, literal_body f s = Some (bs, rest) ->
  forall f' t, f <= f' -> literal_body f' (s ++ t) = Some (bs, rest ++ t).
Proof.
  induction f as [|f IH]; [discriminate|]. intros s bs rest H f' t Hf. destruct f' as [|f']; [lia|]. assert (Hf' : f <= f') by lia.
  destruct s as [|c r]; [discriminate H|]. cbn [app literal_body] in *.
  destruct (code c =? 34)%N; [now injection H as <- <-|].
  destruct ((code c =? 10)%N || (code c =? 13)%N); [discriminate H|].
  destruct (code c =? 92)%N.
  2:{ apply cons_byte_some in H as (d & bs' & Hb & H & ->). rewrite (IH _ _ _ H f' t Hf'). unfold cons_byte. now rewrite Hb. }
  destruct r as [|e r1]; [discriminate H|]. cbn [app].
  destruct (is_octal e).
  - apply cons_byte_some in H as (d & bs' & Hb & H & ->).
    set (ds := take_while is_octal (firstn 2 r1)) in *.
    assert (Hne : skipn (length ds) r1 <> []) by (intro E; rewrite E in H; now apply literal_body_nonempty in H).
    assert (Hle : length ds <= length r1).
    { unfold ds. pose proof (take_while_all is_octal (firstn 2 r1)). rewrite firstn_length in *. lia. }
    assert (E : take_while is_octal (firstn 2 (r1 ++ t)) = ds).
    { unfold ds in *. destruct r1 as [|x [|y r1]]; [now elim Hne| |reflexivity].
      cbn [firstn take_while length skipn app] in Hne |- *. destruct (is_octal x) eqn:Ex; [now elim Hne|].
      destruct t as [|y t]; reflexivity. }
    rewrite E, skipn_app_le by exact Hle. rewrite (IH _ _ _ H f' t Hf'). unfold cons_byte. now rewrite Hb.
  - destruct (code e =? 120)%N.
    + set (ds := take_while is_hex r1) in *. destruct ds as [|x ds'] eqn:Ed; [discriminate H|].
      apply cons_byte_some in H as (d & bs' & Hb & H & ->).
      assert (Hne : skipn (length (x :: ds')) r1 <> []) by (intro E; rewrite E in H; now apply literal_body_nonempty in H).
      assert (Ed' : take_while is_hex (r1 ++ t) = x :: ds').
      { rewrite <- Ed. apply take_while_app. fold ds. now rewrite Ed. }
      rewrite Ed'. assert (Hle : length (x :: ds') <= length r1) by (rewrite <- Ed; apply take_while_all).
      rewrite skipn_app_le by exact Hle. rewrite (IH _ _ _ H f' t Hf'). unfold cons_byte. now rewrite Hb.
    + destruct (simple_escape e); [|discriminate H].
      apply cons_byte_some in H as (d & bs' & Hb & H & ->). rewrite (IH _ _ _ H f' t Hf'). unfold cons_byte. now rewrite Hb.
Qed.

Lemma read_literal_app s bytes rest t : read_cpp_literal s = Some (bytes, rest) -> read_cpp_literal (s ++ t) = Some (bytes, rest ++ t).
Proof.
  destruct s as [|c r]; [discriminate|]. cbn [read_cpp_literal app]. destruct (code c =? 34)%N; [|discriminate].
  intro H. apply (literal_body_app _ _ _ _ H). rewrite app_length. lia.
Qed.

Lemma char_body_app : forall n s, length s <= n -> forall body rest, char_body s = Some (body, rest) -> forall t, char_body (s ++ t) = Some (body, rest ++ t).
Proof.
  induction n as [|n IH]; intros [|c s] Hn body rest H t; try discriminate H; [cbn in Hn; lia|]. cbn [char_body app] in *.
  destruct (ch 39 c); [now injection H as <- <-|]. destruct (ch 10 c || ch 13 c); [discriminate H|].
  destruct (ch 92 c).
  - destruct s as [|e s]; [discriminate H|]. cbn [app]. destruct (ch 10 e || ch 13 e); [discriminate H|].
    destruct (char_body s) as [[b r]|] eqn:E; [|discriminate H]. cbn in H. injection H as <- <-.
    rewrite (IH s ltac:(cbn in Hn; lia) _ _ E t). reflexivity.
  - destruct (char_body s) as [[b r]|] eqn:E; [|discriminate H]. cbn in H. injection H as <- <-.
    rewrite (IH s ltac:(cbn in Hn; lia) _ _ E t). reflexivity.
Qed.

Lemma scans_app st s st1 ts : scans st s st1 ts -> forall s' st2 ts', scans st1 s' st2 ts' -> scans st (s ++ s') st2 (ts ++ ts').
Proof.
  induction 1 as [st|st c s st1 st2 ts Hs _ IH|st s bytes rest st2 ts Hr Hp Hl _ IH|st c s body rest st2 ts Hc Hd Hp Hb Hl _ IH]; intros s' st3 ts' H'; cbn [app].
  - assumption.
  - eapply sc_sym; eauto.
  - eapply sc_lit; eauto using read_literal_app.
  - eapply sc_chr; eauto. now apply (char_body_app _ _ (le_n _)).
Qed.

(** ** Brackets *)

(** Position: brackets to be closed, or the end of a statement. *)
Inductive pos := Open (stk : list ascii) | Semi | Done.

Definition closer (c : ascii) : option ascii :=
  if ch 40 c then Some ")"%char else if ch 91 c then Some "]"%char else if ch 123 c then Some "}"%char else None.

Definition walk1 (p : pos) (t : token) : option pos :=
  match p, t with
  | Open stk, Sym c =>
      match closer c with
      | Some d => Some (Open (d :: stk))
      | None =>
          if is_bracket t then match stk with d :: stk' => if Ascii.eqb d c then Some (Open stk') else None | [] => None end
          else if ch 59 c then match stk with [] => Some Semi | _ => Some p end
          else Some p
      end
  | Open _, _ => Some p
  | Semi, Sym c => if ch 10 c then Some Done else None
  | _, _ => None
  end.

Fixpoint walk (p : pos) (ts : list token) : option pos :=
  match ts with [] => Some p | t :: ts' => match walk1 p t with Some p' => walk p' ts' | None => None end end.

Lemma walk_app p ts ts' : walk p (ts ++ ts') = match walk p ts with Some p' => walk p' ts' | None => None end.
Proof. revert p. induction ts as [|t ts IH]; intro p; cbn; [reflexivity|]. destruct (walk1 p t); auto. Qed.

Lemma ch_char n c : ch n c = true -> (n < 256)%N -> c = ascii_of_N n.
Proof. unfold ch. intros H%N.eqb_eq _. rewrite <- H. symmetry. apply ascii_N_embedding. Qed.

Lemma closer_pair c d : closer c = Some d -> pair c d.
Proof.
  unfold closer. destruct (ch 40 c) eqn:E1; [|destruct (ch 91 c) eqn:E2; [|destruct (ch 123 c) eqn:E3; [|discriminate]]];
    intros [= <-]; [apply ch_char in E1|apply ch_char in E2|apply ch_char in E3]; try lia; subst; constructor.
Qed.

Lemma pair_closer c d : pair c d -> closer c = Some d.
Proof. now intros []. Qed.

Lemma walk1_close c d stk : pair c d -> walk1 (Open (d :: stk)) (Sym d) = Some (Open stk).
Proof. now intros []. Qed.

Lemma walk1_other stk t : is_bracket t = false -> t <> semicolon \/ stk <> [] -> walk1 (Open stk) t = Some (Open stk).
Proof.
  intros Hb Hs. destruct t as [c|p b|b]; try reflexivity. cbn [walk1]. rewrite Hb.
  assert (E : closer c = None).
  { cbn in Hb. unfold closer. repeat (apply orb_false_elim in Hb as [Hb ?]). now rewrite Hb, H1, H3 || (destruct (ch 40 c), (ch 91 c), (ch 123 c); congruence). }
  rewrite E. destruct (ch 59 c) eqn:E'; [|reflexivity]. destruct stk; [|reflexivity].
  destruct Hs as [Hs|Hs]; [|congruence]. elim Hs. apply ch_char in E'; [|lia]. now subst.
Qed.

Lemma walk_nested ts : nested ts -> forall d stk, walk (Open (d :: stk)) ts = Some (Open (d :: stk)).
Proof.
  induction 1 as [|t ts Hb _ IH|o c ts ts' Hp _ IH1 _ IH2]; intros d stk; [reflexivity| |].
  - cbn [walk]. rewrite walk1_other by (auto; now right). apply IH.
  - cbn [walk walk1]. rewrite (pair_closer _ _ Hp), walk_app, IH1. cbn [walk]. rewrite (walk1_close _ _ _ Hp). apply IH2.
Qed.

Lemma walk_closed ts : closed ts -> forall stk, walk (Open stk) ts = Some (Open stk).
Proof.
  induction 1 as [|t ts Hb Hs _ IH|o c ts ts' Hp Hn _ IH]; intro stk; [reflexivity| |].
  - cbn [walk]. rewrite walk1_other by auto. apply IH.
  - cbn [walk walk1]. rewrite (pair_closer _ _ Hp), walk_app, (walk_nested _ Hn). cbn [walk]. rewrite (walk1_close _ _ _ Hp). apply IH.
Qed.

Definition final (e : pos) : Prop := match e with Open (_ :: _) => False | _ => True end.

(** Cases of [walk1]. *)
Lemma walk1_cases stk t p : walk1 (Open stk) t = Some p ->
  (exists c d, t = Sym c /\ pair c d /\ p = Open (d :: stk)) \/
  (exists d stk', t = Sym d /\ stk = d :: stk' /\ p = Open stk') \/
  (is_bracket t = false /\ p = Open stk /\ (t = semicolon -> stk <> [])) \/
  (t = semicolon /\ stk = [] /\ p = Semi).
Proof.
  destruct t as [c|x b|b]; cbn [walk1].
  - destruct (closer c) as [d|] eqn:E; [intros [= <-]; left; eauto 6 using closer_pair|].
    destruct (is_bracket (Sym c)) eqn:Eb.
    + destruct stk as [|d stk']; [discriminate|]. destruct (Ascii.eqb d c) eqn:Ed; [|discriminate]. intros [= <-].
      apply Ascii.eqb_eq in Ed as ->. right. left. eauto.
    + destruct (ch 59 c) eqn:E9.
      * apply ch_char in E9; [|lia]. subst c. destruct stk as [|d stk'].
        -- intros [= <-]. right. right. right. auto.
        -- intros [= <-]. right. right. left. repeat split; auto. discriminate.
      * intros [= <-]. right. right. left. repeat split; auto. intros [= ->]. discriminate E9.
  - intros [= <-]. right. right. left. repeat split; auto. discriminate.
  - intros [= <-]. right. right. left. repeat split; auto. discriminate.
Qed.

Lemma walk_pop e : final e -> forall n ts d stk, length ts <= n -> walk (Open (d :: stk)) ts = Some e ->
  exists ts0 ts1, ts = ts0 ++ Sym d :: ts1 /\ nested ts0 /\ walk (Open stk) ts1 = Some e.
Proof.
  intro He. induction n as [|n IH]; intros [|t ts] d stk Hn H; cbn in Hn; try lia; try (injection H as <-; now elim He).
  cbn [walk] in H. destruct (walk1 (Open (d :: stk)) t) as [p|] eqn:E; [|discriminate H].
  apply walk1_cases in E as [(c & d' & -> & Hp & ->)|[(d' & stk' & -> & [= <- <-] & ->)|[(Hb & -> & Hs)|(-> & Hx & ->)]]]; [| | |discriminate Hx].
  - apply IH in H as (a & b & -> & Ha & H); [|lia]. rewrite app_length in Hn. cbn in Hn. apply IH in H as (ts0 & ts1 & -> & H0 & H1); [|lia].
    exists (Sym c :: a ++ Sym d' :: ts0), ts1. cbn. rewrite <- app_assoc. cbn. repeat split; auto. now constructor.
  - exists [], ts. repeat split; auto. constructor.
  - apply IH in H as (ts0 & ts1 & -> & H0 & H1); [|lia]. exists (t :: ts0), ts1. repeat split; auto. now constructor.
Qed.

Lemma walk_head e : final e -> forall n ts, length ts <= n -> walk (Open []) ts = Some e ->
  (e = Open [] /\ closed ts) \/ (exists h ts', ts = h ++ semicolon :: ts' /\ closed h /\ walk Semi ts' = Some e).
Proof.
  intro He. induction n as [|n IH]; intros [|t ts] Hn H; cbn in Hn; try lia; try (injection H as <-; left; split; [reflexivity|constructor]).
  cbn [walk] in H. destruct (walk1 (Open []) t) as [p|] eqn:E; [|discriminate H].
  apply walk1_cases in E as [(c & d' & -> & Hp & ->)|[(d' & stk' & -> & Hx & ->)|[(Hb & -> & Hs)|(-> & Hx & ->)]]]; [|discriminate Hx| |].
  - apply (walk_pop e He _ _ _ _ (le_n _)) in H as (a & b & -> & Ha & H). rewrite app_length in Hn. cbn in Hn.
    apply IH in H as [[-> Hc]|(h & ts' & -> & Hh & H)]; [| |lia].
    + left. split; [reflexivity|]. now constructor.
    + right. exists (Sym c :: a ++ Sym d' :: h), ts'. cbn. rewrite <- app_assoc. repeat split; auto. now constructor.
  - apply IH in H as [[-> Hc]|(h & ts' & -> & Hh & H)]; [| |lia].
    + left. split; [reflexivity|]. constructor; auto. intros ->. now elim Hs.
    + right. exists (t :: h), ts'. repeat split; auto. constructor; auto. intros ->. now elim Hs.
  - right. exists [], ts. repeat split; auto. constructor.
Qed.

Lemma walk_statement ts : walk (Open []) ts = Some Done -> is_statement ts.
Proof.
  intro H. apply (walk_head Done I _ _ (le_n _)) in H as [[Hx _]|(h & ts' & -> & Hh & H)]; [discriminate Hx|].
  exists h. split; [assumption|]. f_equal. f_equal.
  destruct ts' as [|t ts']; [discriminate H|]. cbn in H. destruct t as [c|x b|b]; try discriminate H.
  destruct (ch 10 c) eqn:E; [|discriminate H]. apply ch_char in E; [|lia]. subst c.
  destruct ts' as [|t ts']; [reflexivity|]. destruct t; discriminate H.
Qed.

Lemma walk_is_closed ts : walk (Open []) ts = Some (Open []) -> closed ts.
Proof.
  intro H. apply (walk_head (Open []) I _ _ (le_n _)) in H as [[_ Hc]|(h & ts' & -> & Hh & H)]; [assumption|].
  destruct ts' as [|t ts']; [discriminate H|]. cbn in H. destruct t as [c|x b|b]; try discriminate H.
  destruct (ch 10 c); [|discriminate H]. destruct ts' as [|t ts']; [discriminate H|]. destruct t; discriminate H.
Qed.

(** ** Composition *)

Definition chunk (P : lexer -> Prop) (p0 : pos) (s : str) (Q : lexer -> Prop) (p1 : pos) (ls : list (str * str)) : Prop :=
  forall st, P st -> exists st' ts, scans st s st' ts /\ Q st' /\ walk p0 ts = Some p1 /\ strings ts = ls.

Definition exact (q : pending) (st : lexer) : Prop := st = mkLexer [] q.
Definition Tight (st : lexer) : Prop := lx_pending st = PNone.
Definition Loose (st : lexer) : Prop := match lx_pending st with PNone | PSlash | PLess | PPercent => True | _ => False end.
Definition Ends (st : lexer) : Prop := exact PLess st \/ Tight st.

Lemma chunk_app P p0 s Q p1 ls s' R p2 ls' :
  chunk P p0 s Q p1 ls -> chunk Q p1 s' R p2 ls' -> chunk P p0 (s ++ s') R p2 (ls ++ ls').
Proof.
  intros H1 H2 st Hp. destruct (H1 st Hp) as (st1 & ts1 & S1 & HQ & W1 & L1). destruct (H2 st1 HQ) as (st2 & ts2 & S2 & HR & W2 & L2).
  exists st2, (ts1 ++ ts2). repeat split; auto.
  - eapply scans_app; eassumption.
  - now rewrite walk_app, W1.
  - unfold strings. rewrite flat_map_app. fold (strings ts1) (strings ts2). congruence.
Qed.

Lemma chunk_nil P p : chunk P p [] P p [].
Proof. intros st H. exists st, []. repeat split; auto. constructor. Qed.

Lemma chunk_weaken P p0 s Q p1 ls (P' Q' : lexer -> Prop) ls' :
  chunk P p0 s Q p1 ls -> (forall st, P' st -> P st) -> (forall st, Q st -> Q' st) -> ls = ls' -> chunk P' p0 s Q' p1 ls'.
Proof. intros H HP HQ <- st Hp. destruct (H st (HP st Hp)) as (st' & ts & S & Hq & W & L). exists st', ts. auto. Qed.

Lemma exact_tight st : exact PNone st -> Tight st.
Proof. now intros ->. Qed.
Lemma tight_loose st : Tight st -> Loose st.
Proof. unfold Tight, Loose. now intros ->. Qed.
Lemma exact_loose st : exact PNone st -> Loose st.
Proof. intros ->. exact I. Qed.

(** Constant text. *)
Fixpoint run (st : lexer) (s : str) : option lexer :=
  match s with [] => Some st | c :: s' => match step st c with Some st' => run st' s' | None => None end end.

Lemma run_scans s : forall st st', run st s = Some st' -> scans st s st' (map Sym s).
Proof.
  induction s as [|c s IH]; cbn; intros st st' H; [injection H as <-; constructor|].
  destruct (step st c) as [st1|] eqn:E; [|discriminate H]. econstructor; eauto.
Qed.

Lemma strings_syms s : strings (map Sym s) = [].
Proof. induction s as [|c s IH]; [reflexivity|exact IH]. Qed.

Lemma chunk_const q p0 s st' p1 : run (mkLexer [] q) s = Some st' -> walk p0 (map Sym s) = Some p1 -> chunk (exact q) p0 s (eq st') p1 [].
Proof. intros H W st ->. exists st', (map Sym s). repeat split; auto using run_scans, strings_syms. Qed.

Lemma chunk_const_from (P : lexer -> Prop) p0 c s st' p1 :
  (forall st, P st -> step st c = Some (after fresh c)) -> run (after fresh c) s = Some st' ->
  walk p0 (map Sym (c :: s)) = Some p1 -> chunk P p0 (c :: s) (eq st') p1 [].
Proof.
  intros HP H W st Hst. exists st', (map Sym (c :: s)). repeat split; auto using strings_syms.
  apply run_scans. cbn. now rewrite (HP st Hst).
Qed.

Lemma step_tight c st : is_ident_continue c = false -> ch 34 c || ch 39 c || ch 92 c || ch 35 c = false -> Tight st -> step st c = Some (after fresh c).
Proof. unfold step, Tight. intros Hi Hq ->. rewrite Hq. unfold after. now rewrite Hi. Qed.

Definition separator (c : ascii) : bool := ch 44 c || ch 41 c || ch 59 c || ch 32 c.
Lemma separator_cases c : separator c = true -> c = ","%char \/ c = ")"%char \/ c = ";"%char \/ c = " "%char.
Proof.
  unfold separator. rewrite !orb_true_iff. intros [[[H|H]|H]|H]; apply ch_char in H; try lia; subst; auto.
Qed.

Lemma step_loose c st : separator c = true -> Loose st -> step st c = Some (after fresh c).
Proof.
  unfold Loose, step. intros H%separator_cases Hl. destruct H as [->|[->|[-> | ->]]]; destruct (lx_pending st); try reflexivity; destruct Hl.
Qed.

Lemma step_ends st : Ends st -> step st ">"%char = Some (after fresh ">"%char).
Proof. unfold Ends, Tight, step. intros [-> | ->]; reflexivity. Qed.

(** Pieces. *)
Lemma piece_from q p : begins p -> q = PNone \/ q = PLess \/ q = PColon -> forall st ts, scans fresh p st ts -> scans (mkLexer [] q) p st ts.
Proof.
  intros Hb Hq st ts H. destruct p as [|c r]; [destruct Hb|].
  inversion H as [|? ? ? st1 ? ts' Hs H'|? ? bytes rest ? ? Hr Hp Hl H'|? ? ? body rest ? ? Hc Hd Hp Hbo Hl H']; subst.
  - destruct Hb as [(E1 & E2 & E3)|(d & r' & E & Hd)].
    + apply sc_sym with st1; [|assumption]. revert Hs. unfold step. destruct (ch 34 c || ch 39 c || ch 92 c || ch 35 c); [discriminate|].
      cbn [lx_pending fresh]. intros [= <-]. destruct Hq as [->|[-> | ->]]; cbn [lx_pending]; rewrite ?E1, ?E2, ?E3; reflexivity.
    + injection E as -> ->. destruct Hq as [->|[-> | ->]]; [assumption| |].
      * cbn in Hs. injection Hs as <-. inversion H' as [|? ? ? st2 ? ts2 Hs2 H2|? ? bytes rest ? ? Hr Hp Hl ?|? ? ? body rest ? ? Hc ? Hp Hbo Hl ?]; subst;
          [|discriminate Hl|discriminate Hc].
        cbn in Hs2. injection Hs2 as <-. inversion H2 as [|? ? ? st3 ? ts3 Hs3 H3|? ? bytes rest ? ? Hr Hp Hl ?|? ? ? body rest ? ? Hc ? Hp Hbo Hl ?]; subst.
        -- apply sc_sym with (mkLexer [] PLessColon); [reflexivity|]. apply sc_sym with (mkLexer [] PLessColons); [reflexivity|].
           apply sc_sym with st3; [|assumption]. revert Hs3. unfold step. destruct (ch 34 d || ch 39 d || ch 92 d || ch 35 d); [discriminate|]. cbn [lx_pending].
           destruct (ch 62 d); [discriminate|]. intros [= <-].
           destruct (ch 58 d) eqn:E; [apply ch_char in E; [subst; discriminate Hd|lia]|]. reflexivity.
        -- exfalso. destruct (literal_starts _ _ _ Hl) as (c' & r & E & Eq). injection E as <- _. apply ch_char in Eq; [subst; discriminate Hd|lia].
        -- exfalso. apply ch_char in Hc; [subst; discriminate Hd|lia].
      * apply sc_sym with (mkLexer [] PColon); [reflexivity|]. cbn in Hs. injection Hs as <-. assumption.
  - refine (sc_lit (mkLexer [] q) (c :: r) bytes rest st ts0 _ _ _ _); auto. destruct Hq as [->|[-> | ->]]; discriminate.
  - apply sc_chr with rest; auto. destruct Hq as [->|[-> | ->]]; discriminate.
Qed.

Lemma chunk_piece (loose : bool) p ls q stk : piece loose p ls -> q = PNone \/ q = PLess \/ q = PColon ->
  chunk (exact q) (Open stk) p (if loose then Loose else Tight) (Open stk) ls.
Proof.
  intros (Hb & st' & ts & S & C & L & E) Hq st ->. exists st', ts. repeat split; auto using piece_from, walk_closed.
  destruct loose; unfold Loose, Tight; destruct (lx_pending st'); auto; congruence || easy.
Qed.

Lemma chunk_literal s q stk : q <> PLessColon -> chunk (exact q) (Open stk) (emit_string_literal s) (exact PNone) (Open stk) [ordinary s].
Proof.
  intros Hq st ->. exists fresh, [Lit [] s]. repeat split; auto.
  refine (sc_lit (mkLexer [] q) _ s [] fresh [] _ _ _ _); auto; [|constructor].
  rewrite <- (app_nil_r (emit_string_literal s)). apply string_literal_denotes.
Qed.

Lemma ident_not c : is_ident_continue c = true -> ch 34 c = false /\ ch 39 c = false /\ ch 92 c = false /\ ch 35 c = false /\ ch 47 c = false /\ ch 42 c = false /\
  ch 37 c = false /\ ch 58 c = false /\ ch 62 c = false /\ ch 59 c = false /\ closer c = None /\ is_bracket (Sym c) = false.
Proof. destruct c as [[] [] [] [] [] [] [] []]; intro H; vm_compute in H; try discriminate H; vm_compute; repeat split; reflexivity. Qed.

Lemma step_ident st c : is_ident_continue c = true -> lx_pending st <> PLessColon -> exists st', step st c = Some st' /\ lx_pending st' = PNone.
Proof.
  intros H Hp. destruct (ident_not c H) as (E1 & E2 & E3 & E4 & E5 & E6 & E7 & E8 & E9 & _). unfold step. rewrite E1, E2, E3, E4. cbn [orb].
  assert (E : lx_pending (after st c) = PNone) by (unfold after; now rewrite H).
  revert Hp. destruct (lx_pending st); intro Hp; rewrite ?E5, ?E6, ?E7, ?E8, ?E9; cbn [orb]; eauto; congruence.
Qed.

Lemma run_ident w : Forall (fun c => is_ident_continue c = true) w -> forall st, lx_pending st = PNone -> exists st', run st w = Some st' /\ lx_pending st' = PNone.
Proof.
  induction 1 as [|c w Hc _ IH]; intros st Hp; cbn; [eauto|].
  destruct (step_ident st c Hc) as (st' & -> & Hp'); [rewrite Hp; discriminate|]. now apply IH.
Qed.

Lemma walk_ident w : Forall (fun c => is_ident_continue c = true) w -> forall stk, walk (Open stk) (map Sym w) = Some (Open stk).
Proof.
  induction 1 as [|c w Hc _ IH]; intro stk; [reflexivity|]. cbn [map walk walk1].
  destruct (ident_not c Hc) as (_ & _ & _ & _ & _ & _ & _ & _ & _ & E & E1 & E2). rewrite E1, E2, E. apply IH.
Qed.

Lemma chunk_word w (P : lexer -> Prop) stk : word w -> (forall st, P st -> lx_pending st <> PLessColon) -> chunk P (Open stk) w Tight (Open stk) [].
Proof.
  intros [Hne Hw] HP st Hst. destruct w as [|c w]; [congruence|]. inversion Hw as [|? ? Hc Hw']; subst.
  destruct (step_ident st c Hc (HP st Hst)) as (st1 & E1 & P1). destruct (run_ident w Hw' st1 P1) as (st2 & E2 & P2).
  exists st2, (map Sym (c :: w)). repeat split; auto using walk_ident, strings_syms. apply run_scans. cbn. now rewrite E1.
Qed.

Lemma chunk_args l stk : template_args l -> chunk Loose (Open stk) l Tight (Open stk) [].
Proof.
  intros (r & st' & ts & -> & S & E & C & L) st Hst. exists st', ts. repeat split; auto using walk_closed.
  inversion S as [|? ? ? st1 ? ts' Hs H'|? ? bytes rest ? ? Hr Hp Hl H'|? ? ? body rest ? ? Hc Hd Hp Hbo Hl H']; subst; [|discriminate Hl|discriminate Hc].
  apply sc_sym with st1; [|assumption]. cbn in Hs. injection Hs as <-. unfold Loose in Hst. unfold step.
  destruct (lx_pending st); cbn; try reflexivity; destruct Hst.
Qed.

Lemma block_closed ts : is_block ts -> closed ts.
Proof. intros (b & Hb & ->). apply cl_group; [constructor|assumption|]. repeat constructor. discriminate. Qed.

Lemma scans_last st s st' ts : scans st s st' ts -> forall ts' c, ts = ts' ++ [Sym c] -> exists st0, step st0 c = Some st'.
Proof.
  induction 1 as [st|st c s st1 st2 ts Hs H IH|st s bytes rest st2 ts Hr Hp Hl _ IH|st c s body rest st2 ts Hc Hd Hp Hb Hl _ IH]; intros ts' d E.
  - destruct ts'; discriminate E.
  - destruct ts' as [|t ts'].
    + injection E as -> E. subst ts. inversion H; subst. eauto.
    + injection E as _ E. eauto.
  - destruct ts' as [|t ts']; injection E as E1 E2; [discriminate E1|eauto].
  - destruct ts' as [|t ts']; injection E as E1 E2; [discriminate E1|eauto].
Qed.

Lemma step_line st st' : step st (ascii_of_N 10) = Some st' -> st' = fresh.
Proof. unfold step, fresh. destruct (lx_pending st); cbn; congruence. Qed.

Lemma block_ends p st ts : scans fresh p st ts -> is_block ts -> st = fresh.
Proof.
  intros H (b & Hb & ->). assert (E : exists ts', Sym "{"%char :: b ++ [Sym "}"%char; line] = ts' ++ [Sym (ascii_of_N 10)]).
  { exists (Sym "{"%char :: b ++ [Sym "}"%char]). cbn. rewrite <- app_assoc. reflexivity. }
  destruct E as (ts' & E). destruct (scans_last _ _ _ _ H _ _ E) as (st0 & Hs). now apply step_line in Hs.
Qed.

Lemma chunk_body p ls stk : lambda_body p ls -> chunk (exact PNone) (Open stk) p (exact PNone) (Open stk) ls.
Proof.
  intros (st' & ts & S & B & L) st ->. exists st', ts. repeat split; auto using walk_closed, block_closed. now apply (block_ends p st' ts).
Qed.

(** Numbers. *)
Lemma digits_word d : Forall (fun c => is_ident_continue c = true) (list_ascii_of_string (NilEmpty.string_of_uint d)).
Proof. induction d; cbn; auto. Qed.

Lemma number_word n : word (number n).
Proof.
  unfold number, decimal. destruct (N.to_uint (N.of_nat n)) as [|d|d|d|d|d|d|d|d|d|d]; [split; [discriminate|repeat constructor]|..];
    (split; [discriminate|]; cbn; constructor; [reflexivity|apply digits_word]).
Qed.

(** ** Statements *)

Lemma exact_not_colon q : q <> PLessColon -> forall st, exact q st -> lx_pending st <> PLessColon.
Proof. now intros H st ->. Qed.
Lemma tight_not_colon st : Tight st -> lx_pending st <> PLessColon.
Proof. intros E. rewrite E. discriminate. Qed.

Lemma ends_less st : exact PLess st -> Ends st.
Proof. now left. Qed.
Lemma ends_tight st : Tight st -> Ends st.
Proof. now right. Qed.
Create HintDb states.
#[local] Hint Resolve exact_tight exact_loose tight_loose ends_less ends_tight : states.

(** Constants, with the class of states reached. *)
Lemma const_exact q q' p0 s p1 : run (mkLexer [] q) s = Some (mkLexer [] q') -> walk p0 (map Sym s) = Some p1 -> chunk (exact q) p0 s (exact q') p1 [].
Proof. intros H W. eapply chunk_weaken; [exact (chunk_const q p0 s _ p1 H W)|auto|now intros st <-|reflexivity]. Qed.

Lemma const_exact_tight q p0 s p1 : (exists w, run (mkLexer [] q) s = Some (mkLexer w PNone)) -> walk p0 (map Sym s) = Some p1 -> chunk (exact q) p0 s Tight p1 [].
Proof. intros (w & H) W. eapply chunk_weaken; [exact (chunk_const q p0 s _ p1 H W)|auto|now intros st <-|reflexivity]. Qed.

Lemma const_tight c s q' p0 p1 : is_ident_continue c = false -> ch 34 c || ch 39 c || ch 92 c || ch 35 c = false ->
  run (after fresh c) s = Some (mkLexer [] q') -> walk p0 (map Sym (c :: s)) = Some p1 -> chunk Tight p0 (c :: s) (exact q') p1 [].
Proof.
  intros H1 H2 H W. eapply chunk_weaken; [exact (chunk_const_from Tight p0 c s _ p1 (fun st => step_tight c st H1 H2) H W)|auto|now intros st <-|reflexivity].
Qed.

Lemma const_loose c s q' p0 p1 : separator c = true ->
  run (after fresh c) s = Some (mkLexer [] q') -> walk p0 (map Sym (c :: s)) = Some p1 -> chunk Loose p0 (c :: s) (exact q') p1 [].
Proof.
  intros H1 H W. eapply chunk_weaken; [exact (chunk_const_from Loose p0 c s _ p1 (fun st => step_loose c st H1) H W)|auto|now intros st <-|reflexivity].
Qed.

Lemma const_ends s q' p0 p1 : run (after fresh ">"%char) s = Some (mkLexer [] q') -> walk p0 (map Sym (">"%char :: s)) = Some p1 ->
  chunk Ends p0 (">"%char :: s) (exact q') p1 [].
Proof.
  intros H W. eapply chunk_weaken; [exact (chunk_const_from Ends p0 ">"%char s _ p1 step_ends H W)|auto|now intros st <-|reflexivity].
Qed.

Ltac comp := cbv; reflexivity.

(** One part of a concatenation. *)
Ltac part :=
  match goal with
  | |- chunk (exact _) _ (emit_string_literal _) _ _ _ => apply chunk_literal; discriminate
  | |- chunk (exact _) _ ?s _ _ _ => apply const_exact; comp
  | |- chunk Tight _ ?s _ _ _ => apply const_tight; comp
  | |- chunk Loose _ ?s _ _ _ => apply const_loose; comp
  | |- chunk Ends _ ?s _ _ _ => apply const_ends; comp
  end.
Ltac also := eapply chunk_app; [part|].

Section Pieces.
Context (tx : texts) (w : facts) (of_expr : str -> list (str * str)) (of_body : nat -> list (str * str)) (F : fine_texts tx w of_body).

Lemma chunk_tag q i stk : q = PNone \/ q = PLess \/ q = PColon -> chunk (exact q) (Open stk) (tag w i) Tight (Open stk) [].
Proof. exact (chunk_piece false _ _ q stk (ft_tag _ _ _ F i)). Qed.
Lemma chunk_type q t stk : q = PNone \/ q = PLess \/ q = PColon -> chunk (exact q) (Open stk) (tx_type tx t) Tight (Open stk) [].
Proof. exact (chunk_piece false _ _ q stk (ft_type _ _ _ F t)). Qed.
Lemma chunk_name q i stk : q = PNone \/ q = PLess \/ q = PColon -> chunk (exact q) (Open stk) (tx_name tx i) Loose (Open stk) [].
Proof. exact (chunk_piece true _ _ q stk (ft_name _ _ _ F i)). Qed.

Lemma chunk_commas q l stk : q = PNone \/ q = PLess -> l <> [] ->
  Forall (fun s => forall q, q = PNone \/ q = PLess -> chunk (exact q) (Open stk) s Tight (Open stk) []) l -> chunk (exact q) (Open stk) (commas l) Tight (Open stk) [].
Proof.
  intros Hq Hne H. revert q Hq. induction H as [|s l Hs Hl IH]; intros q Hq; [congruence|].
  destruct l as [|s' l]; [exact (Hs q Hq)|]. cbn [commas]. change [] with ([] ++ [] ++ [] : list (str * str)).
  eapply chunk_app; [exact (Hs q Hq)|]. also. apply IH; [discriminate|now left].
Qed.

Lemma chunk_original f stk : chunk (exact PLess) (Open stk) (commas (tx_original tx f)) Ends (Open stk) [].
Proof.
  destruct (tx_original tx f) as [|s l] eqn:E.
  - eapply chunk_weaken; [apply (chunk_nil (exact PLess))|auto|exact ends_less|reflexivity].
  - eapply chunk_weaken; [apply chunk_commas; [now right|discriminate|]|auto|exact ends_tight|reflexivity].
    rewrite <- E. eapply Forall_impl; [|exact (ft_original _ _ _ F f)]. intros p Hp q Hq. apply (chunk_piece false _ _ q stk Hp). tauto.
Qed.

Lemma chunk_optional (b : bool) s (P : lexer -> Prop) stk : chunk P (Open stk) s P (Open stk) [] -> chunk P (Open stk) (if b then s else []) P (Open stk) [].
Proof. destruct b; [auto|]. intros _. apply chunk_nil. Qed.

(** Concatenations; the state classes are weakened at the end. *)
Lemma chunk_post (P : lexer -> Prop) p0 s (Q : lexer -> Prop) p1 ls (Q' : lexer -> Prop) ls' :
  chunk P p0 s Q p1 ls -> (forall st, Q st -> Q' st) -> ls = ls' -> chunk P p0 s Q' p1 ls'.
Proof. intros H HQ HL. eapply chunk_weaken; eauto. Qed.
Tactic Notation "chain" tactic3(tac) := eapply chunk_post; [tac|auto with states|cbn; rewrite ?app_nil_r; reflexivity].

Lemma chunk_default a stk : fine_arg of_expr a ->
  chunk (exact PNone) (Open stk) (match ar_default a with Some e => $" = " ++ e | None => [] end) Loose (Open stk) (match ar_default a with Some e => of_expr e | None => [] end).
Proof.
  unfold fine_arg. destruct (ar_default a) as [e|]; intro H; [|chain (apply chunk_nil)].
  chain (also; apply (chunk_piece true _ _ PNone stk H); now left).
Qed.

Lemma chunk_arg a stk : fine_arg of_expr a -> chunk Loose (Open stk) (arg_text a) Loose (Open stk) (arg_strings of_expr a).
Proof.
  intro H. unfold arg_text, arg_strings. chain (also; also; also;
    (eapply chunk_app; [apply (chunk_optional (ar_noconvert a) _ (exact PNone)); part|]);
    (eapply chunk_app; [apply (chunk_optional (ar_required a) _ (exact PNone)); part|]); now apply chunk_default).
Qed.

Lemma chunk_flat {A} (f : A -> str) (g : A -> list (str * str)) P stk l :
  Forall (fun a => chunk P (Open stk) (f a) P (Open stk) (g a)) l -> chunk P (Open stk) (flat_map f l) P (Open stk) (flat_map g l).
Proof. induction 1 as [|a l Ha _ IH]; cbn; [apply chunk_nil|]. eapply chunk_app; eassumption. Qed.

Lemma flat_nil {A} (l : list A) : flat_map (fun _ => [] : list (str * str)) l = [].
Proof. induction l; auto. Qed.

Lemma chunk_flat_nil {A} (f : A -> str) P stk l : Forall (fun a => chunk P (Open stk) (f a) P (Open stk) []) l -> chunk P (Open stk) (flat_map f l) P (Open stk) [].
Proof. intro H. rewrite <- (flat_nil l). now apply chunk_flat. Qed.

Lemma chunk_policies a stk : fine_policy (fn_policy a) -> chunk Loose (Open stk) (policies_text a) Loose (Open stk) [].
Proof.
  intro H. unfold policies_text. apply (chunk_app _ _ _ Loose (Open stk) [] _ _ _ []).
  - destruct (fn_policy a) as [|c p] eqn:E; [apply chunk_nil|]. destruct H as [H|H]; [discriminate H|].
    chain (also; apply (chunk_piece true _ _ _ _ H); tauto).
  - apply chunk_flat_nil. apply Forall_forall. intros k _.
    chain (also; eapply chunk_app; [apply chunk_word; [apply number_word|apply exact_not_colon; discriminate]|]; also;
      eapply chunk_app; [apply chunk_word; [apply number_word|apply exact_not_colon; discriminate]|]; part).
Qed.

Lemma chunk_pointer f stk : chunk (exact PNone) (Open stk) (pointer_text tx w f) (exact PNone) (Open stk) [].
Proof.
  unfold pointer_text. chain (also; eapply chunk_app; [apply chunk_original|]; also; eapply chunk_app; [apply chunk_name; tauto|];
    eapply chunk_app with (Q := Loose) (p1 := Open (")"%char :: stk)) (ls := []); [|eapply chunk_app with (Q := Loose) (p1 := Open (")"%char :: stk)) (ls := []); [|part]]).
  - destruct (tx_args tx f) as [l|] eqn:E; [|apply chunk_nil]. chain (apply chunk_args; exact (ft_args _ _ _ F f l E)).
  - destruct (fi_const (x_fn (w_extra w) f)); [|apply chunk_nil].
    intros st Hst. exists (mkLexer ($"const_") PNone), (map Sym ($", ::pybind11::const_")). repeat split; auto using strings_syms.
    apply run_scans. change (run st ($", ::pybind11::const_")) with (match step st ","%char with Some st' => run st' ($" ::pybind11::const_") | None => None end).
    rewrite (step_loose ","%char st eq_refl Hst). reflexivity.
Qed.

Ltac by_word := apply chunk_word; [|first [exact tight_not_colon|apply exact_not_colon; discriminate]].

Lemma chunk_brief i stk : chunk (exact PNone) (Open stk) (brief_text tx i) (exact PNone) (Open stk) (map ordinary (shown (tx_brief tx i))).
Proof.
  unfold brief_text, shown. destruct (tx_brief tx i) as [|c s]; [apply chunk_nil|]. chain (also; part).
Qed.

Lemma chunk_brief_tight i stk : chunk Tight (Open stk) (brief_text tx i) Tight (Open stk) (map ordinary (shown (tx_brief tx i))).
Proof.
  unfold brief_text, shown. destruct (tx_brief tx i) as [|c s]; [apply chunk_nil|]. chain (also; part).
Qed.

Lemma name_text_word n : word (name_text n).
Proof. destruct n; split; [discriminate|repeat constructor|discriminate|repeat constructor]. Qed.

Lemma chunk_parameters names ts stk : Forall (fun s => forall q, q = PNone \/ q = PLess -> chunk (exact q) (Open stk) s Tight (Open stk) []) (lambda_parameters tx names ts).
Proof.
  revert ts. induction names as [|n names IH]; intros [|t ts]; cbn [lambda_parameters]; constructor; [|apply IH].
  intros q Hq. chain ((eapply chunk_app; [apply chunk_type; tauto|]); also; by_word; apply name_text_word).
Qed.

Lemma chunk_unary k n stk : chunk (exact PNone) (Open stk) (operator_spelling k ++ name_text n) Tight (Open stk) [].
Proof. apply const_exact_tight; [destruct k, n; eexists; comp|destruct k, n; comp]. Qed.

Lemma chunk_binary k n m stk : chunk (exact PNone) (Open stk) (name_text n ++ $" " ++ operator_spelling k ++ $" " ++ name_text m) Tight (Open stk) [].
Proof. apply const_exact_tight; [destruct k, n, m; eexists; comp|destruct k, n, m; comp]. Qed.

Lemma chunk_lambda l stk : chunk (exact PNone) (Open stk) (lambda_text tx l) (exact PNone) (Open stk) [].
Proof.
  unfold lambda_text. chain (also; apply (chunk_app (exact PNone) (Open (")"%char :: stk)) _ Tight (Open (")"%char :: stk)) []);
    [|also; (eapply chunk_app; [apply chunk_type; tauto|]); also; apply (chunk_app (exact PNone) (Open ("}"%char :: stk)) _ Tight (Open ("}"%char :: stk)) []); [|part]]).
  - destruct (lambda_parameters tx [Lhs; Rhs] (la_types l)) as [|s r] eqn:E; [chain (apply chunk_nil)|].
    rewrite <- E. apply chunk_commas; [tauto|congruence|apply chunk_parameters].
  - destruct (la_operands l) as [|n [|m r]]; [chain (apply chunk_nil)|apply chunk_unary|apply chunk_binary].
Qed.

Lemma chunk_enum i stk : chunk (exact PNone) (Open stk) (enum_text w i) (exact PNone) (Open stk) [].
Proof. unfold enum_text. chain (also; (eapply chunk_app; [apply chunk_tag; tauto|]); part). Qed.

Lemma chunk_class t stk : fine_class t -> chunk (exact PNone) (Open stk) (class_text w t) (exact PNone) (Open stk) [].
Proof.
  intro H. unfold class_text. chain (also; (eapply chunk_app; [apply chunk_tag; tauto|]);
    apply (chunk_app Tight (Open stk) _ Tight (Open stk) []); [|apply (chunk_app Tight (Open stk) _ Tight (Open stk) []); [|part]]).
  - apply chunk_flat_nil, Forall_forall. intros b _. chain (also; apply chunk_tag; tauto).
  - destruct (ct_holder t) as [|c h] eqn:E; [apply chunk_nil|]. destruct H as [H|H]; [congruence|]. rewrite E in H.
    chain (also; apply (chunk_piece false _ _ _ _ H); tauto).
Qed.

Lemma chunk_parameter p stk : fine_parameter p -> chunk (exact PNone) (Open stk) (parameter_text w p) Tight (Open stk) [].
Proof.
  destruct p as [|i|t]; cbn [fine_parameter parameter_text]; intro H.
  - apply const_exact_tight; [eexists; comp|comp].
  - chain ((eapply chunk_app; [apply chunk_enum|]); apply const_exact_tight; [eexists; comp|comp]).
  - chain ((eapply chunk_app; [apply chunk_class, H|]); apply const_exact_tight; [eexists; comp|comp]).
Qed.

Lemma chunk_introducer n stk : fine_introducer n -> chunk (exact PNone) (Open stk) (introducer_text tx w n) Tight (Open stk) (introducer_strings tx n).
Proof.
  destruct n as [parent|parent sp|i parent sp a|t parent sp d]; cbn [fine_introducer introducer_text introducer_strings]; intro H.
  - by_word. exact H.
  - chain ((eapply chunk_app; [by_word; exact H|]); also; also; part).
  - chain ((eapply chunk_app; [apply chunk_enum|]); also; (eapply chunk_app; [by_word; exact H|]); also; also;
      (eapply chunk_app; [apply chunk_brief|]); (eapply chunk_app; [apply chunk_optional; part|]); part).
  - destruct H as [H Hc]. chain ((eapply chunk_app; [apply chunk_class, Hc|]); also; (eapply chunk_app; [by_word; exact H|]); also; also;
      (eapply chunk_app; [apply chunk_brief|]); (eapply chunk_app; [apply chunk_optional; part|]); part).
Qed.

Lemma chunk_declarator id p : word id -> fine_parameter p -> chunk (exact PNone) (Open []) (declarator_text w id p) (exact PNone) (Open []) [].
Proof.
  intros Hw Hp. unfold declarator_text. chain ((eapply chunk_app; [apply const_exact_tight; [eexists; comp|comp]|]);
    (eapply chunk_app; [by_word; exact Hw|]); also; (eapply chunk_app; [apply chunk_parameter, Hp|]); part).
Qed.

Lemma docstring_doc f : docstring tx f = doc_of tx f.
Proof. unfold docstring, doc_of. destruct (tx_brief tx f), (tx_primary tx f); reflexivity. Qed.

Lemma chunk_stmt_args args stk : Forall (fine_arg of_expr) args -> chunk Loose (Open stk) (flat_map arg_text args) Loose (Open stk) (flat_map (arg_strings of_expr) args).
Proof. intro H. apply chunk_flat. eapply Forall_impl; [|exact H]. intro b. apply chunk_arg. Qed.

Definition ends (s : stmt) : pos := match s with SManual l => match fst (tx_lambda tx l) with Some _ => Done | None => Open [] end | _ => Done end.

Lemma chunk_stmt p s : fine_stmt of_expr p s ->
  chunk (exact PNone) (Open []) (stmt_text tx w p s) (exact PNone) (ends s) (stmt_strings tx of_expr of_body s).
Proof.
  destruct s as [sp target|sp i|l|static sp f args a|from r|f n args a|sp f l|sp r|sp g s|static readonly sp i|sp i| |];
    cbn [fine_stmt stmt_text stmt_strings ends]; intro H; rewrite ?docstring_doc.
  - chain (also; also; also; (eapply chunk_app; [apply chunk_tag; tauto|]); also; part).
  - chain (also; also; also; (eapply chunk_app; [apply chunk_name; tauto|]); also; part).
  - unfold manual_text. destruct (ft_lambda _ _ _ F l) as [Hb Hp]. destruct (tx_lambda tx l) as [[q|] body]; cbn [fst snd] in *.
    + chain (also; (eapply chunk_app; [by_word; exact Hp|]); also; (eapply chunk_app; [exact (chunk_body _ _ _ Hb)|]); also; part).
    + exact (chunk_body _ _ _ Hb).
  - destruct H as [Ha Hp]. chain (apply (chunk_app (exact PNone) (Open []) _ (exact PNone) (Open [")"%char]) []); [destruct static; part|also; also;
      (eapply chunk_app; [apply chunk_pointer|]); also; also; eapply chunk_weaken with (P := Loose);
        [(eapply chunk_app; [apply chunk_stmt_args, Ha|]); (eapply chunk_app; [apply chunk_policies, Hp|]); also; part|auto with states|intros ? H; exact H|reflexivity]]).
  - destruct from as [t|]; [|congruence]. chain (also; (eapply chunk_app; [apply chunk_type; tauto|]); also; (eapply chunk_app; [apply chunk_tag; tauto|]); also; part).
  - destruct H as [Ha Hp]. chain (also; (eapply chunk_app; [apply chunk_original|]); also; also; eapply chunk_weaken with (P := Loose);
        [(eapply chunk_app; [apply chunk_stmt_args, Ha|]); (eapply chunk_app; [apply chunk_policies, Hp|]); also; part|auto with states|intros ? H; exact H|reflexivity]).
  - chain (also; also; also; (eapply chunk_app; [apply chunk_lambda|]); also; also; also; part).
  - chain (also; also; also; (eapply chunk_app; [apply chunk_tag; tauto|]); also; part).
  - chain (apply (chunk_app (exact PNone) (Open []) _ (exact PNone) (Open [")"%char]) []); [destruct s; part|also; also; (eapply chunk_app; [apply chunk_pointer|]);
      apply (chunk_app (exact PNone) (Open [")"%char]) _ (exact PNone) (Open [")"%char]) []);
        [destruct s as [f|]; [chain (also; apply chunk_pointer)|apply chunk_nil]|also; part]]).
  - rewrite app_assoc. chain (apply (chunk_app (exact PNone) (Open []) _ (exact PNone) (Open [")"%char]) []);
      [destruct readonly, static; part|also; also; (eapply chunk_app; [apply chunk_name; tauto|]); also; part]).
  - destruct p as [|e|t]; [destruct H| |destruct H]. chain (also; also; also; (eapply chunk_app; [apply chunk_tag; tauto|]); also;
      (eapply chunk_app; [by_word; apply (ft_simple _ _ _ F)|]); (eapply chunk_app; [apply chunk_brief_tight|]); also; part).
  - chain (also; part).
  - chain (also; part).
Qed.

(** How the text starts. *)
Lemma scans_split s r : forall st st1 st2 ts, run st s = Some st1 -> scans st (s ++ r) st2 ts -> exists ts', ts = map Sym s ++ ts' /\ scans st1 r st2 ts'.
Proof.
  induction s as [|c s IH]; cbn [run app map]; intros st st1 st2 ts H S; [injection H as <-; eauto|].
  destruct (step st c) as [st'|] eqn:E; [|discriminate H].
  inversion S as [|? ? ? st1' ? ts1 Hs S'|? ? bytes rest ? ? Hr Hp Hl H'|? ? ? body rest ? ? Hc Hd Hp Hb Hl H']; subst.
  - rewrite E in Hs. injection Hs as <-. destruct (IH _ _ _ _ H S') as (ts' & -> & S2). eauto.
  - destruct (literal_starts _ _ _ Hl) as (d & r' & Ed & Hq). injection Ed as <- _. rewrite step_quote in E by assumption. discriminate E.
  - rewrite step_apostrophe in E by assumption. discriminate E.
Qed.

Lemma scans_starts s r st1 st2 ts : run fresh s = Some st1 -> scans fresh (s ++ r) st2 ts -> starts s ts.
Proof. intros H S. destruct (scans_split _ _ _ _ _ _ H S) as (ts' & -> & _). now exists ts'. Qed.

Lemma run_app s r : forall st, run st (s ++ r) = match run st s with Some st1 => run st1 r | None => None end.
Proof. induction s as [|c s IH]; intro st; cbn; [reflexivity|]. destruct (step st c); auto. Qed.

Lemma run_word wd : word wd -> forall st, lx_pending st = PNone -> exists st', run st wd = Some st' /\ lx_pending st' = PNone.
Proof.
  intros [_ H]. induction H as [|c wd Hc _ IH]; intros st Hp; [exists st; auto|]. cbn [run].
  destruct (step_ident st c Hc) as (st' & -> & Hp'); [congruence|]. exact (IH st' Hp').
Qed.

Lemma run_tight c s st : is_ident_continue c = false -> ch 34 c || ch 39 c || ch 92 c || ch 35 c = false -> lx_pending st = PNone -> run st (c :: s) = run (after fresh c) s.
Proof. intros Hc Hq Hp. cbn [run]. now rewrite (step_tight c st Hc Hq Hp). Qed.

Lemma stmt_starts p s st2 ts : scans fresh (stmt_text tx w p s) st2 ts -> starts (use_of s) ts.
Proof.
  destruct s as [sp target|sp i|l|static sp f args a|from r|f n args a|sp f l|sp r|sp g s|static readonly sp i|sp i| |]; cbn [stmt_text use_of].
  3: now exists ts.
  3: destruct static.
  9: destruct s.
  11: destruct static, readonly; rewrite app_assoc.
  all: intro S; match type of S with scans _ ?t _ _ => match goal with |- starts ?h _ =>
    let r := fresh "r" in evar (r : str); assert (E : t = h ++ r) by (subst r; cbn; reflexivity); subst r; rewrite E in S; eapply scans_starts; [|exact S]; vm_compute; reflexivity end end.
Qed.

Lemma stmt_reads p s : fine_stmt of_expr p s -> exists ts, scans fresh (stmt_text tx w p s) fresh ts /\ stmt_shape tx of_expr of_body s ts.
Proof.
  intro H. destruct (chunk_stmt p s H fresh eq_refl) as (st' & ts & S & -> & W & L). exists ts. split; [exact S|]. split; [exact L|]. split; [exact (stmt_starts _ _ _ _ S)|].
  destruct s; cbn [ends] in W; try (apply walk_statement; exact W). destruct (tx_lambda tx lambda) as [[q|] body] eqn:E; cbn [fst] in *; [apply walk_statement; exact W|].
  cbn [stmt_text] in S. unfold manual_text in S. rewrite E in S. destruct (ft_lambda _ _ _ F lambda) as [(st2 & ts2 & S2 & B & _) _]. rewrite E in S2.
  now destruct (scans_deterministic _ _ _ _ S _ _ S2) as [_ ->].
Qed.

(** ** Items *)

Lemma flat_reads {A} (f : A -> str) (R : A -> list token -> Prop) l :
  (forall a, In a l -> exists ts, scans fresh (f a) fresh ts /\ R a ts) -> exists tss, Forall2 R l tss /\ scans fresh (flat_map f l) fresh (concat tss).
Proof.
  induction l as [|a l IH]; intro H; [exists []; split; constructor|].
  destruct (H a (or_introl eq_refl)) as (ts & S & HR). destruct IH as (tss & HF & S'); [intros b Hb; apply H; now right|].
  exists (ts :: tss). split; [now constructor|]. cbn [flat_map concat]. eapply scans_app; eassumption.
Qed.

Lemma const_reads s st : run fresh s = Some st -> scans fresh s st (map Sym s).
Proof. apply run_scans. Qed.

Lemma chunk_reads s ls : chunk (exact PNone) (Open []) s (exact PNone) Done ls -> exists ts, scans fresh s fresh ts /\ strings ts = ls /\ is_statement ts.
Proof. intro H. destruct (H fresh eq_refl) as (st' & ts & S & -> & W & L). exists ts. repeat split; auto using walk_statement. Qed.

Lemma head_reads s : chunk (exact PNone) (Open []) s (exact PNone) (Open []) [] -> exists ts, scans fresh s fresh ts /\ strings ts = [] /\ closed ts.
Proof. intro H. destruct (H fresh eq_refl) as (st' & ts & S & -> & W & L). exists ts. repeat split; auto using walk_is_closed. Qed.

Lemma run_head a wd c s : (exists st, run fresh a = Some st /\ lx_pending st = PNone) -> word wd -> is_ident_continue c = false ->
  ch 34 c || ch 39 c || ch 92 c || ch 35 c = false -> (exists st, run (after fresh c) s = Some st) -> exists st, run fresh (a ++ wd ++ c :: s) = Some st.
Proof.
  intros (st & Ha & Hp) Hw Hc Hq (st' & Hs). rewrite run_app, Ha, run_app. destruct (run_word wd Hw st Hp) as (st1 & -> & H1). rewrite (run_tight c s st1 Hc Hq H1). eauto.
Qed.

Lemma introducer_starts n : fine_introducer n -> (exists st, run fresh ($"= " ++ introduced_by n) = Some st) /\ exists r, introducer_text tx w n = introduced_by n ++ r.
Proof.
  destruct n as [parent|parent sp|i parent sp ar|t parent sp dy]; cbn [fine_introducer introduced_by introducer_text]; intro H.
  - split; [|exists []; now rewrite app_nil_r]. rewrite run_app. destruct (run_word parent H (mkLexer [] PNone) eq_refl) as (st & E & _). exists st. exact E.
  - split; [|eexists; rewrite <- app_assoc; reflexivity]. apply (run_head ($"= ") parent "."%char ($"def_submodule(")); try reflexivity; eauto.
    + eexists. split; reflexivity.
    + eexists. reflexivity.
  - split; [eexists; reflexivity|]. unfold enum_text. eexists. rewrite <- !app_assoc. reflexivity.
  - split; [eexists; reflexivity|]. unfold class_text. eexists. rewrite <- !app_assoc. reflexivity.
Qed.

Lemma introduction_reads e : word (fst e) -> fine_introducer (snd e) ->
  exists ts, scans fresh ($"auto " ++ fst e ++ $" = " ++ introducer_text tx w (snd e) ++ $";" ++ end_line) fresh ts /\ introduction_shape tx e ts.
Proof.
  intros Hw Hi.
  assert (H : exists ts, scans fresh ($"auto " ++ fst e ++ $" = " ++ introducer_text tx w (snd e) ++ $";" ++ end_line) fresh ts /\
    strings ts = introducer_strings tx (snd e) /\ is_statement ts).
  { apply chunk_reads. chain (also; (eapply chunk_app; [by_word; exact Hw|]); also; (eapply chunk_app; [apply chunk_introducer, Hi|]); also; part). }
  destruct H as (ts & S & L & H). exists ts. split; [exact S|]. split; [exact L|]. split; [|exact H].
  destruct (introducer_starts _ Hi) as [(st & R) (r & E)]. rewrite E in S.
  destruct (run_head ($"auto ") (fst e) " "%char ($"= " ++ introduced_by (snd e))) as (st' & R'); try reflexivity; [eexists; split; reflexivity|exact Hw|exists st; exact R|].
  apply (scans_starts _ (r ++ $";" ++ end_line) st' fresh ts); [exact R'|]. rewrite <- !app_assoc in S. rewrite <- !app_assoc. exact S.
Qed.

Lemma call_reads c : word (fst c) -> word (snd c) -> exists ts, scans fresh ($"expose_" ++ fst c ++ $"(" ++ snd c ++ $");" ++ end_line) fresh ts /\ call_shape c ts.
Proof.
  intros H1 H2.
  assert (H : exists ts, scans fresh ($"expose_" ++ fst c ++ $"(" ++ snd c ++ $");" ++ end_line) fresh ts /\ strings ts = [] /\ is_statement ts).
  { apply chunk_reads. chain ((eapply chunk_app; [apply const_exact_tight; [eexists; comp|comp]|]);
    (eapply chunk_app; [by_word; exact H1|]); also; (eapply chunk_app; [by_word; exact H2|]); also; part). }
  destruct H as (ts & S & _ & H). exists ts. split; [exact S|]. split; [|exact H].
  destruct (run_word (snd c) H2 (mkLexer [] PNone) eq_refl) as (st & R & Rp).
  destruct (run_head ($"expose_") (fst c) "("%char (snd c ++ $");" ++ end_line)) as (st' & R'); try reflexivity; [eexists; split; reflexivity|exact H1| |].
  { rewrite run_app. change (after fresh "(") with (mkLexer [] PNone). rewrite R. exists fresh. exact (run_tight ")"%char (";"%char :: end_line) st eq_refl eq_refl Rp). }
  assert (S' := run_scans _ _ _ R'). destruct (scans_deterministic _ _ _ _ S _ _ S') as [_ ->].
  change ("("%char :: snd c ++ $");" ++ end_line) with ($"(" ++ snd c ++ $");" ++ end_line). rewrite !map_app, <- !app_assoc. reflexivity.
Qed.

Lemma declarator_starts id p r st2 ts : word id -> scans fresh (declarator_text w id p ++ r) st2 ts -> starts ($"void expose_" ++ id ++ $"(") ts.
Proof.
  intros Hw S. destruct (run_head ($"void expose_") id "("%char []) as (st & R); try reflexivity; [eexists; split; reflexivity|exact Hw|eexists; reflexivity|].
  apply (scans_starts _ (parameter_text w p ++ $")" ++ r) st st2 ts); [exact R|]. unfold declarator_text in S. rewrite <- !app_assoc in S. rewrite <- !app_assoc. exact S.
Qed.

Lemma definition_reads start head body hs content :
  scans fresh head fresh hs -> strings hs = [] -> closed hs -> starts start hs -> scans fresh body fresh content ->
  exists ts, scans fresh (head ++ $"{" ++ end_line ++ body ++ $"}" ++ end_line ++ end_line) fresh ts /\ is_definition start content ts.
Proof.
  intros S L C B S'. exists (hs ++ Sym "{"%char :: line :: content ++ [Sym "}"%char; line; line]). split; [|exists hs; auto].
  eapply scans_app; [exact S|]. change (Sym "{"%char :: line :: content ++ [Sym "}"%char; line; line]) with (map Sym ($"{" ++ end_line) ++ content ++ map Sym ($"}" ++ end_line ++ end_line)).
  rewrite app_assoc. eapply scans_app; [apply (run_scans _ fresh fresh); reflexivity|]. eapply scans_app; [exact S'|]. apply (run_scans _ fresh fresh). reflexivity.
Qed.

Lemma item_reads i : fine_item of_expr i -> exists ts, scans fresh (item_text tx w i) fresh ts /\ item_shape tx of_expr of_body i ts.
Proof.
  destruct i as [id p|name introductions calls postamble|id p body]; cbn [fine_item item_text item_shape].
  - intros [Hw Hp]. destruct (chunk_reads (declarator_text w id p ++ $";" ++ end_line) []) as (ts & S & L & H).
    { chain ((eapply chunk_app; [apply chunk_declarator; assumption|]); also; part). }
    exists ts. repeat split; auto. exact (declarator_starts _ _ _ _ _ Hw S).
  - intros (Hn & Hi & Hc).
    destruct (head_reads (end_line ++ $"PYBIND11_MODULE(" ++ name ++ $", root) ")) as (hs & S & L & C).
    { chain (also; also; (eapply chunk_app; [apply (chunk_piece true _ _ _ _ Hn); tauto|]); part). }
    destruct (flat_reads (fun e => $"auto " ++ fst e ++ $" = " ++ introducer_text tx w (snd e) ++ $";" ++ end_line) (introduction_shape tx) introductions) as (a & Fa & Sa).
    { intros e He. rewrite Forall_forall in Hi. destruct (Hi e He). now apply introduction_reads. }
    destruct (flat_reads (fun c => $"expose_" ++ fst c ++ $"(" ++ snd c ++ $");" ++ end_line) call_shape calls) as (b & Fb & Sb).
    { intros c Hx. rewrite Forall_forall in Hc. destruct (Hc c Hx). now apply call_reads. }
    assert (P : exists c, Forall2 (fun l => stmt_shape tx of_expr of_body (SManual l)) postamble c /\
                  scans fresh (flat_map (fun l => end_line ++ manual_text tx l) postamble) fresh (flat_map (cons line) c)).
    { clear - F. induction postamble as [|l r IH]; [exists []; split; constructor|]. destruct IH as (c & Fc & Sc).
      destruct (stmt_reads PModule (SManual l) I) as (ts & S & H). exists (ts :: c). split; [now constructor|].
      cbn [flat_map]. rewrite <- app_assoc. change ((line :: ts) ++ flat_map (cons line) c) with (map Sym end_line ++ ts ++ flat_map (cons line) c).
      eapply scans_app; [apply (run_scans _ fresh fresh); reflexivity|]. eapply scans_app; eassumption. }
    destruct P as (c & Fc & Sc).
    assert (Sx := scans_app _ _ _ _ Sb _ _ _ Sc). apply (scans_app _ _ _ _ (run_scans end_line fresh fresh eq_refl)) in Sx. apply (scans_app _ _ _ _ Sa) in Sx.
    destruct (definition_reads _ _ _ _ _ S L C (scans_starts (end_line ++ $"PYBIND11_MODULE(") _ _ _ _ eq_refl S) Sx) as (ts & St & D).
    exists ts. split; [|exists a, b, c; auto].
    revert St. rewrite <- !app_assoc. cbn [app]. exact (fun H => H).
  - intros (Hw & Hp & Hb).
    destruct (head_reads (declarator_text w id p ++ $" ")) as (hs & S & L & C).
    { chain ((eapply chunk_app; [apply chunk_declarator; assumption|]); part). }
    destruct (flat_reads (stmt_text tx w p) (stmt_shape tx of_expr of_body) body) as (b & Fb & Sb).
    { intros s Hs. rewrite Forall_forall in Hb. now apply stmt_reads, Hb. }
    destruct (definition_reads _ _ _ _ _ S L C (declarator_starts _ _ _ _ _ Hw S) Sb) as (ts & St & D). exists ts. split; [|exists b; auto].
    revert St. rewrite <- !app_assoc. exact (fun H => H).
Qed.

Lemma stream_reads items : Forall (fine_item of_expr) items ->
  exists tss, Forall2 (item_shape tx of_expr of_body) items tss /\ scans fresh (stream_text tx w items) fresh (concat tss).
Proof. intro H. apply flat_reads. intros i Hi. rewrite Forall_forall in H. now apply item_reads, H. Qed.
End Pieces.
