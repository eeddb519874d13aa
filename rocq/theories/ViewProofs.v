(** * Proofs about graphical views *)
From Coq Require Import Sorting.Permutation.
From Verif Require Import Base ParserModel ParserProofs StringSpec AnnotModel AnnotFinal CollectModel CollectSpec CollectProofs GraphModel GraphSpec GraphWalk GraphProofs GraphFinal InspectModel InspectSpec InspectProofs ViewModel ViewSpec.

(** ** Lines and words *)

Lemma lines_app l r : ~ In (ascii_of_N 10) l -> text_lines (l ++ line_break ++ r) = l :: text_lines r.
Proof.
  induction l as [|c l IH]; intros H; [reflexivity|]. cbn [app text_lines]. destruct (Ascii.eqb_spec c (ascii_of_N 10)) as [E|_]; [destruct H; left; exact E|].
  rewrite IH by (intros Hi; apply H; right; exact Hi). reflexivity.
Qed.

Lemma prefix_app p r : without_prefix p (p ++ r) = Some r.
Proof. induction p as [|c p IH]; [reflexivity|]. cbn. rewrite Ascii.eqb_refl. exact IH. Qed.

Definition word_ends (r : str) : Prop := match r with c :: _ => is_ident_continue c = false | [] => True end.
Lemma word_app w r : forallb is_ident_continue w = true -> word_ends r -> word (w ++ r) = (w, r).
Proof.
  intros Hw Hr. induction w as [|c w IH].
  - cbn [app]. destruct r as [|c r]; [reflexivity|]. cbn in *. rewrite Hr. reflexivity.
  - cbn in *. apply andb_prop in Hw as (Hc & Hw). rewrite Hc, (IH Hw). reflexivity.
Qed.

Definition unquoted (c : ascii) : bool := negb (Ascii.eqb c (ascii_of_N 34)) && negb (Ascii.eqb c (ascii_of_N 92)).
Lemma quoted_app w r : forallb unquoted w = true -> quoted (w ++ r) = match quoted r with Some (t, q) => Some (w ++ t, q) | None => None end.
Proof.
  induction w as [|c w IH]; intros Hw; cbn in *; [destruct (quoted r) as [[]|]; reflexivity|].
  apply andb_prop in Hw as (Hc & Hw). unfold unquoted in Hc. apply andb_prop in Hc as (H1 & H2). apply negb_true_iff in H1, H2. cbn in H1, H2. rewrite H1, H2, (IH Hw).
  destruct (quoted r) as [[]|]; reflexivity.
Qed.

(** ** Text of labels *)

(** A character inside of quotes, and after these are removed. *)
Definition in_dot (c : ascii) : str := if escaped c || Ascii.eqb c backslash then [backslash; c] else [c].
Definition in_label (c : ascii) : str := if Ascii.eqb c (ascii_of_N 34) then [c] else in_dot c.

Lemma showable_tail c s : showable (c :: s) -> showable s.
Proof. intros (H & H'). split; [intros d Hd; apply H; right; exact Hd|]. intros a d b ->. apply (H' (c :: a) d b). reflexivity. Qed.

Lemma escape_showable s : showable s -> escape_string s = flat_map in_dot s.
Proof.
  induction s as [|c s IH]; intros H; [reflexivity|]. specialize (IH (showable_tail _ _ H)). cbn [escape_string flat_map].
  destruct H as (H & H'). destruct (H c (or_introl eq_refl)) as (H1 & H2).
  destruct (Ascii.eqb_spec c (ascii_of_N 10)) as [E|_]; [contradiction|]. destruct (Ascii.eqb_spec c horizontal_tab) as [E|_]; [contradiction|].
  unfold in_dot at 1. destruct (Ascii.eqb_spec c backslash) as [->|_].
  - rewrite orb_true_r. destruct s as [|d s]; [reflexivity|]. specialize (H' [] d s eq_refl). rewrite IH.
    assert (E : existsb (Ascii.eqb d) ($"|{}") = false).
    { destruct (existsb (Ascii.eqb d) ($"|{}")) eqn:E; [|reflexivity]. apply existsb_exists in E as (e & He & E). apply Ascii.eqb_eq in E. subst e. destruct H'. right. exact He. }
    rewrite E. destruct (Ascii.eqb_spec d "l") as [->|N]; [destruct H'; left; reflexivity|].
    destruct d as [[] [] [] [] [] [] [] []]; try reflexivity. destruct N; reflexivity.
  - rewrite orb_false_r, IH. destruct (escaped c); reflexivity.
Qed.

Lemma quoted_dot s r : quoted (flat_map in_dot s ++ r) = match quoted r with Some (t, q) => Some (flat_map in_label s ++ t, q) | None => None end.
Proof.
  induction s as [|c s IH]; [cbn; destruct (quoted r) as [[]|]; reflexivity|]. cbn [flat_map]. rewrite <- !app_assoc.
  unfold in_label at 1. unfold in_dot at 1 3. destruct (escaped c || Ascii.eqb c backslash) eqn:Ec.
  - cbn [app quoted]. replace (Ascii.eqb backslash (ascii_of_N 34)) with false by reflexivity. replace (Ascii.eqb backslash (ascii_of_N 92)) with true by reflexivity.
    rewrite IH. destruct (quoted r) as [[]|]; [|reflexivity]. destruct (Ascii.eqb c (ascii_of_N 34)); reflexivity.
  - apply orb_false_iff in Ec as (Ec & Eb). cbn [app quoted]. change (ascii_of_N 92) with backslash. rewrite Eb.
    destruct (Ascii.eqb_spec c (ascii_of_N 34)) as [E|_]; [subst c; discriminate Ec|].
    rewrite IH. destruct (quoted r) as [[]|]; reflexivity.
Qed.

Lemma fields_label s r f fs : fields r = Some (f :: fs) -> fields (flat_map in_label s ++ r) = Some ((s ++ f) :: fs).
Proof.
  intros Hr. induction s as [|c s IH]; [exact Hr|]. cbn [flat_map]. rewrite <- app_assoc.
  unfold in_label at 1, in_dot at 1. destruct (Ascii.eqb_spec c (ascii_of_N 34)) as [->|N].
  - cbn [app]. change (push (ascii_of_N 34) (fields (flat_map in_label s ++ r)) = Some ((ascii_of_N 34 :: s ++ f) :: fs)). rewrite IH. reflexivity.
  - destruct (escaped c || Ascii.eqb c backslash) eqn:Ec.
    + cbn [app]. change (push c (fields (flat_map in_label s ++ r)) = Some ((c :: s ++ f) :: fs)). rewrite IH. reflexivity.
    + apply orb_false_iff in Ec as (Ec & Eb). cbn [app fields]. unfold escaped in Ec. cbn in Ec. rewrite !orb_false_iff in Ec. destruct Ec as (E1 & E2 & E3 & E4 & E5 & _).
      rewrite E2, E5. cbn [existsb list_ascii_of_string]. rewrite E1, E3, E4. cbn [orb]. change (ascii_of_N 92) with backslash. rewrite Eb, IH. reflexivity.
Qed.

(** ** Lists of attributes *)

Lemma attributes_plain f k v r : forallb is_ident_continue k = true -> forallb is_ident_continue v = true -> v <> [] ->
  attributes (S f) (k ++ $"=" ++ v ++ $"," ++ r) = match attributes f r with Some (l, q) => Some ((k, v) :: l, q) | None => None end.
Proof.
  intros Hk Hv Hn. cbn [attributes]. rewrite word_app; [|exact Hk|reflexivity]. rewrite prefix_app.
  assert (E : dot_value (v ++ $"," ++ r) = Some (v, $"," ++ r)).
  { destruct v as [|c v]; [contradiction|]. unfold dot_value. change ((c :: v) ++ $"," ++ r) with (c :: (v ++ $"," ++ r)) at 1. cbv iota beta.
    destruct (Ascii.eqb_spec c (ascii_of_N 34)) as [->|_]; [discriminate Hv|]. change (c :: (v ++ $"," ++ r)) with ((c :: v) ++ $"," ++ r).
    rewrite word_app; [reflexivity|exact Hv|reflexivity]. }
  rewrite E, prefix_app. reflexivity.
Qed.

Lemma attributes_quoted f k s v r : forallb is_ident_continue k = true -> quoted s = Some (v, $"," ++ r) ->
  attributes (S f) (k ++ $"=""" ++ s) = match attributes f r with Some (l, q) => Some ((k, v) :: l, q) | None => None end.
Proof.
  intros Hk Hs. cbn [attributes]. rewrite word_app; [|exact Hk|reflexivity]. change ($"=""" ++ s) with ($"=" ++ ($"""" ++ s)). rewrite prefix_app.
  change (dot_value ($"""" ++ s)) with (quoted s). rewrite Hs, prefix_app. reflexivity.
Qed.

Lemma attributes_last f k s v r : forallb is_ident_continue k = true -> quoted s = Some (v, r) -> without_prefix ($",") r = None ->
  attributes (S f) (k ++ $"=""" ++ s) = Some ([(k, v)], r).
Proof.
  intros Hk Hs Hr. cbn [attributes]. rewrite word_app; [|exact Hk|reflexivity]. change ($"=""" ++ s) with ($"=" ++ ($"""" ++ s)). rewrite prefix_app.
  change (dot_value ($"""" ++ s)) with (quoted s). rewrite Hs, Hr. reflexivity.
Qed.

Lemma statements_app ls ss : Forall2 (fun l s => dot_statement l = Some s) ls ss -> dot_statements (ls ++ [$"}"; []]) = Some ss.
Proof.
  induction 1 as [|l s ls ss Hl F IH]; [reflexivity|]. cbn [app]. change (dot_statements (l :: ls ++ [$"}"; []]) = Some (s :: ss)).
  assert (E : exists a b c, ls ++ [$"}"; []] = a :: b :: c) by (destruct ls as [|a [|b ls]]; cbn; eauto).
  destruct E as (a & b & c & E). rewrite E in *. cbn [dot_statements] in *. rewrite Hl. rewrite IH. reflexivity.
Qed.

Lemma nodup_flat_map {A B} (f : A -> list B) l : NoDup l -> (forall a, In a l -> NoDup (f a)) ->
  (forall a a' b, In b (f a) -> In b (f a') -> a = a') -> NoDup (flat_map f l).
Proof.
  intros N H D. induction N as [|a l Ha N IH]; [constructor|]. cbn [flat_map].
  assert (IH' := IH (fun a' Ha' => H a' (or_intror Ha'))). clear IH. specialize (H a (or_introl eq_refl)).
  assert (X : forall b, In b (f a) -> ~ In b (flat_map f l)).
  { intros b Hb Hi. apply in_flat_map in Hi as (a' & Ha' & Hb'). rewrite (D a a' b Hb Hb') in Ha. contradiction. }
  induction H as [|b m Hb N' IHm]; [exact IH'|]. cbn [app]. revert X. generalize (flat_map f l) IH'. clear - Hb N'. intros k Hk X.
  constructor.
  - intros Hi. apply in_app_or in Hi as [Hi|Hi]; [contradiction|]. apply (X b (or_introl eq_refl) Hi).
  - revert X. induction N' as [|c m Hc N' IH]; intros X; [exact Hk|]. cbn [app]. constructor.
    + intros Hi. apply in_app_or in Hi as [Hi|Hi]; [contradiction|]. apply (X c (or_intror (or_introl eq_refl)) Hi).
    + apply IH; [intros Hi; apply Hb; right; exact Hi|]. intros d [<-|Hd]; [apply X; left; reflexivity|apply X; right; right; exact Hd].
Qed.

(** ** Nodes *)

Section View.
Context (x : names) (u : unit) (st : storage) (g : graph) (address : nat -> str).

Definition visibility_word (n : nat) : str :=
  match view_attrs u st n with Some a => match n_visible a with None => $"dotted" | Some false => $"dashed" | Some true => [] end | None => [] end.
Definition filled (n : nat) : bool := is_root u n || match kind u n with KNamespace => true | _ => false end.
Definition style_of (n : nat) : str := visibility_word n ++ (if filled n then $",filled,bold" else []).
Definition more (n : nat) : str :=
  if is_root u n then $",shape=diamond,fillcolor=Seashell2" else if filled n then $",fillcolor=Seashell1" else [].
Definition more_attributes (n : nat) : list (str * str) :=
  if is_root u n then [($"shape", $"diamond"); ($"fillcolor", $"Seashell2")] else if filled n then [($"fillcolor", $"Seashell1")] else [].

Lemma view_attributes_parts n : view_attributes u st n = $"style" ++ $"=""" ++ style_of n ++ $"""" ++ more n.
Proof.
  unfold view_attributes, style_of, more, visibility_word, filled. change ($"style=""") with ($"style" ++ $"="""). rewrite <- !app_assoc. do 3 f_equal.
  destruct (is_root u n); [reflexivity|]. destruct (kind u n); reflexivity.
Qed.

Lemma style_unquoted n : forallb unquoted (style_of n) = true.
Proof.
  unfold style_of, visibility_word. destruct (view_attrs u st n) as [a|]; [destruct (n_visible a) as [[|]|]|]; destruct (filled n); reflexivity.
Qed.

Definition field_texts (n : nat) : list str := view_label x u n :: match view_description u st n with [] => [] | d => [d] end.
Definition label_of (n : nat) : str :=
  $"{" ++ flat_map in_label (view_label x u n) ++ match view_description u st n with [] => [] | d => $"|" ++ flat_map in_label d end ++ $"}".
Definition attributes_of (n : nat) : list (str * str) :=
  ($"shape", $"record") :: ($"style", style_of n) :: more_attributes n ++ [($"label", label_of n)].

Definition node_line (n : nat) : str :=
  [horizontal_tab] ++ node_id address n ++ $" [shape=record," ++ view_attributes u st n ++ $",label=""{" ++ escape_string (view_label x u n) ++
  match view_description u st n with [] => [] | d => $"|" ++ escape_string d end ++ $"}""];".
Definition edge_line (n c : nat) : str := [horizontal_tab] ++ node_id address n ++ $" -> " ++ node_id address c ++ $";".

Lemma write_node_lines n : write_node x u st g address n = node_line n ++ line_break ++ flat_map (fun c => edge_line n c ++ line_break) (children g n).
Proof.
  unfold write_node, node_line. rewrite <- !app_assoc. do 9 f_equal. apply flat_map_ext. intros c. unfold write_edge, edge_line. rewrite <- !app_assoc. reflexivity.
Qed.

Hypothesis words : forall n, forallb is_ident_continue (address n) = true.

Lemma id_word n : forallb is_ident_continue (node_id address n) = true.
Proof. unfold node_id. rewrite forallb_app, words. reflexivity. Qed.

Lemma edge_read n c : dot_statement (edge_line n c) = Some (Arrow (node_id address n) (node_id address c)).
Proof.
  unfold dot_statement, edge_line. change [horizontal_tab] with [ascii_of_N 9]. rewrite prefix_app, word_app; [|apply id_word|reflexivity]. rewrite prefix_app, word_app; [|apply id_word|reflexivity].
  reflexivity.
Qed.

Section Node.
Context (n : nat) (Hl : showable (view_label x u n)) (Hd : showable (view_description u st n)).

Lemma label_quoted r : quoted ($"{" ++ escape_string (view_label x u n) ++ match view_description u st n with [] => [] | d => $"|" ++ escape_string d end ++ $"}""" ++ r) = Some (label_of n, r).
Proof.
  rewrite (escape_showable _ Hl). rewrite quoted_app by reflexivity. rewrite quoted_dot.
  assert (E : quoted (match view_description u st n with [] => [] | d => $"|" ++ escape_string d end ++ $"}""" ++ r) =
              Some (match view_description u st n with [] => [] | d => $"|" ++ flat_map in_label d end ++ $"}", r)).
  { destruct (view_description u st n) as [|c d] eqn:Ed; [reflexivity|]. rewrite (escape_showable _ Hd). rewrite <- !app_assoc.
    rewrite quoted_app by reflexivity. rewrite quoted_dot. reflexivity. }
  rewrite E. reflexivity.
Qed.

Lemma label_fields : record_label (label_of n) = Some (field_texts n).
Proof.
  unfold record_label, label_of. rewrite prefix_app. unfold field_texts.
  rewrite (fields_label _ _ [] (match view_description u st n with [] => [] | d => [d] end)); [rewrite app_nil_r; reflexivity|].
  destruct (view_description u st n) as [|c d] eqn:Ed; [reflexivity|]. rewrite <- app_assoc.
  change (option_map (cons []) (fields (flat_map in_label (c :: d) ++ $"}")) = Some [[]; c :: d]).
  rewrite (fields_label (c :: d) ($"}") [] [] eq_refl), app_nil_r. reflexivity.
Qed.


Lemma node_read : dot_statement (node_line n) = Some (Box (node_id address n) (attributes_of n)).
Proof.
  unfold dot_statement, node_line. change [horizontal_tab] with [ascii_of_N 9]. rewrite prefix_app, word_app; [|apply id_word|reflexivity].
  change ($" [shape=record,") with ($" [" ++ $"shape" ++ $"=" ++ $"record" ++ $","). rewrite <- !app_assoc.
  match goal with |- context [without_prefix ($" -> ") ($" [" ++ ?r)] => replace (without_prefix ($" -> ") ($" [" ++ r)) with (@None str) by reflexivity end.
  rewrite prefix_app.
  match goal with |- context [attributes (length ?r) ?r] => set (rest := r); assert (L : exists f, length rest = S (S (S (S (S f))))) by (exists (length rest - 5); unfold rest; rewrite !app_length; cbn [length list_ascii_of_string]; lia) end.
  destruct L as (f & ->). unfold rest. rewrite attributes_plain; [|reflexivity|reflexivity|discriminate].
  rewrite view_attributes_parts, <- !app_assoc.
  set (lab := $"label" ++ $"=""" ++ $"{" ++ escape_string (view_label x u n) ++ match view_description u st n with [] => [] | d => $"|" ++ escape_string d end ++ $"}""" ++ $"];").
  assert (EL : forall k, attributes (S k) lab = Some ([($"label", label_of n)], $"];")).
  { intros k. unfold lab. apply attributes_last; [reflexivity|apply label_quoted|reflexivity]. }
  assert (Q : exists r, more n ++ $",label=""{" ++ escape_string (view_label x u n) ++ match view_description u st n with [] => [] | d => $"|" ++ escape_string d end ++ $"}""];" = $"," ++ r /\
              attributes (S (S (S f))) r = Some (more_attributes n ++ [($"label", label_of n)], $"];")).
  { unfold more, more_attributes. destruct (is_root u n); [|destruct (filled n)].
    - exists ($"shape" ++ $"=" ++ $"diamond" ++ $"," ++ $"fillcolor" ++ $"=" ++ $"Seashell2" ++ $"," ++ lab). split; [reflexivity|].
      rewrite attributes_plain; [|reflexivity|reflexivity|discriminate]. rewrite attributes_plain; [|reflexivity|reflexivity|discriminate]. rewrite EL. reflexivity.
    - exists ($"fillcolor" ++ $"=" ++ $"Seashell1" ++ $"," ++ lab). split; [reflexivity|].
      rewrite attributes_plain; [|reflexivity|reflexivity|discriminate]. rewrite EL. reflexivity.
    - exists lab. split; [reflexivity|]. rewrite EL. reflexivity. }
  destruct Q as (r & Er & Q). rewrite Er. rewrite (attributes_quoted _ _ _ (style_of n) r); [|reflexivity|].
  - rewrite Q. reflexivity.
  - rewrite (quoted_app _ _ (style_unquoted n)). replace (quoted ($"""" ++ $"," ++ r)) with (Some (@nil ascii, $"," ++ r)) by reflexivity. rewrite app_nil_r. reflexivity.
Qed.
End Node.
End View.

(** ** What boxes look like *)

Lemma get_named_lookup u st n a : get_named u st n = Some a <-> exists b, lookup_attrs st n = Some b /\ a = at_named b.
Proof.
  unfold get_named, get. destruct (lookup_attrs st n) as [b|]; cbn; split; [intros [= <-]; eauto|intros (b' & [= <-] & ->); reflexivity|discriminate|intros (b' & [=] & _)].
Qed.

Lemma boxes_look x u st n : showable (view_label x u n) -> showable (view_description u st n) -> looks x u st n (attributes_of x u st n).
Proof.
  intros Hl Hd. constructor.
  - exists (label_of x u st n), (field_texts x u st n). split.
    { unfold attributes_of, attribute, more_attributes. cbn [rev]. rewrite rev_app_distr. reflexivity. }
    split; [apply label_fields; assumption|]. unfold caption_of, field_texts, view_label, view_description, view_attrs, is_root.
    destruct (Nat.eqb_spec n (u_root u)) as [E|N]; [left; split; [exact E|reflexivity]|right; split; [exact N|]].
    exists (match nm_display x n with [] => $"<" ++ nm_kind x n ++ $">" | s => s end). split.
    { destruct (nm_display x n) as [|c d]; [right; split; reflexivity|left; split; [discriminate|reflexivity]]. }
    unfold get_named, get. destruct (lookup_attrs st n) as [b|] eqn:Eb; cbn.
    + destruct (n_spelling (at_named b)) as [|c d] eqn:Es.
      * right. split; [intros a [= <-]; exact Es|reflexivity].
      * left. exists b. rewrite Es. split; [reflexivity|split; [discriminate|reflexivity]].
    + right. split; [discriminate|reflexivity].
  - unfold attributes_of, attribute, more_attributes, is_root. destruct (Nat.eqb n (u_root u)); [reflexivity|]. destruct (filled u n); reflexivity.
  - exists (style_of u st n). split.
    { unfold attributes_of, attribute, more_attributes. destruct (is_root u n); [reflexivity|]. destruct (filled u n); reflexivity. }
    assert (V : (visibility_word u st n = $"dotted" /\ n <> u_root u /\ exists a, lookup_attrs st n = Some a /\ n_visible (at_named a) = None) \/
                (visibility_word u st n = $"dashed" /\ n <> u_root u /\ exists a, lookup_attrs st n = Some a /\ n_visible (at_named a) = Some false) \/
                (visibility_word u st n = [] /\ ~ (n <> u_root u /\ exists a, lookup_attrs st n = Some a /\ n_visible (at_named a) <> Some true))).
    { unfold visibility_word, view_attrs, is_root. destruct (Nat.eqb_spec n (u_root u)) as [E|N].
      - right. right. split; [reflexivity|]. intros (H & _). contradiction.
      - unfold get_named, get. destruct (lookup_attrs st n) as [b|] eqn:Eb; cbn.
        + destruct (n_visible (at_named b)) as [[|]|] eqn:Ev.
          * right. right. split; [reflexivity|]. intros (_ & a & [= <-] & H). apply H, Ev.
          * right. left. split; [reflexivity|]. split; [exact N|]. exists b. split; [reflexivity|exact Ev].
          * left. split; [reflexivity|]. split; [exact N|]. exists b. split; [reflexivity|exact Ev].
        + right. right. split; [reflexivity|]. intros (_ & a & [=] & _). }
    assert (F : filled u n = true <-> n = u_root u \/ kind u n = KNamespace).
    { unfold filled, is_root. rewrite orb_true_iff, Nat.eqb_eq. destruct (kind u n); split; intros [H|H]; auto; discriminate H. }
    assert (R : forall w, In w (style_words (style_of u st n)) <-> w = visibility_word u st n \/ filled u n = true /\ (w = $"filled" \/ w = $"bold")).
    { intros w. unfold style_of. destruct V as [(-> & _)|[(-> & _)|(-> & _)]]; destruct (filled u n); cbn; split; intros H; decompose [or and] H; subst; auto; try discriminate; contradiction. }
    rewrite !R, F. split; [|split].
    + split.
      * intros [H|(_ & [H|H])]; try discriminate H. destruct V as [(_ & V)|[(V & _)|(V & _)]]; [exact V| |]; rewrite V in H; discriminate H.
      * intros (N & a & Ha & Hv). left. destruct V as [(V & _)|[(_ & _ & a' & Ha' & Hv')|(_ & V)]]; [symmetry; exact V| |].
        -- rewrite Ha in Ha'. injection Ha' as <-. rewrite Hv in Hv'. discriminate Hv'.
        -- exfalso. apply V. split; [exact N|]. exists a. split; [exact Ha|]. rewrite Hv. discriminate.
    + split.
      * intros [H|(_ & [H|H])]; try discriminate H. destruct V as [(V & _)|[(_ & V)|(V & _)]]; [|exact V|]; rewrite V in H; discriminate H.
      * intros (N & a & Ha & Hv). left. destruct V as [(_ & _ & a' & Ha' & Hv')|[(V & _)|(_ & V)]]; [|symmetry; exact V|].
        -- rewrite Ha in Ha'. injection Ha' as <-. rewrite Hv in Hv'. discriminate Hv'.
        -- exfalso. apply V. split; [exact N|]. exists a. split; [exact Ha|]. rewrite Hv. discriminate.
    + split.
      * intros [H|(H & _)]; [|exact H]. destruct V as [(V & _)|[(V & _)|(V & _)]]; rewrite V in H; discriminate H.
      * intros H. right. split; [exact H|left; reflexivity].
  - intros c. unfold attributes_of, attribute, more_attributes, is_root. destruct (Nat.eqb_spec n (u_root u)) as [E|N]; [intros _; left; exact E|].
    unfold filled, is_root. destruct (Nat.eqb_spec n (u_root u)) as [E|_]; [contradiction|]. cbn [orb]. destruct (kind u n); cbn; try discriminate. intros _. right. reflexivity.
Qed.

(** ** Whole graphs *)

Lemma not_in_words c w : is_ident_continue c = false -> forallb is_ident_continue w = true -> ~ In c w.
Proof. intros Hc Hw Hi. rewrite forallb_forall in Hw. rewrite (Hw c Hi) in Hc. discriminate Hc. Qed.

Lemma not_in_escaped s : showable s -> ~ In (ascii_of_N 10) (escape_string s).
Proof.
  intros H. rewrite (escape_showable _ H). intros Hi. apply in_flat_map in Hi as (c & Hc & Hi). destruct (proj1 H c Hc) as (_ & H2).
  unfold in_dot in Hi. destruct (escaped c || Ascii.eqb c backslash); cbn in Hi; decompose [or] Hi; try contradiction; try discriminate; congruence.
Qed.

Ltac no_break := intros Hbr; cbn in Hbr; decompose [or] Hbr; try discriminate; contradiction.

Section Graph.
Context (x : names) (u : unit) (st : storage) (g : graph) (address : nat -> str) (iteration : list nat -> list nat).
Hypothesis words : forall n, forallb is_ident_continue (address n) = true.
Hypothesis different : forall n m, address n = address m -> n = m.
Hypothesis tree : tree_like g (u_root u).
Hypothesis labels : forall n, In n (g_nodes g) -> showable (view_label x u n) /\ showable (view_description u st n).
Hypothesis order : Permutation (iteration (g_nodes g)) (g_nodes g).

Definition lines_of (n : nat) : list str := node_line x u st address n :: map (edge_line address n) (children g n).
Definition shown_of (n : nat) : list shown :=
  Box (node_id address n) (attributes_of x u st n) :: map (fun c => Arrow (node_id address n) (node_id address c)) (children g n).

Lemma edge_single n c : ~ In (ascii_of_N 10) (edge_line address n c).
Proof.
  unfold edge_line. intros H. apply in_app_or in H as [H|H]; [revert H; no_break|]. apply in_app_or in H as [H|H]; [revert H; apply not_in_words; [reflexivity|apply id_word, words]|].
  apply in_app_or in H as [H|H]; [revert H; no_break|]. apply in_app_or in H as [H|H]; [revert H; apply not_in_words; [reflexivity|apply id_word, words]|revert H; no_break].
Qed.

Lemma node_single n : In n (g_nodes g) -> ~ In (ascii_of_N 10) (node_line x u st address n).
Proof.
  intros Hn H. destruct (labels n Hn) as (Hl & Hd). unfold node_line in H.
  apply in_app_or in H as [H|H]; [revert H; no_break|]. apply in_app_or in H as [H|H]; [revert H; apply not_in_words; [reflexivity|apply id_word, words]|].
  apply in_app_or in H as [H|H]; [revert H; no_break|]. apply in_app_or in H as [H|H].
  { revert H. unfold view_attributes. destruct (view_attrs u st n) as [a|]; [destruct (n_visible a) as [[|]|]|]; destruct (is_root u n); try (destruct (kind u n)); no_break. }
  apply in_app_or in H as [H|H]; [revert H; no_break|]. apply in_app_or in H as [H|H]; [apply (not_in_escaped _ Hl H)|].
  apply in_app_or in H as [H|H]; [|revert H; no_break]. destruct (view_description u st n) as [|c d] eqn:Ed; [destruct H|].
  apply in_app_or in H as [H|H]; [revert H; no_break|]. apply (not_in_escaped _ Hd H).
Qed.

Lemma edges_lines n cs r : text_lines (flat_map (fun c => edge_line address n c ++ line_break) cs ++ r) = map (edge_line address n) cs ++ text_lines r.
Proof.
  induction cs as [|c cs IH]; [reflexivity|]. cbn [flat_map map]. rewrite <- !app_assoc. rewrite lines_app by apply edge_single. rewrite IH. reflexivity.
Qed.

Lemma nodes_lines ns r : incl ns (g_nodes g) -> text_lines (flat_map (write_node x u st g address) ns ++ r) = flat_map lines_of ns ++ text_lines r.
Proof.
  induction ns as [|n ns IH]; intros Hi; [reflexivity|]. cbn [flat_map]. rewrite write_node_lines. rewrite <- !app_assoc.
  rewrite lines_app by (apply node_single, Hi; left; reflexivity). rewrite edges_lines, IH by (intros m Hm; apply Hi; right; exact Hm). unfold lines_of. cbn. rewrite <- app_assoc. reflexivity.
Qed.

Lemma statements_read ns : incl ns (g_nodes g) -> Forall2 (fun l s => dot_statement l = Some s) (flat_map lines_of ns) (flat_map shown_of ns).
Proof.
  induction ns as [|n ns IH]; intros Hi; [constructor|]. cbn [flat_map]. apply Forall2_app; [|apply IH; intros m Hm; apply Hi; right; exact Hm].
  constructor; [apply node_read; [exact words| |]; apply labels, Hi; left; reflexivity|].
  induction (children g n) as [|c cs IHc]; constructor; [apply edge_read, words|exact IHc].
Qed.

Lemma graph_read : dot_graph (view_graph x u st g address iteration) = Some (flat_map shown_of (iteration (g_nodes g))).
Proof.
  assert (Hi : incl (iteration (g_nodes g)) (g_nodes g)) by (intros n Hn; apply (Permutation_in _ order Hn)).
  unfold dot_graph, view_graph. rewrite lines_app by no_break. change (line_break ++ flat_map (write_node x u st g address) (iteration (g_nodes g)) ++ $"}" ++ line_break)
    with ([] ++ line_break ++ flat_map (write_node x u st g address) (iteration (g_nodes g)) ++ $"}" ++ line_break).
  rewrite lines_app by no_break. rewrite nodes_lines by exact Hi. replace (text_lines ($"}" ++ line_break)) with [$"}"; []] by reflexivity.
  rewrite !str_eqb_refl. cbn [andb]. apply statements_app, statements_read, Hi.
Qed.

Lemma boxes_shown ns : boxes (flat_map shown_of ns) = map (fun n => (node_id address n, attributes_of x u st n)) ns.
Proof.
  induction ns as [|n ns IH]; [reflexivity|]. cbn [flat_map map]. unfold boxes in *. rewrite flat_map_app, IH. unfold shown_of. cbn [flat_map].
  replace (flat_map _ (map (fun c : nat => Arrow (node_id address n) (node_id address c)) (children g n))) with (@nil (str * list (str * str))); [reflexivity|].
  induction (children g n); [reflexivity|assumption].
Qed.
Lemma arrows_shown ns : arrows (flat_map shown_of ns) = flat_map (fun n => map (fun c => (node_id address n, node_id address c)) (children g n)) ns.
Proof.
  induction ns as [|n ns IH]; [reflexivity|]. cbn [flat_map]. unfold arrows in *. rewrite flat_map_app, IH. f_equal. unfold shown_of. cbn [flat_map app].
  induction (children g n) as [|c cs IHc]; [reflexivity|]. cbn [map flat_map app]. f_equal. exact IHc.
Qed.

Lemma ids_different n m : node_id address n = node_id address m -> n = m.
Proof. unfold node_id. intros H. apply app_inv_head in H. apply different, H. Qed.

Lemma map_nodup {A B} (f : A -> B) l : (forall a b, f a = f b -> a = b) -> NoDup l -> NoDup (map f l).
Proof. intros H. induction 1 as [|a l Ha N IH]; [constructor|]. cbn. constructor; [|exact IH]. rewrite in_map_iff. intros (b & E & Hb). apply H in E. subst b. contradiction. Qed.

Lemma graph_depicted : depicts x u st g (view_graph x u st g address iteration).
Proof.
  assert (Hin : forall n, In n (iteration (g_nodes g)) <-> In n (g_nodes g)).
  { intros n. split; apply Permutation_in; [exact order|apply Permutation_sym, order]. }
  assert (Hnd : NoDup (iteration (g_nodes g))) by (apply (Permutation_NoDup (Permutation_sym order)), (tl_nodes _ _ tree)).
  exists (flat_map shown_of (iteration (g_nodes g))), (node_id address). rewrite boxes_shown, arrows_shown. split; [exact graph_read|]. split; [exact ids_different|]. split; [|split].
  - rewrite map_map. cbn [fst]. split; [apply map_nodup; [exact ids_different|exact Hnd]|]. intros b. rewrite in_map_iff. split.
    + intros (n & <- & Hn). exists n. split; [apply Hin, Hn|reflexivity].
    + intros (n & Hn & ->). exists n. split; [reflexivity|apply Hin, Hn].
  - intros n Hn. exists (attributes_of x u st n). split; [apply (in_map (fun m => (node_id address m, attributes_of x u st m))), Hin, Hn|]. apply boxes_look; apply labels, Hn.
  - split.
    + apply nodup_flat_map; [exact Hnd| |].
      * intros n _. apply map_nodup; [intros a b [= E]; apply different, E|]. apply (children_nodup _ _ n tree).
      * intros n m b Hb Hb'. apply in_map_iff in Hb as (c & <- & _). apply in_map_iff in Hb' as (c' & E & _). injection E as E _. symmetry. apply different, E.
    + intros a b. rewrite in_flat_map. split.
      * intros (n & _ & H). apply in_map_iff in H as (c & [= <- <-] & Hc). exists n, c. split; [apply children_iff, Hc|split; reflexivity].
      * intros (p & c & He & -> & ->). exists p. split; [apply Hin, (tl_ends _ _ tree p c He)|]. apply (in_map (fun c => (node_id address p, node_id address c))), children_iff, He.
Qed.
End Graph.

(** ** Names *)

Lemma own_avoids d u i a : is_ident_continue d = false -> own_attributes u i a -> ~ In d (n_spelling (at_named a)).
Proof.
  intros Hd (st & ds & Hi & Ha). destruct (d_skip (u_decls u i)) eqn:Es.
  - unfold insert in Hi. rewrite Es in Hi. injection Hi as <- <-. discriminate Ha.
  - destruct (insert_spelling _ _ _ _ _ Hi eq_refl Es) as (a' & ans & bad & Ha' & _ & _ & H). rewrite Ha in Ha'. injection Ha' as <-.
    destruct H as [->|(c & r & -> & Hc & Hr)]; [intros []|]. intros [E|Hin].
    + subst c. unfold is_ident_continue in Hd. rewrite Hc in Hd. discriminate Hd.
    + rewrite forallb_forall in Hr. rewrite (Hr _ Hin) in Hd. discriminate Hd.
Qed.

Lemma spelling_avoids d u b : is_ident_continue d = false -> placed u -> build_graph u = Done (true, b) -> (forall n, ~ In d (u_name u n)) ->
  forall n a, lookup_attrs (bs_annotations b) n = Some a -> ~ In d (n_spelling (at_named a)).
Proof.
  intros Hd P Hb Hu n a Ha. destruct (collect u) as [s|] eqn:Hc.
  2: { destruct (no_graph_iff u P) as (_ & H & _). apply H in Hc. congruence. }
  destruct (attributes_of_targets u P b s Hc Hb n) as (H1 & H2).
  assert (K : ~ ~ ((exists a0, relocates u a0 n) \/ (forall a0, ~ relocates u a0 n))) by (intros N; apply N; right; intros a0 H; apply N; left; exists a0; exact H).
  assert (K' : ~ ~ ((exists a0, encourages u a0 n) \/ (forall a0, ~ encourages u a0 n))) by (intros N; apply N; right; intros a0 H; apply N; left; exists a0; exact H).
  intros Hin. apply K. intros D. apply K'. intros D'. revert Hin. change (~ In d (n_spelling (at_named a))).
  destruct D as [(a0 & Hr)|D].
  - destruct (H2 a0 (or_introl Hr)) as (y & z & Hy & Hz & _ & Hsp & _). rewrite Ha in Hy. injection Hy as <-.
    destruct Hr as (x & Hal & Hx). pose proof Hal as (_ & _ & _ & _ & Hown). rewrite (Hsp a0 x); [|exists x; split; assumption|exact Hown].
    pose proof (own_avoids d u a0 x Hd Hown) as Hpl. destruct (n_spelling (at_named x)); [apply Hu|exact Hpl].
  - destruct D' as [(e & He)|D'].
    + destruct (H2 e (or_intror He)) as (y & z & Hy & Hz & _ & _ & Hsp & _). rewrite Ha in Hy. injection Hy as <-. rewrite (Hsp D). apply (own_avoids d u n z Hd Hz).
    + rewrite (H1 D D') in Ha. destruct (collected_declarations u s (pl_sane u P) Hc) as (_ & _ & H & _).
      destruct (H n) as (st' & ds & a' & E1 & E2 & E3).
      * clear -Ha. induction (cs_annotations s) as [|[j y] l IH]; [discriminate|]. cbn in *. destruct (Nat.eqb_spec n j) as [->|]; [left; reflexivity|right; apply IH; exact Ha].
      * rewrite Ha in E3. injection E3 as <-. apply (own_avoids d u n a Hd). exists st', ds. split; assumption.
Qed.

Lemma simple_app s t : simple_text s -> simple_text t -> simple_text (s ++ t).
Proof. intros Hs Ht c Hc. apply in_app_or in Hc as [Hc|Hc]; [apply Hs, Hc|apply Ht, Hc]. Qed.

Lemma simple_showable s : simple_text s -> showable s.
Proof.
  intros H. split; [intros c Hc; destruct (H c Hc) as (H1 & H2 & _); split; assumption|]. intros a d b ->.
  destruct (H (ascii_of_N 92)) as (_ & _ & H'); [apply in_or_app; right; left; reflexivity|]. destruct H'. reflexivity.
Qed.

Lemma texts_showable x u b : showable_names x u -> placed u -> build_graph u = Done (true, b) ->
  forall n, showable (view_label x u n) /\ showable (view_description u (bs_annotations b) n).
Proof.
  intros Hs P Hb n. destruct (Hs n) as (H1 & H2 & _). split.
  - unfold view_label. destruct (is_root u n).
    + apply simple_showable. intros c [<-|[]]. split; [|split]; discriminate.
    + destruct (nm_display x n) as [|c d]; [|exact H2]. apply simple_showable, simple_app; [|apply simple_app; [exact H1|]]; intros c [<-|[]]; split; try split; discriminate.
  - apply simple_showable. unfold view_description, view_attrs. destruct (is_root u n); [intros c []|]. unfold get_named, get. cbn. destruct (lookup_attrs (bs_annotations b) n) as [a|] eqn:Ea; cbn; [|intros c []].
    assert (A : forall d, is_ident_continue d = false -> (forall m, ~ In d (u_name u m)) -> ~ In d (n_spelling (at_named a))) by (intros d Hd Hu; apply (spelling_avoids d u b Hd P Hb Hu n a Ea)).
    intros c Hc. split; [|split]; intros ->; revert Hc; apply A; try reflexivity; intros m Hm; destruct (Hs m) as (_ & _ & Hn); destruct (Hn _ Hm) as (N1 & N2 & N3); contradiction.
Qed.

(** ** The options *)

Lemma stage_in s l : existsb (stage_eqb s) l = true <-> In s l.
Proof.
  rewrite existsb_exists. split; [intros (t & Ht & E)|intros H; exists s; split; [exact H|destruct s; reflexivity]].
  destruct s, t; try discriminate E; exact Ht.
Qed.

Lemma stages_spec u : placed u -> forall found implicit module_name g' contexts vis' warned b,
  process u found implicit module_name = Done (Pruned g' contexts vis' warned b) -> forall x address iteration,
  showable_names x u -> proper_addresses address -> (forall l, Permutation (iteration l) l) ->
  exists dot dot' text text' N,
    depicts x u (bs_annotations b) (bs_graph b) dot /\ depicts x u (bs_annotations b) g' dot' /\
    (forall fuel, N <= fuel -> inspect fuel x u true false found implicit module_name = Printed text /\ inspect fuel x u false true found implicit module_name = Printed text') /\
    forall views dumps fuel, N <= fuel -> exists l l',
      inspect_stages x u address iteration views dumps fuel found implicit module_name = Printed (l ++ l') /\
      stage_output views dumps StageVisibility dot text l /\ stage_output views dumps StagePruned dot' text' l'.
Proof.
  intros P found implicit mname g' contexts vis' warned b H x address iteration Hs (Hw & Hd) Ho.
  assert (S := process_spec u P found implicit mname). rewrite H in S. cbn zeta in S. destruct S as (vis & contexts0 & Hb & Hv & Hcy & Hcx & Hh & Hp & Hwn).
  destruct (one_place u P b Hb) as (T & _). set (g := bs_graph b) in *. set (st := bs_annotations b) in *.
  destruct (visibility_spec u st g T) as (m & Em & Hm1 & Hm2). rewrite Hv in Em. injection Em as <-.
  assert (Hk : forall n, reachable g (u_root u) n -> exists v, dlookup vis n = Some v) by (intros n Hn; apply Hm1, Hn).
  destruct (hide_spec u st mname g T contexts0 vis) as (c2 & v2 & E2 & Hh1 & Hh2). rewrite Hh in E2. injection E2 as <- <-.
  assert (Hk' : forall n, reachable g (u_root u) n -> exists v, dlookup vis' n = Some v).
  { intros n (l & Hl). destruct (Hh1 n l Hl) as (_ & A & B).
    assert (D : (exists m, In m (n :: l) /\ foreign u st mname m) \/ ~ (exists m, In m (n :: l) /\ foreign u st mname m)).
    { apply exists_foreign_dec. }
    destruct D as [D|D]; [exists false; apply A, D|]. rewrite (B D). apply Hk. exists l. exact Hl. }
  destruct (pruned_spec u contexts vis' g T Hk') as (g2 & E2 & T' & He & Hn & Hr & Hpath). rewrite Hp in E2. injection E2 as <-.
  assert (Hk2 : forall n, reachable g' (u_root u) n -> exists v, dlookup vis' n = Some v).
  { intros n (l & Hl). apply Hk'. exists l. apply Hpath, Hl. }
  destruct (inspect_graph_spec x u st vis g visibility_title T Hk) as (ts & _ & _ & _ & N1 & text & _ & A).
  destruct (inspect_graph_spec x u st vis' g' pruned_title T' Hk2) as (ts' & _ & _ & _ & N2 & text' & _ & B).
  pose proof (texts_showable x u b Hs P Hb) as L.
  assert (A' : exists t, forall fuel, N1 <= fuel -> inspect_graph x u st vis g fuel visibility_title = Printed t) by (eexists; exact A).
  assert (B' : exists t, forall fuel, N2 <= fuel -> inspect_graph x u st vis' g' fuel pruned_title = Printed t) by (eexists; exact B).
  clear text text' A B. destruct A' as (text & A). destruct B' as (text' & B).
  exists (view_graph x u st g address iteration), (view_graph x u st g' address iteration), text, text', (N1 + N2).
  split; [apply graph_depicted; auto|]. split; [apply graph_depicted; auto|]. split.
  - intros fuel Hf. unfold inspect. rewrite H. fold g st. rewrite Hv, A, B by lia. cbn [bind]. rewrite app_nil_r. split; reflexivity.
  - intros views dumps fuel Hf. unfold inspect_stages. rewrite H. fold g st. rewrite Hv. unfold inspect_stage. cbn [graph_title]. rewrite A, B by lia.
    exists ((if existsb (stage_eqb StageVisibility) views then [Displayed (view_graph x u st g address iteration)] else []) ++ if existsb (stage_eqb StageVisibility) dumps then [Dumped text] else []),
           ((if existsb (stage_eqb StagePruned) views then [Displayed (view_graph x u st g' address iteration)] else []) ++ if existsb (stage_eqb StagePruned) dumps then [Dumped text'] else []).
    assert (O : forall s dot t, stage_output views dumps s dot t ((if existsb (stage_eqb s) views then [Displayed dot] else []) ++ if existsb (stage_eqb s) dumps then [Dumped t] else [])).
    { intros s dot t. eexists _, _. split; [reflexivity|]. rewrite <- (stage_in s views), <- (stage_in s dumps).
      destruct (existsb (stage_eqb s) views), (existsb (stage_eqb s) dumps); repeat split; intros H'; try reflexivity; try discriminate H'; destruct (H' eq_refl). }
    split; [|split; apply O]. destruct (existsb (stage_eqb StageVisibility) dumps), (existsb (stage_eqb StagePruned) dumps); reflexivity.
Qed.

Lemma stages_nothing u found implicit module_name x address iteration views dumps fuel :
  (forall g' contexts vis' warned b, process u found implicit module_name <> Done (Pruned g' contexts vis' warned b)) ->
  inspect_stages x u address iteration views dumps fuel found implicit module_name = Printed [].
Proof. intros H. unfold inspect_stages. destruct (process u found implicit module_name) as [[| |]| |]; try reflexivity. destruct (H _ _ _ _ _ eq_refl). Qed.
