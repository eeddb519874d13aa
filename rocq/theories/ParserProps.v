(** * Properties of the annotation parser (C01 - C06). *)
From Verif Require Import Base ParserModel ParserSpec ParserProofs.

(** C01: a text is accepted exactly if it is generated by the grammar, with
    exactly the annotations the grammar assigns to it. *)
Theorem parser_accepts_exactly_the_grammar :
  forall text l, parse_annotations text = ROk l <-> denotes text l.
Proof. exact parse_ok_iff. Qed.
Print Assumptions parser_accepts_exactly_the_grammar.

(** C01: the meaning of a text is unique. *)
Theorem annotation_texts_are_unambiguous :
  forall text l1 l2, denotes text l1 -> denotes text l2 -> l1 = l2.
Proof. exact denotes_unique. Qed.
Print Assumptions annotation_texts_are_unambiguous.

(** C01: parsing into an existing list appends to it. *)
Theorem parser_appends_to_given_list :
  forall text acc acc', parse_annotations_into text acc = (ROk tt, acc') <->
    exists l, denotes text l /\ acc' = acc ++ l.
Proof. exact parse_into_ok. Qed.
Print Assumptions parser_appends_to_given_list.

(** C01: parsing always terminates with success or an error. *)
Theorem parser_terminates : forall text, parse_annotations text <> RFuel.
Proof. exact parse_fuel. Qed.
Print Assumptions parser_terminates.

Example C01_example : denotes $" expose_as( ""x"" ,),hidden(default, 7)" 
  [mkAnnotation ExposeAs [LString $"x"]; mkAnnotation Hidden [LDefault; LUnsigned 7]].
Proof. apply parse_ok_iff. vm_compute. reflexivity. Qed.

(** C02: an error is reported for the first token at which no valid
    continuation exists any more, with the kind due at that position; the
    annotations complete before that point are still delivered. *)
Theorem parser_error_at_first_dead_end :
  forall text acc e acc', parse_annotations_into text acc = (RErr e, acc') ->
  exists pre rest anns p,
    lexes text (pre ++ rest) /\ at_position pre anns p /\ viable pre /\ dead_end pre rest /\
    e = mkError (error_at p (offending rest)) (offending_text rest) /\ acc' = acc ++ anns.
Proof. exact parse_error_dead_end. Qed.
Print Assumptions parser_error_at_first_dead_end.

(** C02: there is at most one such position. *)
Theorem first_dead_end_is_unique :
  forall pre1 rest1 pre2 rest2, pre1 ++ rest1 = pre2 ++ rest2 ->
    viable pre1 -> dead_end pre1 rest1 -> viable pre2 -> dead_end pre2 rest2 ->
    pre1 = pre2 /\ rest1 = rest2.
Proof. exact dead_end_unique. Qed.
Print Assumptions first_dead_end_is_unique.

Example C02_example : parse_annotations_into $"visible, hidden(1 2)" [] =
  (RErr (mkError MissingClosingParen $"2"), [mkAnnotation Visible []]).
Proof. vm_compute. reflexivity. Qed.

(** C03: the delivered tokens, with the skipped white space, make up the text;
    afterwards only end-of-input is delivered. *)
Theorem tokenizer_is_lossless :
  forall text, exists n ws wlast,
  let toks := consume_n n (make_tokenizer text) in
  length ws = n /\ Forall (fun w => forallb is_hspace w = true) ws /\ forallb is_hspace wlast = true /\
  text = concat (map (fun p => fst p ++ snd p) (combine ws (map t_text toks))) ++ wlast /\
  Forall (fun t => t_kind t <> TkEof /\ t_text t <> []) toks /\
  forall m, consume_n (n + m) (make_tokenizer text) = toks ++ repeat (mkToken TkEof [] LNothing) m.
Proof. exact tokenizer_lossless_lemma. Qed.
Print Assumptions tokenizer_is_lossless.

(** C03: every text has exactly one division into tokens (maximal munch). *)
Theorem tokenisation_total_and_deterministic :
  forall text, exists ts, lexes text ts /\ forall ts', lexes text ts' -> ts' = ts.
Proof. exact lexes_total_unique. Qed.
Print Assumptions tokenisation_total_and_deterministic.

(** C03: and that is the one delivered. *)
Theorem tokenizer_follows_lexical_structure :
  forall text ts, lexes text ts ->
    map (fun t => (t_kind t, t_text t, t_value t)) (consume_n (length ts) (make_tokenizer text)) =
    map (fun t => (lexical_kind t, stext t, lexical_value t)) ts.
Proof. exact tokenizer_follows. Qed.
Print Assumptions tokenizer_follows_lexical_structure.

Example C03_example : lexes $"a ""\"""" ?" [SIdent $"a"; SStr $"\"""; SBad $"?"].
Proof.
  apply (lexes_cons [] (SIdent $"a") $" ""\"""" ?"); [reflexivity|constructor; reflexivity|].
  apply (lexes_cons $" " (SStr $"\""") $" ?"); [reflexivity|repeat constructor; discriminate|].
  apply (lexes_cons $" " (SBad $"?") []); [reflexivity| |constructor; reflexivity].
  apply lx_char; try reflexivity. cbn. intuition discriminate.
Qed.

(** C04: texts with the same tokens are treated alike. *)
Theorem parser_depends_only_on_tokens :
  forall t1 t2 ts acc, lexes t1 ts -> lexes t2 ts ->
    parse_annotations_into t1 acc = parse_annotations_into t2 acc.
Proof. exact lexes_same_parse. Qed.
Print Assumptions parser_depends_only_on_tokens.

(** C04: the amount and kind of white space between tokens is irrelevant. *)
Theorem whitespace_between_tokens_irrelevant :
  forall a b ts1 ts2 w1 w2 acc,
    lexes a ts1 -> lexes b ts2 -> Forall good_token ts1 ->
    w1 <> [] -> w2 <> [] -> forallb is_hspace w1 = true -> forallb is_hspace w2 = true ->
    parse_annotations_into (a ++ w1 ++ b) acc = parse_annotations_into (a ++ w2 ++ b) acc.
Proof. exact whitespace_between. Qed.
Print Assumptions whitespace_between_tokens_irrelevant.

(** C04: so is white space around the text. *)
Theorem whitespace_around_irrelevant :
  forall a ts w1 w2 acc,
    lexes a ts -> Forall good_token ts -> forallb is_hspace w1 = true -> forallb is_hspace w2 = true ->
    parse_annotations_into (w1 ++ a ++ w2) acc = parse_annotations_into a acc.
Proof. exact whitespace_around. Qed.
Print Assumptions whitespace_around_irrelevant.

(** C04: white space next to punctuation may be dropped altogether. *)
Theorem whitespace_next_to_punctuation_optional :
  forall a b p ts1 ts2 w1 w2 acc,
    lexes a ts1 -> lexes b ts2 -> Forall good_token ts1 -> In p [SOpen; SClose; SComma] ->
    forallb is_hspace w1 = true -> forallb is_hspace w2 = true ->
    parse_annotations_into (a ++ w1 ++ stext p ++ w2 ++ b) acc = parse_annotations_into (a ++ stext p ++ b) acc.
Proof. exact whitespace_punctuation. Qed.
Print Assumptions whitespace_next_to_punctuation_optional.

Example C04_example : exists ts1 ts2,
  lexes $"expose_as(" ts1 /\ lexes $"""a b"")" ts2 /\ Forall good_token ts1.
Proof.
  exists [SIdent $"expose_as"; SOpen], [SStr $"a b"; SClose]. repeat split.
  - apply (lexes_cons [] (SIdent $"expose_as") $"("); [reflexivity|constructor; reflexivity|].
    apply (lexes_cons [] SOpen []); [reflexivity|constructor|constructor; reflexivity].
  - apply (lexes_cons [] (SStr $"a b") $")"); [reflexivity|repeat constructor; discriminate|].
    apply (lexes_cons [] SClose []); [reflexivity|constructor|constructor; reflexivity].
  - repeat constructor.
Qed.

(** C05: a digit string of any length is taken at its mathematical value or
    rejected, never truncated. *)
Theorem integer_literals_exact :
  forall k s, s <> [] -> forallb is_digit s = true ->
  parse_annotations (kind_spelling k ++ $"(" ++ s ++ $")") =
  if (dec_value s <=? max_unsigned)%N then ROk [mkAnnotation k [LUnsigned (dec_value s)]]
  else RErr (mkError InvalidToken s).
Proof. exact number_argument_lemma. Qed.
Print Assumptions integer_literals_exact.

(** C05: every value in a successful result is in range. *)
Theorem parsed_values_in_range :
  forall text l, parse_annotations text = ROk l -> Forall (fun a => Forall lit_in_range (a_args a)) l.
Proof. exact parse_values_in_range. Qed.
Print Assumptions parsed_values_in_range.

Example C05_example_wraps_around_64_bits :
  (* 2^64 + 1, would wrap around to 1 *)
  parse_annotations $"keep_alive(18446744073709551617)" = RErr (mkError InvalidToken $"18446744073709551617").
Proof. vm_compute. reflexivity. Qed.

(** C06: printing an annotation and parsing the result yields the annotation
    again exactly if no string argument contains a quote, a backslash or an
    unprintable character, and no argument is the 'nothing' value. *)
Theorem print_parse_round_trip_exactly_when_plain :
  forall a, printable a ->
    (parse_annotations (print_annotation a) = ROk [a] <-> Forall plain_lit (a_args a)).
Proof. exact round_trip_iff. Qed.
Print Assumptions print_parse_round_trip_exactly_when_plain.

(** C06: printed annotations are always accepted, as one annotation of the
    same kind with the same number of arguments. *)
Theorem printed_annotation_parses :
  forall a, printable a -> exists args, length args = length (a_args a) /\
    parse_annotations (print_annotation a) = ROk [mkAnnotation (a_kind a) args].
Proof. exact printed_parses. Qed.
Print Assumptions printed_annotation_parses.

(** C06: the unconditional round trip fails: a string with a quote in it, which can be
    built through the API, comes back with a backslash in it. *)
Theorem print_parse_round_trip_refuted :
  exists a, printable a /\ parse_annotations (print_annotation a) <> ROk [a].
Proof. exact round_trip_refuted. Qed.
Print Assumptions print_parse_round_trip_refuted.

(** C06: even for annotations that are themselves the result of parsing. *)
Theorem parsed_annotation_round_trip_refuted :
  exists text a, parse_annotations text = ROk [a] /\ parse_annotations (print_annotation a) <> ROk [a].
Proof. exact parsed_round_trip_refuted. Qed.
Print Assumptions parsed_annotation_round_trip_refuted.

Example C06_example : let a := mkAnnotation KeepAlive [LString $"this"; LString $"x y"; LUnsigned 42; LBool true] in
  printable a /\ Forall plain_lit (a_args a).
Proof. cbn. split; repeat constructor; try discriminate. Qed.
