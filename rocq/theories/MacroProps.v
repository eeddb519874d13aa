(** * Properties of the macros used to write annotations (C70, C71). *)
From Verif Require Import Base ParserModel ParserSpec AnnotModel AnnotSpec ModuleModel MacroModel MacroSpec MacroProofs.

(** C70: annotations written in a source file, with any white space, line
    breaks and comments between tokens, are the ones that are parsed. *)
Theorem annotations_reach_the_parser_as_written :
  forall defs src ts l rest items o,
    written ts src -> g_annotations ts l -> (forall n, In (SIdent n) ts -> no_macro defs n) ->
    pp_lex rest = Some items -> preprocess_items true defs items = Some o ->
    exists text, preprocess_text true defs ($"GENPYBIND(" ++ src ++ $")" ++ rest) = Some (OAnnotate (lozenge ++ text) :: o) /\
      denotes text l.
Proof. exact annotations_as_written_lemma. Qed.
Print Assumptions annotations_reach_the_parser_as_written.

(** C70: the same holds for the tokens of wrong annotations, as long as their
    parentheses match. *)
Theorem annotation_tokens_are_preserved :
  forall defs src ts rest items o,
    written ts src -> matched ts -> (forall n, In (SIdent n) ts -> no_macro defs n) ->
    pp_lex rest = Some items -> preprocess_items true defs items = Some o ->
    exists text, preprocess_text true defs ($"GENPYBIND(" ++ src ++ $")" ++ rest) = Some (OAnnotate (lozenge ++ text) :: o) /\
      lexes text ts.
Proof. exact as_written_lemma. Qed.
Print Assumptions annotation_tokens_are_preserved.

Definition nl : str := [ascii_of_N 10].

(** A parenthesis and an escaped quote in a string, comments, a line break. *)
Example annotations_reach_the_parser_as_written_example :
  let src := $" expose_as(""a)\""b"") , // first )" ++ nl ++ $"  hidden /* , */ (default,7 )" in
  let ts := [SIdent $"expose_as"; SOpen; SStr $"a)\""b"; SClose; SComma; SIdent $"hidden"; SOpen; SIdent $"default"; SComma; SNum $"7"; SClose] in
  written ts src /\
  g_annotations ts [mkAnnotation ExposeAs [LString $"a)\""b"]; mkAnnotation Hidden [LDefault; LUnsigned 7]] /\
  preprocess_text true [] ($"GENPYBIND(" ++ src ++ $") int x;") =
    Some [OAnnotate (lozenge ++ $"expose_as(""a)\""b"") , hidden (default,7 )"); OTok (PIdent $"int"); OTok (PIdent $"x"); OTok (PPunct ";")].
Proof.
  cbv zeta. split; [|split].
  - apply (wr_token $" " (SIdent $"expose_as")); [constructor; [cbn; auto|constructor]| |reflexivity|].
    { do 2 eexists. split; [reflexivity|]. split; reflexivity. }
    apply (wr_token [] SOpen); [constructor|exact I|exact I|].
    apply (wr_token [] (SStr $"a)\""b")); [constructor| |exact I|].
    { split; [|intros c Hc; cbn in Hc; intuition (subst; discriminate)].
      apply sb_plain; [discriminate|discriminate|]. apply sb_plain; [discriminate|discriminate|].
      apply sb_escaped; [reflexivity|]. apply sb_plain; [discriminate|discriminate|]. constructor. }
    apply (wr_token [] SClose); [constructor|exact I|exact I|].
    apply (wr_token $" " SComma); [constructor; [cbn; auto|constructor]|exact I|exact I|].
    apply (wr_token ($" // first )" ++ nl ++ $"  ") (SIdent $"hidden")); [| |reflexivity|].
    { apply gap_blank; [cbn; auto|]. apply (gap_line $" first )" (ascii_of_N 10) $"  ").
      - intros c Hc. cbn in Hc. intuition (subst; discriminate).
      - left. reflexivity.
      - constructor; [cbn; auto|]. constructor; [cbn; auto|constructor]. }
    { do 2 eexists. split; [reflexivity|]. split; reflexivity. }
    apply (wr_token $" /* , */ " SOpen); [|exact I|exact I|].
    { apply gap_blank; [cbn; auto|]. apply (gap_block $" , " $" ").
      - intros x y E. repeat (destruct x as [|? x]; cbn in E; [discriminate E || (injection E as <-; reflexivity)|injection E as ? E]).
        destruct x; discriminate.
      - constructor; [cbn; auto|constructor]. }
    apply (wr_token [] (SIdent $"default")); [constructor| |reflexivity|].
    { do 2 eexists. split; [reflexivity|]. split; reflexivity. }
    apply (wr_token [] SComma); [constructor|exact I|exact I|].
    apply (wr_token [] (SNum $"7")); [constructor| |reflexivity|].
    { split; [discriminate|]. split; [reflexivity|]. vm_compute. discriminate. }
    apply (wr_token $" " SClose); [constructor; [cbn; auto|constructor]|exact I|exact I|].
    apply wr_end. constructor.
  - apply (gas_cons [SIdent $"expose_as"; SOpen; SStr $"a)\""b"; SClose]).
    + apply (ga_args $"expose_as" ExposeAs [SStr $"a)\""b"]); [exists "expose_as"%string; split; [cbn; auto|reflexivity]|].
      apply gvs_one. constructor.
    + apply gas_one. apply (ga_args $"hidden" Hidden [SIdent $"default"; SComma; SNum $"7"]); [exists "hidden"%string; split; [cbn; auto|reflexivity]|].
      apply gvs_cons; [constructor|]. apply (gvs_one (SNum $"7") (LUnsigned 7)). apply gv_num.
  - vm_compute. reflexivity.
Qed.

(** C70: names that are macros do not reach the parser: the arguments of
    [GENPYBIND] are expanded. *)
Theorem annotations_naming_macros_reach_the_parser_refuted :
  exists defs src ts l, written ts src /\ g_annotations ts l /\
    ~ exists text o, preprocess_text true defs ($"GENPYBIND(" ++ src ++ $")") = Some (OAnnotate (lozenge ++ text) :: o) /\ denotes text l.
Proof.
  exists [($"hidden", [(false, PIdent $"visible")])], $"hidden", [SIdent $"hidden"], [mkAnnotation Hidden []]. split; [|split].
  - apply (wr_token [] (SIdent $"hidden") [] []); [constructor| |exact I|apply wr_end; constructor].
    do 2 eexists. split; [reflexivity|]. split; reflexivity.
  - apply gas_one, ga_bare. exists "hidden"%string. split; [cbn; auto|reflexivity].
  - intros (text & o & H & Hd). vm_compute in H. injection H as H _.
    assert (E : text = $"visible") by (rewrite <- H; reflexivity). rewrite E in Hd.
    apply (ParserProofs.parse_ok_iff) in Hd. vm_compute in Hd. discriminate Hd.
Qed.
Print Assumptions annotations_naming_macros_reach_the_parser_refuted.

(** C71: what the macros make of a source file without other macros, with
    annotations switched on or off. *)
Theorem source_files_with_annotations :
  forall on s l o, pp_lex s = Some l -> preprocess_items on [] l = Some o ->
    ~ In (PIdent $"__COUNTER__") (map snd l) -> ~ In (PPunct (ascii_of_N 92)) (map snd l) ->
    becomes on l o.
Proof. intros on s l o Hl Ho Hc Hb. exact (becomes_lemma _ on 0%N l o Ho Hc (fun _ => pp_lex_sane _ s l Hl Hb)). Qed.
Print Assumptions source_files_with_annotations.

(** C71: without [__GENPYBIND__] exactly the annotations and manual bindings
    disappear. *)
Theorem annotations_disappear_in_normal_compilation :
  forall l o, ~ In (PIdent $"__COUNTER__") (map snd l) ->
    (preprocess_items false [] l = Some o <-> becomes false l o).
Proof.
  intros l o Hc. split.
  - intros H. apply (becomes_lemma _ false 0%N l o H Hc). discriminate.
  - intros H. apply (off_complete l o H Hc). apply Nat.lt_succ_diag_r.
Qed.
Print Assumptions annotations_disappear_in_normal_compilation.

(** C71: nothing else in the program depends on [__GENPYBIND__], whatever other
    macros there are. *)
Theorem annotations_only_add_attributes_and_manual_bindings :
  forall defs l o, ~ In (PIdent $"__COUNTER__") (map snd l) ->
    preprocess_items true defs l = Some o -> preprocess_items false defs l = Some (program o).
Proof. intros defs l o Hc H. exact (only_add_lemma _ defs 0%N 0%N l o H Hc). Qed.
Print Assumptions annotations_only_add_attributes_and_manual_bindings.

(** C71: manual bindings of a file never share a name. *)
Theorem manual_bindings_have_distinct_names :
  forall defs l o, preprocess_items true defs l = Some o -> NoDup (manual_names o).
Proof. intros defs l o H. exact (proj1 (manual_names_lemma _ true defs 0%N l o H)). Qed.
Print Assumptions manual_bindings_have_distinct_names.

Example source_files_with_annotations_example :
  let s := $"struct GENPYBIND( visible ) A { GENPYBIND_MANUAL({ parent.def(""f"", [](GENPYBIND_PARENT_TYPE &) {}); }) GENPYBIND x; };" ++ $" GENPYBIND_MANUAL({})" in
  exists l o, pp_lex s = Some l /\ preprocess_items true [] l = Some o /\
    ~ In (PIdent $"__COUNTER__") (map snd l) /\ ~ In (PPunct (ascii_of_N 92)) (map snd l) /\
    manual_names o = [$"genpybind_0"; $"genpybind_1"] /\
    program o = map (fun t => OTok t) [PIdent $"struct"; PIdent $"A"; PPunct "{"; PIdent $"GENPYBIND"; PIdent $"x"; PPunct ";"; PPunct "}"; PPunct ";"]%char /\
    In (OAnnotate (lozenge ++ $"visible")) o /\
    exists n body, In (OManual n (lozenge ++ $"manual") body) o /\ In (PIdent $"remove_reference_t") body.
Proof.
  cbv zeta. eexists. eexists. split; [vm_compute; reflexivity|]. split; [vm_compute; reflexivity|].
  split; [cbn; intuition discriminate|]. split; [cbn; intuition discriminate|]. split; [vm_compute; reflexivity|].
  split; [vm_compute; reflexivity|]. split; [cbn; auto|].
  eexists. eexists. split; [do 4 right; left; reflexivity|]. cbn. tauto.
Qed.

(** C71: code that itself uses [__COUNTER__] can tell the difference. *)
Theorem programs_using_the_counter_stay_unchanged_refuted :
  exists l o, preprocess_items true [] l = Some o /\ preprocess_items false [] l <> Some (program o).
Proof.
  exists [(false, PIdent $"GENPYBIND_MANUAL"); (false, open_paren); (false, close_paren); (true, PIdent $"__COUNTER__")].
  eexists. split; [vm_compute; reflexivity|]. vm_compute. discriminate.
Qed.
Print Assumptions programs_using_the_counter_stay_unchanged_refuted.

(** C70: what is not covered are literals with one of these prefixes; other names in
    front of a quote are identifiers. *)
Theorem prefixed_literals_are_left_out : forall c name q rest, is_ident_start c = true -> forallb is_ident_continue name = true -> In q ["034"; "039"]%char ->
  (In (c :: name) (map (fun s => $s) ["R"; "L"; "LR"; "u"; "uR"; "u8"; "u8R"; "U"; "UR"]%string) -> pp_next (c :: name ++ q :: rest) = None) /\
  (~ In (c :: name) (map (fun s => $s) ["R"; "L"; "LR"; "u"; "uR"; "u8"; "u8R"; "U"; "UR"]%string) -> pp_next (c :: name ++ q :: rest) = Some (PIdent (c :: name), q :: rest)).
Proof.
  intros c name q rest Hc Hn Hq.
  assert (Hcc : is_ident_continue c = true) by (unfold is_ident_continue; rewrite Hc; reflexivity).
  assert (Hqi : is_ident_continue q = false) by (destruct Hq as [<-|[<-|[]]]; reflexivity).
  assert (T : take_while is_ident_continue (c :: name ++ q :: rest) = c :: name /\ drop_while is_ident_continue (c :: name ++ q :: rest) = q :: rest).
  { cbn [take_while drop_while]. rewrite Hcc. clear Hc Hcc. assert (E : take_while is_ident_continue (name ++ q :: rest) = name /\ drop_while is_ident_continue (name ++ q :: rest) = q :: rest).
    { induction name as [|d name IH]; cbn [app take_while drop_while]; [rewrite Hqi; auto|]. cbn in Hn. apply andb_prop in Hn. destruct Hn as [Hd Hn].
      rewrite Hd. destruct (IH Hn) as [-> ->]. auto. }
    destruct E as [-> ->]. auto. }
  destruct T as [T1 T2]. unfold pp_next. rewrite Hc, T1, T2. cbv zeta.
  assert (S : starts 34 (q :: rest) || starts 39 (q :: rest) = true) by (destruct Hq as [<-|[<-|[]]]; reflexivity). rewrite S. cbn [andb].
  assert (E : existsb (str_eqb (c :: name)) literal_prefixes = true <-> In (c :: name) (map (fun s => $s) ["R"; "L"; "LR"; "u"; "uR"; "u8"; "u8R"; "U"; "UR"]%string)).
  { rewrite existsb_exists. split.
    - intros (s & Hs & E). apply str_eqb_eq in E. subst s. cbn [literal_prefixes map In] in *. tauto.
    - intros H. exists (c :: name). split; [unfold literal_prefixes; cbn [map In] in *; tauto|apply str_eqb_eq; reflexivity]. }
  destruct (existsb (str_eqb (c :: name)) literal_prefixes); split; intros H; try reflexivity.
  - destruct H. apply E. reflexivity.
  - apply E in H. discriminate.
Qed.
Print Assumptions prefixed_literals_are_left_out.

Example prefixed_literals_example : pp_lex $"LR""(x)""" = None /\ exists l, pp_lex $"LQ""(x)""" = Some l /\ map snd l = [PIdent $"LQ"; PLit $"""(x)"""].
Proof. split; [vm_compute; reflexivity|]. eexists. split; [vm_compute; reflexivity|]. reflexivity. Qed.
