{
 "claims": [
  {
   "property": "C01",
   "status": "proved",
   "theorems": [
    "parser_accepts_exactly_the_grammar",
    "annotation_texts_are_unambiguous",
    "parser_appends_to_given_list",
    "parser_terminates"
   ],
   "note": "Acceptance and meaning, for every byte string, equal an independent lexical specification plus grammar."
  },
  {
   "property": "C02",
   "status": "proved",
   "theorems": [
    "parser_error_at_first_dead_end",
    "first_dead_end_is_unique"
   ],
   "note": "Every error names the first token after which no valid continuation exists, with the kind due there; annotations completed before stay in the output list."
  },
  {
   "property": "C03",
   "status": "proved",
   "theorems": [
    "tokenizer_is_lossless",
    "tokenisation_total_and_deterministic",
    "tokenizer_follows_lexical_structure",
    "classes_of_characters"
   ],
   "note": ""
  },
  {
   "property": "C04",
   "status": "proved",
   "theorems": [
    "parser_depends_only_on_tokens",
    "whitespace_between_tokens_irrelevant",
    "whitespace_around_irrelevant",
    "whitespace_next_to_punctuation_optional"
   ],
   "note": ""
  },
  {
   "property": "C05",
   "status": "proved",
   "theorems": [
    "integer_literals_exact",
    "parsed_values_in_range"
   ],
   "note": "Models the 64 bit wrap-around and overflow check of LLVM's integer parsing."
  },
  {
   "property": "C06",
   "status": "partial",
   "theorems": [
    "print_parse_round_trip_exactly_when_plain",
    "printed_annotation_parses",
    "print_parse_round_trip_refuted",
    "parsed_annotation_round_trip_refuted"
   ],
   "note": "The unconditional round trip is false (strings with quotes, backslashes or unprintable bytes, and the 'nothing' value); the exact set of annotations for which it holds is proved."
  },
  {
   "property": "C07",
   "status": "partial",
   "theorems": [
    "literal_values_have_value_semantics",
    "heap_strings_owned_exactly_once",
    "undefined_behaviour_exactly_on_misuse",
    "no_undefined_behaviour_without_hazards",
    "set_string_from_itself_refuted"
   ],
   "note": "Memory safety, ownership and value semantics hold for all operation histories except exactly the ones characterised by undefined_behaviour_exactly_on_misuse; the unconditional claim is false (setString from the value's own string reads freed memory; reading a moved-from value dereferences null), witness proved."
  },
  {
   "property": "C08",
   "status": "partial",
   "theorems": [
    "moved_from_by_construction_readable",
    "moved_from_by_assignment_onto_string_readable",
    "move_assignment_transfers_the_value",
    "moved_from_readable_refuted"
   ],
   "note": "Move construction and move assignment onto a string leave a readable source; move assignment of a string onto a non-string leaves a source that cannot be read (refuted with witness)."
  },
  {
   "property": "C09",
   "status": "proved",
   "theorems": [
    "copy_equals_original",
    "copy_construction_equals_original",
    "values_are_independent",
    "value_equality_is_equivalence"
   ],
   "note": ""
  },
  {
   "property": "C10",
   "status": "proved",
   "theorems": [
    "emitted_literal_denotes_its_bytes",
    "emitted_literal_is_printable_ascii"
   ],
   "note": ""
  },
  {
   "property": "C100",
   "status": "partial",
   "theorems": [
    "objects_are_created_by_constructors_partial",
    "classes_without_constructors_have_no_objects",
    "constructors_get_the_arguments",
    "creation_calls_constructors_refuted"
   ],
   "note": "Proved if only constructors are called __init__ in the generated code and manual bindings do not change constructors. Without the former it is refuted: a method annotated with expose_as(__init__) is called when an object is created."
  },
  {
   "property": "C101",
   "status": "proved",
   "theorems": [
    "only_details_of_visible_declarations_matter",
    "invisible_declarations_can_be_changed",
    "hidden_declarations_are_not_used"
   ],
   "note": ""
  },
  {
   "property": "C102",
   "status": "proved",
   "theorems": [
    "commands_are_processed_one_after_another",
    "the_last_command_determines_the_outputs",
    "the_last_command_erases_the_outputs",
    "other_files_are_left_alone"
   ],
   "note": ""
  },
  {
   "property": "C103",
   "status": "partial",
   "theorems": [
    "annotations_affect_only_their_declaration",
    "first_annotations_affect_only_their_declaration_refuted"
   ],
   "note": "Proved for declarations that are annotated before and after; refuted for the first annotation in a part of a reopened namespace."
  },
  {
   "property": "C104",
   "status": "proved",
   "theorems": [
    "the_way_annotations_are_written_does_not_matter",
    "annotations_matter_through_attributes_only"
   ],
   "note": ""
  },
  {
   "property": "C105",
   "status": "proved",
   "theorems": [
    "the_order_of_annotations_does_not_matter",
    "the_order_of_annotations_affects_the_order_of_complaints_only",
    "the_order_of_different_annotations_refuted"
   ],
   "note": "The refutation shows that different names are not enough: module(a) and expose_as(b) both set the name."
  },
  {
   "property": "C106",
   "status": "proved",
   "theorems": [
    "positions_matter_through_their_order_only"
   ],
   "note": "Line numbers in diagnostics are not part of the model. Comments used as documentation are separate inputs (C97)."
  },
  {
   "property": "C107",
   "status": "proved",
   "theorems": [
    "cosmetic_changes_do_not_affect_outputs"
   ],
   "note": "Changes of the order of annotations are considered for declarations whose annotations are not complained about."
  },
  {
   "property": "C108",
   "status": "proved",
   "theorems": [
    "the_module_name_is_only_a_name"
   ],
   "note": ""
  },
  {
   "property": "C109",
   "status": "proved",
   "theorems": [
    "nothing_is_exposed_without_annotations",
    "removing_annotations_removes_everything"
   ],
   "note": ""
  },
  {
   "property": "C11",
   "status": "proved",
   "theorems": [
    "identifier_conversion_collapses_runs",
    "converted_names_are_identifiers",
    "identifiers_are_unchanged",
    "identifier_conversion_is_idempotent",
    "identifier_check_is_exact"
   ],
   "note": ""
  },
  {
   "property": "C110",
   "status": "proved",
   "theorems": [
    "declarations_out_of_sight_do_not_matter",
    "global_helpers_do_not_matter",
    "declarations_out_of_sight_do_not_affect_outputs",
    "hidden_declarations_do_not_matter_refuted"
   ],
   "note": "the refuted theorem is about declarations annotated to be hidden, see the last sentence of the statement"
  },
  {
   "property": "C111",
   "status": "proved",
   "theorems": [
    "hiding_removes_exactly_the_bindings",
    "hiding_removes_exactly_the_bindings_refuted"
   ],
   "note": "the refuted theorem is about the case without something else to expose, see the last sentence of the statement"
  },
  {
   "property": "C112",
   "status": "proved",
   "theorems": [
    "hiding_keeps_the_rest_of_the_outputs"
   ],
   "note": "the example of C111 is run with a file and standard output"
  },
  {
   "property": "C113",
   "status": "proved",
   "theorems": [
    "requested_headers_are_added_only"
   ],
   "note": "that the directive is accepted by clang is an oracle, as for C48; one compile command"
  },
  {
   "property": "C114",
   "status": "proved",
   "theorems": [
    "previous_files_do_not_matter",
    "running_again_changes_nothing"
   ],
   "note": "which outputs can be opened and renamed, and what is in the headers, is assumed not to change"
  },
  {
   "property": "C115",
   "status": "proved",
   "theorems": [
    "keeping_outputs_matters_after_failures_only",
    "expecting_failure_exchanges_exit_status"
   ],
   "note": "outputs that are not acceptable make runs fail even with --xfail, see C42"
  },
  {
   "property": "C116",
   "status": "proved",
   "theorems": [
    "hiding_leaves_other_names_alone",
    "modules_stay_importable_after_hiding_refuted"
   ],
   "note": "that the module can still be imported after hiding is a hypothesis, part of the statement; it does not follow from the other ones, as a refutation shows: hiding a function of a base can uncover an attribute of another base that is not a function"
  },
  {
   "property": "C117",
   "status": "proved",
   "theorems": [
    "annotations_are_switched_on",
    "annotations_are_never_skipped"
   ],
   "note": "how clang reads -D and -U is part of the specification; options with several separate values (for linkers) are not covered"
  },
  {
   "property": "C118",
   "status": "proved",
   "theorems": [
    "attributes_are_those_written_in_the_source"
   ],
   "note": "that clang attaches the attributes to the declaration in the order of the macros is assumed"
  },
  {
   "property": "C119",
   "status": "proved",
   "theorems": [
    "errors_stop_processing",
    "exit_status_follows_messages",
    "exit_status_follows_all_messages"
   ],
   "note": "levels are stated separately in LevelSpec"
  },
  {
   "property": "C12",
   "status": "proved",
   "theorems": [
    "identifier_conversion_is_safe_in_place"
   ],
   "note": ""
  },
  {
   "property": "C120",
   "status": "proved",
   "theorems": [
    "annotations_are_printed_with_their_arguments",
    "printed_annotations_can_be_told_apart"
   ],
   "note": ""
  },
  {
   "property": "C13",
   "status": "proved",
   "theorems": [
    "no_annotation_is_ignored",
    "carried_annotations_are_unique",
    "annotations_are_always_determined",
    "description_determines_attributes",
    "kinds_of_declarations"
   ],
   "note": ""
  },
  {
   "property": "C14",
   "status": "proved",
   "theorems": [
    "last_visibility_annotation_wins",
    "default_visibility_is_unique",
    "annotated_means_some_annotation",
    "latest_is_unique"
   ],
   "note": ""
  },
  {
   "property": "C15",
   "status": "partial",
   "theorems": [
    "macro_without_arguments_implies_visible_refuted",
    "macro_with_arguments_implies_visible_partial"
   ],
   "note": "The documented claim is false: refuted with a witness. It holds if a macro has arguments."
  },
  {
   "property": "C16",
   "status": "proved",
   "theorems": [
    "stored_spellings_are_identifiers",
    "requested_spellings"
   ],
   "note": ""
  },
  {
   "property": "C17",
   "status": "proved",
   "theorems": [
    "storing_is_idempotent",
    "storing_is_local",
    "storing_does_not_depend_on_order",
    "diagnostics_do_not_depend_on_order"
   ],
   "note": ""
  },
  {
   "property": "C18",
   "status": "proved",
   "theorems": [
    "reopened_namespaces_agree",
    "attribute_comparison_is_equality",
    "attribute_comparison_is_equivalence"
   ],
   "note": "The tree of declarations traversed by clang is an input; NoDup of declarations and non-nesting of a namespace in itself are assumed (record sane)."
  },
  {
   "property": "C19",
   "status": "partial",
   "theorems": [
    "keep_alive_indices_partial",
    "slot_names_are_unambiguous",
    "keep_alive_indices_static_refuted",
    "keep_alive_this_in_static_refuted"
   ],
   "note": "Proved for the stored indices of everything but static member functions, for which it is refuted with witnesses."
  },
  {
   "property": "C20",
   "status": "partial",
   "theorems": [
    "flags_reach_the_named_parameters_partial",
    "flags_reach_the_named_parameters_refuted",
    "stored_attributes_are_faithful"
   ],
   "note": "Proved for parameters not preceded by a variadic Python parameter; refuted after one."
  },
  {
   "property": "C21",
   "status": "proved",
   "theorems": [
    "every_context_has_one_place",
    "no_graph_only_after_errors",
    "competing_aliases_are_reported"
   ],
   "note": ""
  },
  {
   "property": "C22",
   "status": "partial",
   "theorems": [
    "relocation_cycles_are_reported",
    "unreachable_contexts_are_reported_refuted"
   ],
   "note": "Holds if every context enclosing a context is itself looked at; refuted without: a visible specialisation of a template from a skipped namespace is lost silently."
  },
  {
   "property": "C23",
   "status": "proved",
   "theorems": [
    "visibility_comes_from_nearest_deciding_context",
    "processing_never_asserts"
   ],
   "note": ""
  },
  {
   "property": "C24",
   "status": "proved",
   "theorems": [
    "contexts_to_expose_have_content",
    "processing_never_asserts"
   ],
   "note": "Name lookup in a context is a parameter."
  },
  {
   "property": "C25",
   "status": "proved",
   "theorems": [
    "pruning_keeps_what_is_exposed",
    "lost_contexts_are_warned_about",
    "processing_never_asserts"
   ],
   "note": ""
  },
  {
   "property": "C26",
   "status": "proved",
   "theorems": [
    "only_expose_in_hides_foreign_parts",
    "processing_never_asserts"
   ],
   "note": ""
  },
  {
   "property": "C27",
   "status": "proved",
   "theorems": [
    "scope_is_nearest_module_or_class"
   ],
   "note": ""
  },
  {
   "property": "C28",
   "status": "proved",
   "theorems": [
    "order_respects_dependencies_or_cycle_is_reported",
    "earliest_first_queue_is_good"
   ],
   "note": "For the graph and scopes of the preceding steps. Assumes that no class is among its own bases; the priority queue is any one whose top is earliest."
  },
  {
   "property": "C29",
   "status": "partial",
   "theorems": [
    "order_respects_dependencies_or_cycle_is_reported",
    "reported_context_is_on_a_cycle_refuted",
    "cycles_prevent_output"
   ],
   "note": "Cycle reported iff there is one; the reported context is on a cycle or depends on one. That it is on a cycle, as documented, is refuted."
  },
  {
   "property": "C30",
   "status": "partial",
   "theorems": [
    "order_is_lexicographically_least",
    "order_is_deterministic",
    "order_is_deterministic_for_shared_locations_refuted",
    "output_is_deterministic"
   ],
   "note": "Holds if no two contexts share a location; refuted for specialisations of one class template, which do."
  },
  {
   "property": "C31",
   "status": "partial",
   "theorems": [
    "bases_are_registered_before_partial",
    "bases_are_registered_before_refuted"
   ],
   "note": "Bases listed are always exposed; registered before for public bases, direct or via exposed bases. Refuted for bases reached via inlined bases."
  },
  {
   "property": "C32",
   "status": "proved",
   "theorems": [
    "module_is_complete_and_ordered",
    "functions_are_declared_called_and_defined",
    "generation_never_hits_an_assertion"
   ],
   "note": "Well-formedness of the module block requires distinct identifiers, see C34."
  },
  {
   "property": "C33",
   "status": "proved",
   "theorems": [
    "definitions_are_distributed_evenly",
    "module_is_complete_and_ordered"
   ],
   "note": ""
  },
  {
   "property": "C34",
   "status": "partial",
   "theorems": [
    "identifiers_are_distinct_partial",
    "identifiers_are_distinct_refuted"
   ],
   "note": "Exact characterisation of collisions; refuted in general."
  },
  {
   "property": "C35",
   "status": "proved",
   "theorems": [
    "visible_declarations_are_emitted",
    "hidden_declarations_are_not_mentioned",
    "visible_declarations_are_bound"
   ],
   "note": "Default visibility is a parameter here; that it is the effective visibility of the context is part of the module model."
  },
  {
   "property": "C36",
   "status": "proved",
   "theorems": [
    "python_operators_compute_cpp_operators"
   ],
   "note": "Python data model written down as a table in EmitSpec.v."
  },
  {
   "property": "C37",
   "status": "partial",
   "theorems": [
    "operators_have_names_partial",
    "operators_have_names_refuted"
   ],
   "note": "Exact characterisation of nameless operators; refuted for member ! and reversed compound assignments."
  },
  {
   "property": "C38",
   "status": "proved",
   "theorems": [
    "properties_have_one_getter"
   ],
   "note": ""
  },
  {
   "property": "C39",
   "status": "partial",
   "theorems": [
    "inlining_requests_are_closed",
    "inlined_bases_are_requested_and_reachable",
    "inlined_bases_exactly",
    "paths_to_bases_exactly",
    "inlined_bases_in_general",
    "inlined_bases_are_not_hidden",
    "inlined_bases_with_virtual_bases_refuted"
   ],
   "note": "The statement holds when virtual bases have no bases themselves (inlined_bases_are_requested_and_reachable) and is false otherwise (inlined_bases_with_virtual_bases_refuted). What the code does in every hierarchy is characterised exactly by inlined_bases_exactly: only paths that arrive first at each virtual base they pass through count."
  },
  {
   "property": "C40",
   "status": "proved",
   "theorems": [
    "listed_bases_are_exactly_those_reached",
    "listed_bases_are_in_order",
    "listed_bases_are_exposed_public_bases",
    "listed_bases_are_distinct_refuted"
   ],
   "note": "Membership and order are characterised exactly. The list may repeat a base if it is reached through several inlined classes (refutation)."
  },
  {
   "property": "C41",
   "status": "partial",
   "theorems": [
    "compile_command_uses_cpp17_or_later_partial",
    "other_standards_are_replaced_refuted",
    "adjusting_twice_is_adjusting_once_partial",
    "adjusting_twice_is_adjusting_once_refuted",
    "command_lines_have_one_reading"
   ],
   "note": "Proved for every command line and every request for a C++ standard; -std=c11 becomes -std=c11++17 (refuted), and -std=c+ is not stable under a second adjustment (refuted)."
  },
  {
   "property": "C42",
   "status": "partial",
   "theorems": [
    "exit_status_tells_success",
    "failing_runs_leave_no_bindings_partial",
    "outdated_outputs_are_erased_refuted",
    "standard_output_is_erased_refuted",
    "failing_commands_erase_outputs_refuted",
    "failed_renames_erase_outputs_refuted",
    "expected_failures_succeed_refuted"
   ],
   "note": "Exit status proved for all runs with acceptable outputs; erasure proved for one compile command. Refuted: stale outputs when stopping early, standard output, several compile commands, failing renames, rejected options under --xfail."
  },
  {
   "property": "C43",
   "status": "partial",
   "theorems": [
    "instantiation_finishes_iff_finite_partial",
    "instantiation_hits_no_assertion_partial",
    "needed_templates_are_instantiated_once",
    "undefined_templates_are_tolerated_refuted",
    "forward_declarations_are_tolerated_refuted",
    "instantiation_finishes_refuted"
   ],
   "note": "Termination and absence of failing assertions are proved for systems in which every specialisation asked for has a definition and is its own definition; without this an assertion fails (refuted with witnesses), and recursive annotated aliases are followed for ever. At most once, exactly those needed, and completeness hold for every finishing run. Clang's implicit instantiation is an oracle."
  },
  {
   "property": "C44",
   "status": "partial",
   "theorems": [
    "encourage_respects_hidden_refuted",
    "aliases_change_name_and_visibility_of_targets"
   ],
   "note": "False as documented; what holds instead is characterised."
  },
  {
   "property": "C45",
   "status": "partial",
   "theorems": [
    "values_are_exported_partial",
    "values_are_exported_refuted"
   ],
   "note": "Refuted for enumerations visible without annotations of their own."
  },
  {
   "property": "C46",
   "status": "partial",
   "theorems": [
    "parameters_after_kwargs_are_reported_partial",
    "parameters_after_kwargs_are_reported_refuted"
   ],
   "note": "Exact characterisation of the report; refuted for variadic parameters after keyword-variadic ones."
  },
  {
   "property": "C47",
   "status": "proved",
   "theorems": [
    "visible_declarations_are_selected_from_the_results",
    "visible_declarations_iff"
   ],
   "note": "The results of name lookup are an input."
  },
  {
   "property": "C48",
   "status": "partial",
   "theorems": [
    "include_pragmas_are_recorded_partial",
    "only_requested_headers_are_recorded",
    "headers_are_included_verbatim",
    "malformed_pragmas_are_rejected_refuted"
   ],
   "note": "Exact for all token sequences unless a third token is directly followed by the end of the file (refuted there). What clang does with the directive itself is an oracle."
  },
  {
   "property": "C49",
   "status": "partial",
   "theorems": [
    "printed_arguments_can_be_read_back_partial",
    "printed_arguments_can_be_read_back_refuted"
   ],
   "note": "Injective on arguments that are not empty and do not start with a quote unless they contain a space; refuted otherwise."
  },
  {
   "property": "C50",
   "status": "partial",
   "theorems": [
    "namespaces_are_introduced_as_annotated_partial",
    "unannotated_reopening_is_harmless_refuted"
   ],
   "note": "Holds if the blocks introduced have the same attributes; refuted for an unannotated block that comes first."
  },
  {
   "property": "C51",
   "status": "partial",
   "theorems": [
    "storing_goes_wrong_only_for_unsupported_alias_targets",
    "reports_are_never_nested_refuted"
   ],
   "note": "Refuted with a witness; the failing cases are characterised exactly."
  },
  {
   "property": "C52",
   "status": "proved",
   "theorems": [
    "annotations_are_collected_in_source_order",
    "collecting_goes_wrong_only_with_nested_reports"
   ],
   "note": ""
  },
  {
   "property": "C53",
   "status": "proved",
   "theorems": [
    "aliases_change_name_and_visibility_of_targets"
   ],
   "note": ""
  },
  {
   "property": "C54",
   "status": "partial",
   "theorems": [
    "emission_never_goes_wrong_partial",
    "emission_never_goes_wrong_refuted"
   ],
   "note": "Excluded and refuted: unnamed class as first parameter of a free shift operator."
  },
  {
   "property": "C55",
   "status": "proved",
   "theorems": [
    "free_operators_are_looked_up",
    "free_operators_are_bound"
   ],
   "note": "Lookup by Sema::ArgumentDependentLookup is an oracle; templates_once says that specialisations are not templates themselves."
  },
  {
   "property": "C56",
   "status": "proved",
   "theorems": [
    "added_arguments_precede_the_separator",
    "separator_may_be_a_value_refuted"
   ],
   "note": "The side condition (no language option has the separator as its value) is necessary, see the refutation."
  },
  {
   "property": "C57",
   "status": "partial",
   "theorems": [
    "outputs_receive_their_parts_partial",
    "repeated_outputs_receive_their_parts_refuted"
   ],
   "note": "Proved for one compile command and distinct outputs; refuted for repeated outputs."
  },
  {
   "property": "C58",
   "status": "proved",
   "theorems": [
    "relative_outputs_are_rejected",
    "rooted_outputs_are_accepted_refuted"
   ],
   "note": "The exception for root names is part of the statement; the refutation shows it is needed."
  },
  {
   "property": "C59",
   "status": "partial",
   "theorems": [
    "default_module_name_is_derived_from_the_header_partial",
    "default_module_name_is_an_identifier_refuted",
    "default_module_name_can_be_given"
   ],
   "note": "Proved unless the file name is only an extension; refuted for `.h`. The derived name can also be given explicitly, with the same result."
  },
  {
   "property": "C60",
   "status": "proved",
   "theorems": [
    "printed_graphs_show_all_contexts",
    "nothing_is_printed_after_errors",
    "printed_graphs_are_readable",
    "captions_are_single_lines"
   ],
   "note": "The two stages of --dump-graph; clang's TextTreeStructure is part of the model (recalled). For the unpruned stage the remark about missing children also requires that there are no detached contexts. The graphical view (--inspect-graph) is not modelled."
  },
  {
   "property": "C61",
   "status": "partial",
   "theorems": [
    "default_arguments_keep_their_meaning_partial",
    "typed_lists_keep_their_meaning_refuted",
    "typed_std_lists_keep_their_meaning_refuted",
    "initializer_lists_keep_their_meaning_refuted",
    "local_names_keep_their_meaning_refuted",
    "unnamed_namespaces_are_left_out_refuted",
    "members_of_unnamed_classes_are_named_refuted",
    "members_of_anonymous_unions_are_named_refuted"
   ],
   "note": "Proved for expressions without typed lists or arrays outside of lists, local names and names without a path from global scope; each of these is refuted by a witness. Behaviour of the pretty printer of clang is recalled. Precedence is kept as parentheses are nodes of the tree; other kinds of expressions are not modelled."
  },
  {
   "property": "C62",
   "status": "proved",
   "theorems": [
    "files_consist_of_the_intended_statements",
    "text_is_read_in_one_way",
    "default_name_is_suitable",
    "statements_with_unchecked_policy_refuted",
    "statements_with_unchecked_holder_type_refuted",
    "statements_with_unchecked_module_name_refuted"
   ],
   "note": "The lexer of the specification knows string and character literals with escapes, digraphs and the three kinds of brackets; it accepts no comments, raw strings and preprocessor lines, so texts containing them are not covered; the preamble with includes is not part of it. Texts by clang are inputs, assumed to be complete pieces (fine_texts, fine_defaults). fine_annotations and the condition on the module name are necessary: refuted otherwise."
  },
  {
   "property": "C63",
   "status": "proved",
   "theorems": [
    "statements_pass_the_intended_arguments",
    "operators_apply_their_operator_refuted"
   ],
   "note": "Specification CallSpec: calls as lists of arguments, operators by an independent table. Which statements there are is the subject of C35-C46. co_await: refuted (the text reads co_awaitlhs)."
  },
  {
   "property": "C64",
   "status": "partial",
   "theorems": [
    "classes_are_found_under_their_python_path_partial",
    "classes_of_the_same_name_can_be_imported_refuted",
    "classes_with_a_holder_type_can_be_imported_refuted"
   ],
   "note": "Semantics of the module block: ImportSpec (pybind11's class_, enum_ and def_submodule, in part). Missing: the code ensures neither distinct names nor equal holders (refuted), nor distinct identifiers (C34), agreeing blocks (C50), bases first (C31). Execution of the exposing functions is not part of it."
  },
  {
   "property": "C65",
   "status": "partial",
   "theorems": [
    "attributes_are_as_defined_partial",
    "functions_named_like_classes_can_be_imported_refuted",
    "functions_hiding_data_members_can_be_imported_refuted",
    "static_overloads_can_be_imported_refuted",
    "variables_can_be_accessed_refuted"
   ],
   "note": "Semantics of statements: ExecSpec (pybind11's def, def_static, attr, enum_::value, export_values, def_property*, in part). Missing: the code does not ensure the absence of clashes (refuted), and conditions of C64."
  },
  {
   "property": "C66",
   "status": "proved",
   "theorems": [
    "builds_compile_the_whole_module"
   ],
   "note": "CMake's cmake_parse_arguments, LESS, math and foreach, and LLVM's option parser, are modelled as far as used. Builds on C57."
  },
  {
   "property": "C67",
   "status": "partial",
   "theorems": [
    "documented_order_is_rejected",
    "arguments_may_follow_the_number_of_files_refuted",
    "arguments_may_follow_the_libraries_refuted",
    "builds_compile_the_whole_module"
   ],
   "note": "False as documented; it is proved that it fails for every number of files, and (C66) what holds otherwise."
  },
  {
   "property": "C68",
   "status": "proved",
   "theorems": [
    "diagnostics_name_the_fault",
    "messages_call_declarations_by_kind"
   ],
   "note": "About declarations for which storing annotations is defined (C51). That there is an error whenever an annotation is not acceptable is C13. Which token a parser error shows is part of the parser theorems (C01-C05)."
  },
  {
   "property": "C69",
   "status": "proved",
   "theorems": [
    "messages_show_the_names",
    "messages_can_be_told_apart",
    "annotation_messages_can_be_told_apart"
   ],
   "note": "clang's formatting is modelled for %N and %select; names of declarations are arbitrary texts."
  },
  {
   "property": "C70",
   "status": "proved",
   "theorems": [
    "annotations_reach_the_parser_as_written",
    "annotation_tokens_are_preserved",
    "annotations_naming_macros_reach_the_parser_refuted",
    "prefixed_literals_are_left_out"
   ],
   "note": "The preprocessor is modelled (MacroModel.v); text after translation phase 2. The condition that names are no macros is necessary, see the refutation."
  },
  {
   "property": "C71",
   "status": "proved",
   "theorems": [
    "source_files_with_annotations",
    "annotations_disappear_in_normal_compilation",
    "annotations_only_add_attributes_and_manual_bindings",
    "manual_bindings_have_distinct_names",
    "programs_using_the_counter_stay_unchanged_refuted"
   ],
   "note": "About files that do not use __COUNTER__ themselves, which is necessary; object-like macros only."
  },
  {
   "property": "C72",
   "status": "proved",
   "theorems": [
    "what_can_be_used_is_visible",
    "hidden_declarations_cannot_be_used",
    "annotations_say_one_thing"
   ],
   "note": "End to end, from the texts of annotations to attributes in Python; no condition on names. Classes and enumerations themselves are the subject of C25, C63 and C64. Manual bindings are assumed not to add anything themselves."
  },
  {
   "property": "C73",
   "status": "partial",
   "theorems": [
    "what_is_visible_can_be_used_partial",
    "variables_can_be_accessed_refuted"
   ],
   "note": "Converse of C72 under the conditions of C65 (distinct names); false without them, see the refutation (of C65)."
  },
  {
   "property": "C74",
   "status": "proved",
   "theorems": [
    "manual_bindings_are_executed_in_order",
    "manual_bindings_are_executed_as_defined_refuted",
    "top_level_bindings_are_executed_first_refuted"
   ],
   "note": "The two refutations are of sentences in the README. That the object is the one for the context needs the conditions of C64."
  },
  {
   "property": "C75",
   "status": "partial",
   "theorems": [
    "visible_manual_bindings_are_executed_partial",
    "hidden_manual_bindings_are_not_executed_refuted"
   ],
   "note": "The exact set is characterised; the claim is false for hidden blocks annotated with postamble (expose.cpp L765-778 does not look at visibility)."
  },
  {
   "property": "C76",
   "status": "proved",
   "theorems": [
    "aliases_refer_to_their_targets",
    "aliases_find_classes_registered_before_refuted"
   ],
   "note": "Assuming that the import succeeds (compare C64, C65) and identifiers are distinct (C34). The refutation shows the effect of the order of execution on classes registered in manual bindings."
  },
  {
   "property": "C77",
   "status": "partial",
   "theorems": [
    "default_arguments_are_instantiated_partial",
    "default_arguments_can_be_printed_refuted"
   ],
   "note": "Complete if clang adds no declarations meanwhile. The refutation: template <typename T> T f(T v, T w = T(1)); template <typename T> void h(T v = f(T(), T())); template void h<int>(int); leaves the default argument of f<int> uninstantiated."
  },
  {
   "property": "C78",
   "status": "proved",
   "theorems": [
    "number_of_files_does_not_matter"
   ],
   "note": "Uses the semantics of modules of C64 and C65; linking fails if two functions have the same name (compare C34)."
  },
  {
   "property": "C79",
   "status": "proved",
   "theorems": [
    "entry_point_passes_on_arguments_and_status",
    "entry_point_tells_success"
   ],
   "note": "Signals are numbered below 128, exit codes below 256. Semantics of subprocess.call and sys.exit are recalled."
  },
  {
   "property": "C80",
   "status": "partial",
   "theorems": [
    "invalid_annotations_prevent_output",
    "only_invalid_annotations_are_reported",
    "reports_follow_the_source",
    "invalid_annotations_are_reported_while_emitting",
    "successful_runs_have_valid_annotations_partial",
    "successful_runs_have_valid_annotations_refuted"
   ],
   "note": "Annotations of templates without specializations are not looked at: successful_runs_have_valid_annotations_refuted. For targets of aliases the report is at the target unless errors in the source come first."
  },
  {
   "property": "C81",
   "status": "proved",
   "theorems": [
    "visible_types_are_available_in_python",
    "visible_types_left_out_are_warned_about",
    "classes_in_the_graph_are_the_visible_ones"
   ],
   "note": "Access by name is under the conditions of C64; that the enclosing contexts are looked at is a condition for the warning, see C22."
  },
  {
   "property": "C82",
   "status": "proved",
   "theorems": [
    "parameters_in_python_are_as_declared",
    "calls_reach_the_first_suitable_function",
    "calls_respect_declarations"
   ],
   "note": "For successful imports. Semantics of pybind11's dispatcher are recalled (DESIGN.md). With variadic parameters before others flags are shifted, see C20."
  },
  {
   "property": "C83",
   "status": "partial",
   "theorems": [
    "members_referred_to_are_public_partial",
    "members_referred_to_are_named_publicly",
    "types_exposed_are_public_or_said_to_be_visible_partial",
    "members_referred_to_are_public_refuted",
    "types_exposed_are_public_refuted"
   ],
   "note": "False in general: a public using-declaration of a protected member, or a protected class annotated as visible, leads to code that refers to it. Proved if using-declarations do not widen access and for classes not annotated as visible. Operators found by argument-dependent lookup are used in expressions, not by name. Specializations are assumed to have the access of their template."
  },
  {
   "property": "C84",
   "status": "partial",
   "theorems": [
    "only_writable_members_are_changed",
    "attributes_have_the_value_of_members_partial",
    "attributes_have_the_value_of_variables_refuted"
   ],
   "note": "False for variables of namespaces, whose values are copied when the module is imported: later changes do not show and assignments do not reach the variable (witness). Proved for data members and static members of classes. Assumes valid annotations. Effects of C++ functions, conversions and method resolution are arbitrary."
  },
  {
   "property": "C85",
   "status": "proved",
   "theorems": [
    "options_are_those_annotated",
    "attributes_can_be_added_if_annotated"
   ],
   "note": "For classes and enumerations outside of templates. The effect of arithmetic and of the holder type in pybind11 is not modelled beyond registration (C64)."
  },
  {
   "property": "C86",
   "status": "partial",
   "theorems": [
    "resources_are_those_of_clang_partial",
    "version_of_clang_is_ignored",
    "resources_are_those_of_the_version_refuted"
   ],
   "note": "False: the argument of the macro is an operand of # and hence not expanded, so that a program called clang-CLANG_VERSION_MAJOR is searched for and the one of the right version is never found (shown for all macro definitions and installations). Proved if there is no program for the version."
  },
  {
   "property": "C87",
   "status": "partial",
   "theorems": [
    "python_names_are_identifiers_partial",
    "specializations_are_named_after_their_arguments",
    "specializations_have_distinct_names_partial",
    "specializations_have_distinct_names_refuted",
    "arguments_are_told_apart_refuted",
    "python_names_are_identifiers_refuted"
   ],
   "note": "All names of the generated code are identifiers if no errors are reported, except those of modules, classes and enumerations for unnamed declarations (refuted for an unnamed namespace). Specialisations are told apart exactly by the words of their arguments if these are free of underscores; false in general: Foo<int> and Foo<int *> have the same name, import fails."
  },
  {
   "property": "C88",
   "status": "partial",
   "theorems": [
    "properties_call_annotated_functions",
    "getters_become_attributes_partial",
    "accepted_getters_can_be_called_refuted"
   ],
   "note": "Proved for getters that only take the object and setters that take the object and one value; others are accepted without report although using them always fails (refuted: default arguments, static member functions). That getters become attributes needs, as for C65, that there are no clashes of names."
  },
  {
   "property": "C89",
   "status": "partial",
   "theorems": [
    "subclasses_are_derived_classes",
    "classes_can_be_created_partial",
    "listed_bases_are_in_order",
    "common_base_makes_no_difference",
    "classes_with_inlined_bases_can_be_created_refuted",
    "classes_with_virtual_bases_can_be_created_refuted",
    "derived_classes_are_subclasses_refuted"
   ],
   "note": "Creation of the classes is shown for hierarchies in which exposed classes are inherited from by one path only; without that it may fail during import without any report (refuted: exposed base of two inlined bases, virtual base before a class derived from it). A class is not derived in Python from exposed bases of a base that is neither exposed nor inlined (refuted)."
  },
  {
   "property": "C90",
   "status": "partial",
   "theorems": [
    "attributes_hide_those_of_bases_partial",
    "inherited_members_can_be_used_partial",
    "members_hide_those_of_bases_refuted"
   ],
   "note": "Requires that all bases are public, exposed and neither inlined nor hidden and that the classes can be created (C89). Members that are hidden from Python by annotations hide others in C++ but not in Python (refuted): the member of the base is called instead."
  },
  {
   "property": "C91",
   "status": "partial",
   "theorems": [
    "only_annotated_conversions",
    "arguments_are_converted_as_annotated",
    "annotated_constructors_convert_partial",
    "annotated_constructor_is_called_refuted"
   ],
   "note": "The converse requires that names do not clash (C65), and None is not considered. The constructor called need not be the annotated one (refuted): pybind11 calls the class with the value and the first suitable constructor is used, where C++ would choose the best."
  },
  {
   "property": "C92",
   "status": "partial",
   "theorems": [
    "annotated_objects_are_kept_alive_partial",
    "nothing_else_is_kept_alive_partial",
    "calls_register_annotated_pairs_partial",
    "keep_alive_of_static_functions_refuted"
   ],
   "note": "Holds for constructors, methods and free functions. For static member functions the stored indices are off by one (C19), so that pybind11 raises an exception in every call (refuted). Objects that pybind11 can not track (no instances of exposed classes and no weak references) also make calls fail; objects are assumed not to be None, as nothing is kept alive then."
  },
  {
   "property": "C93",
   "status": "partial",
   "theorems": [
    "expressions_evaluate_cpp_operators",
    "unary_expressions_evaluate_cpp_operators",
    "operators_are_reached_partial",
    "operators_of_bases_are_reached_refuted"
   ],
   "note": "The first direction holds as stated (manual bindings are assumed not to set attributes). The converse holds for operands of the class itself if there are no clashes (C65) and no other functions are named like special methods; operators of bases are hidden by operators with the same symbol of derived classes (refuted)."
  },
  {
   "property": "C94",
   "status": "partial",
   "theorems": [
    "texts_are_written_by_stream_operators",
    "stream_operators_are_reached_partial",
    "stream_operators_are_reached_refuted"
   ],
   "note": "The first direction holds as stated (manual bindings are assumed not to set attributes). The converse holds if there are no clashes (C65) and no other functions of the class are given the same name; without the latter it is false (refuted)."
  },
  {
   "property": "C95",
   "status": "proved",
   "theorems": [
    "displayed_graphs_show_all_contexts",
    "nothing_is_displayed_after_errors"
   ],
   "note": "Names must not contain line breaks, tabulators or a backslash in front of l, |, { or }, which LLVM treats specially. The viewer itself is not modelled."
  },
  {
   "property": "C96",
   "status": "partial",
   "theorems": [
    "results_are_handed_over_as_annotated_partial",
    "python_destroys_only_what_it_owns_partial",
    "results_can_be_handed_over_partial",
    "policies_of_getters_refuted",
    "policies_of_operators_refuted",
    "copies_of_known_objects_refuted",
    "policies_exist_refuted"
   ],
   "note": "Not for getters and operators, for which the annotation is accepted but ignored (refuted with witnesses). Objects already known in Python are returned themselves, even where a copy is asked for (refuted). Unknown policies are accepted without a report, but the generated code does not compile (refuted). Only results of exposed classes."
  },
  {
   "property": "C97",
   "status": "partial",
   "theorems": [
    "functions_have_their_comments_partial",
    "comments_of_visible_functions_are_found_partial",
    "enumerations_list_their_values",
    "comments_of_members_refuted"
   ],
   "note": "Comments of data members and of functions bound as properties are not passed on (refuted with a witness); printing functions have none either. Comments have to be single lines that do not begin like the next overload. The converse under the conditions of C73. That enumerations list exactly their visible values is proved in full."
  },
  {
   "property": "C98",
   "status": "proved",
   "theorems": [
    "modules_can_be_imported_together",
    "modules_imported_together_are_kept_apart",
    "reserved_namespaces_keep_modules_apart",
    "bases_in_other_modules_refuted"
   ],
   "note": "bases_in_other_modules_refuted is about what this does not give: classes derived in C++ from a class of another module have no base in Python."
  },
  {
   "property": "C99",
   "status": "partial",
   "theorems": [
    "values_compare_as_in_cpp",
    "values_can_be_keys",
    "bitwise_operators_as_annotated_partial",
    "values_have_their_names",
    "arithmetic_operators_refuted",
    "unrelated_values_are_not_ordered_refuted"
   ],
   "note": "Comparisons, hashes and names are proved in full. Of the arithmetic operators only the bitwise ones of unscoped enumerations are available (refuted with witnesses for others), and values that cannot be compared in C++ can be ordered in one direction (refuted)."
  }
 ]
}
