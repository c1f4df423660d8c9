{
 "claims": [
  {
   "property": "C01",
   "status": "proved",
   "theorems": [
    "C01_names_ids_bijection"
   ],
   "note": ""
  },
  {
   "property": "C02",
   "status": "proved",
   "theorems": [
    "C02_add_terminal_exact",
    "C02_add_named_nonterminal_exact",
    "C02_add_unnamed_nonterminal_exact",
    "C02_bindings_permanent"
   ],
   "note": ""
  },
  {
   "property": "C03",
   "status": "proved",
   "theorems": [
    "C03_start_stop"
   ],
   "note": ""
  },
  {
   "property": "C04",
   "status": "proved",
   "theorems": [
    "C04_membership",
    "C04_queries",
    "C04_display_names"
   ],
   "note": ""
  },
  {
   "property": "C05",
   "status": "proved",
   "theorems": [
    "C05_no_input_lost",
    "C05_no_input_lost_handwritten"
   ],
   "note": "For every regex list whose matches end at char boundaries."
  },
  {
   "property": "C06",
   "status": "proved",
   "theorems": [
    "C06_maximal_munch",
    "C06_maximal_munch_handwritten"
   ],
   "note": ""
  },
  {
   "property": "C07",
   "status": "proved",
   "theorems": [
    "C07_tokens_nonempty",
    "C07_scan_all_terminates"
   ],
   "note": ""
  },
  {
   "property": "C08",
   "status": "proved",
   "theorems": [
    "C08_stop_iff_complete",
    "C08_error_after_stop"
   ],
   "note": ""
  },
  {
   "property": "C09",
   "status": "proved",
   "theorems": [
    "C09_line_and_column",
    "C09_line_and_column_handwritten",
    "C09_position_determined"
   ],
   "note": ""
  },
  {
   "property": "C10",
   "status": "proved",
   "theorems": [
    "C10_only_whitespace_dropped",
    "C10_only_comments_dropped_handwritten"
   ],
   "note": ""
  },
  {
   "property": "C11",
   "status": "partial",
   "theorems": [
    "C11_offsets_in_input_refuted",
    "C11_stop_offsets",
    "C11_offsets_in_input_partial",
    "C11_offsets_are_bytes",
    "C11_offsets_are_bytes_handwritten",
    "C11_bytes_exist",
    "C11_bytes_unique"
   ],
   "note": "False of the code: the _STOP token carries offsets length+10 (refuted, and proved for every lexer). Proved for all other tokens."
  },
  {
   "property": "C12",
   "status": "partial",
   "theorems": [
    "C12_columns_iff",
    "C12_columns_iff_handwritten",
    "C12_columns_are_characters_refuted",
    "C12_columns_are_characters_partial"
   ],
   "note": "False of the code: all counts are bytes (refuted with a two-byte character). Proved for ASCII input, and that they are character counts exactly when the text counted is ASCII."
  },
  {
   "property": "C13",
   "status": "proved",
   "theorems": [
    "C13_written_iff_scanned",
    "C13_reads_exactly",
    "C13_one_reading"
   ],
   "note": "Stronger than stated: an exact characterisation of the accepted texts, blanks only needed where tokens would run together. Regex semantics is modelled (leftmost-first on the constructs used); \\d outside ASCII is arbitrary."
  },
  {
   "property": "C14",
   "status": "partial",
   "theorems": [
    "C14_keyword_refuted",
    "C14_v1_keyword_partial",
    "C14_hand_keyword"
   ],
   "note": "False of the code: RULE_REF comes first and matches the same word (refuted; proved for every occurrence in both lexers). Only the Greek letter yields EPSILON."
  },
  {
   "property": "C15",
   "status": "proved",
   "theorems": [
    "C15_get_terminals_exact",
    "C15_get_errornodes_exact",
    "C15_get_rule_contexts_exact",
    "C15_edge_terminals"
   ],
   "note": ""
  },
  {
   "property": "C16",
   "status": "partial",
   "theorems": [
    "C16_get_text_refuted",
    "C16_get_text_panic_refuted",
    "C16_get_text_partial",
    "C16_get_text_otherwise",
    "C16_get_text_no_panic_partial",
    "C16_get_text_sentence_partial"
   ],
   "note": "False of the code: a node whose first or last child chain ends in an empty rule has text \"\" (refuted with a conflict-free grammar and no mismatch), and get_text panics when a mismatch put _STOP into the tree (refuted). Proved: exact text whenever both edges are tokens, empty text otherwise, no panic after a parse without mismatch."
  },
  {
   "property": "C17",
   "status": "proved",
   "theorems": [
    "C17_replaced",
    "C17_walk_nested",
    "C17_walk_order"
   ],
   "note": ""
  },
  {
   "property": "C18",
   "status": "proved",
   "theorems": [
    "C18_defaults",
    "C18_dispatch",
    "C18_leaves_in_order",
    "C18_leaf_tokens",
    "C18_aggregates_until_stopped"
   ],
   "note": "Overrides that call back into visit are the subject of C54."
  },
  {
   "property": "C19",
   "status": "proved",
   "theorems": [
    "C19_roundtrip",
    "C19_exact"
   ],
   "note": ""
  },
  {
   "property": "C20",
   "status": "proved",
   "theorems": [
    "C20_accepts",
    "C20_rejects",
    "C20_never_panics",
    "C20_fuel_irrelevant"
   ],
   "note": ""
  },
  {
   "property": "C21",
   "status": "partial",
   "theorems": [
    "C21_escape_refuted",
    "C21_escape_partial"
   ],
   "note": "False of the code for strings with a dollar-brace or a carriage return (refuted); an exact characterisation of the strings that survive is proved."
  },
  {
   "property": "C22",
   "status": "partial",
   "theorems": [
    "C22_dump_refuted",
    "C22_dump_partial",
    "C22_dump_iff",
    "C22_dump_exact"
   ],
   "note": "False for labels with a dollar-brace or a carriage return (refuted); proved that it holds for exactly the other trees, and what the script denotes for every tree."
  },
  {
   "property": "C23",
   "status": "proved",
   "theorems": [
    "C23_first_terminates",
    "C23_first_returns"
   ],
   "note": "Uniform fuel bound for all iteration orders; panic characterised exactly."
  },
  {
   "property": "C24",
   "status": "proved",
   "theorems": [
    "C24_first_exact",
    "C24_first_order_independent"
   ],
   "note": ""
  },
  {
   "property": "C25",
   "status": "proved",
   "theorems": [
    "C25_production_first_exact"
   ],
   "note": ""
  },
  {
   "property": "C26",
   "status": "proved",
   "theorems": [
    "C26_follow_returns",
    "C26_follow_needs_start",
    "C26_follow_exact"
   ],
   "note": ""
  },
  {
   "property": "C27",
   "status": "partial",
   "theorems": [
    "C27_textbook_follow_refuted",
    "C27_textbook_follow_partial",
    "C27_superset"
   ],
   "note": "False of the code: refuted by a grammar with an unreachable rule (S: a; U: S b gives b in FOLLOW(S)). Proved when every rule is reachable from rule 0; in general FOLLOW contains the textbook FOLLOW and the rest stems from unreachable rules."
  },
  {
   "property": "C28",
   "status": "proved",
   "theorems": [
    "C28_table_returns",
    "C28_table_entries"
   ],
   "note": ""
  },
  {
   "property": "C29",
   "status": "proved",
   "theorems": [
    "C29_warnings_iff_not_ll1",
    "C29_inner_orders",
    "C29_inner_returns",
    "C29_reports_exactly",
    "C29_same_number"
   ],
   "note": ""
  },
  {
   "property": "C30",
   "status": "partial",
   "theorems": [
    "C30_order_independent_refuted",
    "C30_order_independent_partial",
    "C30_last_production_wins",
    "C30_inner_insert",
    "C30_order_independent_iff"
   ],
   "note": "False of the code for conflicting grammars (refuted by s: A | A B); proved equivalent to the grammar being LL(1); in general the last predicted production in iteration order wins."
  },
  {
   "property": "C31",
   "status": "partial",
   "theorems": [
    "C31_plus_refuted",
    "C31_plus_always_conflicts"
   ],
   "note": "False of the code: refuted, and proved to fail for every use of + on an operand that matches a token."
  },
  {
   "property": "C32",
   "status": "proved",
   "theorems": [
    "C32_parse_sound"
   ],
   "note": ""
  },
  {
   "property": "C33",
   "status": "proved",
   "theorems": [
    "C33_parse_complete",
    "C33_parse_start_complete"
   ],
   "note": ""
  },
  {
   "property": "C34",
   "status": "proved",
   "theorems": [
    "C34_parse_terminates"
   ],
   "note": ""
  },
  {
   "property": "C35",
   "status": "partial",
   "theorems": [
    "C35_parse_terminates_refuted",
    "C35_terminates_iff",
    "C35_cycle_diverges",
    "C35_no_left_recursion_partial",
    "C35_left_recursion_diverges"
   ],
   "note": "False of the code: left recursion s: s A | B diverges for every recursion depth on a sentence of the grammar. Proved: a table makes the parser terminate iff it has no cycle of left corners at one lookahead; without left recursion it terminates whatever the conflicts; every directly left-recursive rule diverges for some order."
  },
  {
   "property": "C36",
   "status": "partial",
   "theorems": [
    "C36_only_sentences_refuted",
    "C36_mismatch_accepted_refuted",
    "C36_only_sentences_partial",
    "C36_accepts_iff"
   ],
   "note": "False of the code: trailing tokens are ignored and mismatches are only printed (two refutations). Proved: without mismatch a prefix of the tokens is a sentence; the sentences are exactly the inputs whose tree has all tokens and no mismatch."
  },
  {
   "property": "C37",
   "status": "proved",
   "theorems": [
    "C37_leaves_and_names"
   ],
   "note": ""
  },
  {
   "property": "C38",
   "status": "proved",
   "theorems": [
    "C38_unambiguous",
    "C38_unambiguous_start"
   ],
   "note": "For rules with nonempty FOLLOW, in particular the start rule."
  },
  {
   "property": "C39",
   "status": "proved",
   "theorems": [
    "C39_numbering",
    "C39_generated_lexer",
    "C39_constants"
   ],
   "note": "For every tree on which the passes succeed; the generated lexer is the template instantiated, for every behaviour of its regexes."
  },
  {
   "property": "C40",
   "status": "proved",
   "theorems": [
    "C40_language"
   ],
   "note": "Full simulation of the production pass; the hypothesis no_collision is the restriction on numeric ids in the property."
  },
  {
   "property": "C41",
   "status": "partial",
   "theorems": [
    "C41_read",
    "C41_language_partial",
    "C41_language_refuted"
   ],
   "note": "False of the code (cache keys confuse token and rule numbers): refuted. Proved: the exact language of every grammar that loads (an operand stands for the first operand of the same operator with the same number), and that nothing changes if no operator is applied both to a token and to something else; see also C40."
  },
  {
   "property": "C42",
   "status": "proved",
   "theorems": [
    "C42_returns_iff",
    "C42_panics_iff"
   ],
   "note": "Both directions, for every tree of every grammar."
  },
  {
   "property": "C43",
   "status": "proved",
   "theorems": [
    "C43_closed",
    "C43_analyses_return"
   ],
   "note": "For every tree on which load_ast succeeds and every iteration order."
  },
  {
   "property": "C44",
   "status": "proved",
   "theorems": [
    "C44_shipped_ll1",
    "C44_parses_written",
    "C44_only_written",
    "C44_terminates"
   ],
   "note": "Stronger than stated: an exact characterisation, main parses without mismatch exactly the texts that write a grammar, for every iteration order; and it terminates on every text."
  },
  {
   "property": "C45",
   "status": "partial",
   "theorems": [
    "C45_numbers",
    "C45_visitors_refuted",
    "C45_visitors_panic",
    "C45_accessors",
    "C45_renumbered_partial"
   ],
   "note": "False of the code: the v1 parser returns token types the hand-written accessors do not use, so the visitors panic on every tree with a rule (refuted, and proved in general). Proved: the v1 accessors agree with the hand-written ones up to renumbering, and the renumbered tree loads iff all references are defined."
  },
  {
   "property": "C46",
   "status": "partial",
   "theorems": [
    "C46_display_refuted",
    "C46_display_partial",
    "C46_display_panics_exactly",
    "C46_display_format"
   ],
   "note": "False of the code: no separator before nonterminals (refuted). Proved when nonterminals only occur first in right-hand sides and names are words; panics characterised exactly. The layout is characterised for all inputs."
  },
  {
   "property": "C47",
   "status": "proved",
   "theorems": [
    "C47_symbol_visitor",
    "C47_lexer_rule_visitor",
    "C47_unescape_unique"
   ],
   "note": "Both visitors; panics characterised exactly."
  },
  {
   "property": "C48",
   "status": "proved",
   "theorems": [
    "C48_lexer_rules",
    "C48_lexer_rules_return",
    "C48_load_ast",
    "C48_string_literals"
   ],
   "note": "Both visitors and load_ast, for every tree."
  },
  {
   "property": "C49",
   "status": "partial",
   "theorems": [
    "C49_embedding_refuted",
    "C49_embedding_partial",
    "C49_embedding_exact"
   ],
   "note": "False (refuted twice: a text can end the script element, and a text with <!--<script> keeps it from being ended). Proved exactly, with the script data states of the HTML standard, what the element contains for every tree."
  },
  {
   "property": "C50",
   "status": "proved",
   "theorems": [
    "C50_committed_lexer"
   ],
   "note": "The regexes and names are compared as texts, so the equality holds for every input and every meaning of \\d."
  },
  {
   "property": "C51",
   "status": "proved",
   "theorems": [
    "C51_trees",
    "C51_tree_exists",
    "C51_parsed"
   ],
   "note": "Equivalence between parses (over the productions) and the forests of SpecForest.v; strengthens C40 from token sequences to trees."
  },
  {
   "property": "C52",
   "status": "proved",
   "theorems": [
    "C52_parse_complete",
    "C52_parse_sound",
    "C52_entry_complete",
    "C52_entry_sound",
    "C52_unique"
   ],
   "note": "Both directions, for every rule as entry point; composition of C51 with the parser theorems C32, C33, C38."
  },
  {
   "property": "C53",
   "status": "partial",
   "theorems": [
    "C53_block_refuted",
    "C53_rule_list",
    "C53_rules",
    "C53_leaf",
    "C53_block_panics",
    "C53_alternative_partial",
    "C53_element_partial",
    "C53_suffix_partial"
   ],
   "note": "False of the code: block always panics (a continuation is looked up with _STOP, which is only in the FOLLOW of rule_list) (refuted). Exact: rule_list, parser_rule, lexer_rule, epsilon and regular work; alternative only for epsilon; element and ebnf_suffix only with a lazy suffix."
  },
  {
   "property": "C54",
   "status": "proved",
   "theorems": [
    "C54_nothing_replaced",
    "C54_around_visit_is_walking",
    "C54_visit_children_replaced",
    "C54_forwarding_is_walking",
    "C54_descending_terminates",
    "C54_plain"
   ],
   "note": "Visitors are functions of self.visit and self.visit_children; recursion bounded by fuel, and shown to finish for methods that descend."
  },
  {
   "property": "C55",
   "status": "partial",
   "theorems": [
    "C55_display_shape_refuted",
    "C55_display_shape_partial",
    "C55_display_format"
   ],
   "note": "False for arbitrary names (refuted); proved for names without blank and parentheses, which the names of a grammar text are. The layout is characterised for all inputs."
  },
  {
   "property": "C56",
   "status": "partial",
   "theorems": [
    "C56_token_display_refuted",
    "C56_token_display_partial",
    "C56_token_display_format"
   ],
   "note": "False for names with a quote (refuted); proved for all other names and every text. The layout is characterised for all inputs."
  },
  {
   "property": "C57",
   "status": "partial",
   "theorems": [
    "C57_dot_refuted",
    "C57_backslash_refuted",
    "C57_parenthesis_refuted",
    "C57_regex_partial",
    "C57_collected_partial"
   ],
   "note": "False of the code: dots, parentheses and other metacharacters are not escaped and backslashes are lost (refuted); proved for every literal whose text avoids them (+ and * are escaped correctly)."
  },
  {
   "property": "C58",
   "status": "proved",
   "theorems": [
    "C58_deterministic",
    "C58_committed_page"
   ],
   "note": "Proved for all texts and orders; the committed parser2.html is reproduced by the model character by character, for every hash order and every meaning of \\\\d."
  },
  {
   "property": "C59",
   "status": "partial",
   "theorems": [
    "C59_name_refuted",
    "C59_page_iff_partial",
    "C59_page_partial",
    "C59_shown_partial",
    "C59_main_iff_partial",
    "C59_main_partial",
    "C59_written_partial"
   ],
   "note": "False of the code: the name is not escaped (refuted; see also C22, C49 for the tree). Proved exactly for which names and trees the page reads back (HTML input preprocessing, end tags, script data states, U+0000, JavaScript literals), and for main on every harmless text."
  },
  {
   "property": "C60",
   "status": "partial",
   "theorems": [
    "C60_committed",
    "C60_hashes_refuted",
    "C60_source_partial",
    "C60_source_iff_partial"
   ],
   "note": "False when a regex has a quote followed by four hashes (refuted); proved for all other regexes and identifier names, with the exact condition (no quote followed by four hashes, no carriage return). The committed lexer.rs is reproduced character by character."
  },
  {
   "property": "C61",
   "status": "partial",
   "theorems": [
    "C61_declared",
    "C61_white_space_refuted",
    "C61_references_iff_partial"
   ],
   "note": "False for grammars without WHITE_SPACE (refuted); proved equivalent to having WHITE_SPACE. The declared constants are characterised exactly."
  },
  {
   "property": "C62",
   "status": "proved",
   "theorems": [
    "C62_accepts",
    "C62_rejects",
    "C62_total",
    "C62_unambiguous",
    "C62_shipped_text",
    "C62_shipped_loads"
   ],
   "note": "The JSON reader of serde_json is modelled from its documentation (JsonText.v); which numbers overflow f64 is arbitrary."
  },
  {
   "property": "C63",
   "status": "partial",
   "theorems": [
    "C63_deep_refuted",
    "C63_deep_rejected",
    "C63_reads_partial",
    "C63_written_partial"
   ],
   "note": "False for 64 and more nested rules, because of the recursion limit of serde_json (refuted, and proved for every such tree); proved for all others."
  },
  {
   "property": "C64",
   "status": "proved",
   "theorems": [
    "C64_accept",
    "C64_listener",
    "C64_root",
    "C64_load"
   ],
   "note": "The traits of the rewrite and of v1; a context trait implemented by a user is not modelled."
  },
  {
   "property": "C65",
   "status": "proved",
   "theorems": [
    "C65_scan",
    "C65_scan_handwritten",
    "C65_symbols",
    "C65_productions",
    "C65_load",
    "C65_parse"
   ],
   "note": "Justifies natural numbers for usize in the model: every counter is bounded by the size of data held in memory."
  },
  {
   "property": "C66",
   "status": "proved",
   "theorems": [
    "C66_depth_linear"
   ],
   "note": "Depth of calls and of the tree; the size of a stack frame is not modelled."
  },
  {
   "property": "C67",
   "status": "proved",
   "theorems": [
    "C67_repaired",
    "C67_first_mismatch",
    "C67_no_false_alarm"
   ],
   "note": ""
  },
  {
   "property": "C68",
   "status": "proved",
   "theorems": [
    "C68_reads_exactly",
    "C68_one_reading",
    "C68_last_comment"
   ],
   "note": "Exact for every text, including what is left unread. Regex semantics as in C13; \\\\d outside ASCII is arbitrary."
  },
  {
   "property": "C69",
   "status": "proved",
   "theorems": [
    "C69_productions",
    "C69_sets",
    "C69_conflicts",
    "C69_text"
   ],
   "note": "About one input, all iteration orders; it ties the model to outputs of the real program. That the comments were made from syntaxis.json (and not syntaxis2.json, which the tests read now) is inferred from the productions. The recorded lines have a blank in front of rule names that Display no longer prints (C46), so the layout is the recorded one."
  },
  {
   "property": "C70",
   "status": "proved",
   "theorems": [
    "C70_source_ll1",
    "C70_reports",
    "C70_no_reports_sound",
    "C70_plus_spelt_out",
    "C70_begins"
   ],
   "note": "Exact; the condition on x+ is the exact form of C31. no_collision is the restriction of C40. As in follow_set, places not reachable from the first rule count."
  },
  {
   "property": "C71",
   "status": "proved",
   "theorems": [
    "C71_outline",
    "C71_settles",
    "C71_twice"
   ],
   "note": "d3 (hierarchy, traversals, keyed join, transitions) and the browser are modelled from their documentation; see View.v."
  },
  {
   "property": "C72",
   "status": "partial",
   "theorems": [
    "C72_pane",
    "C72_settles",
    "C72_switch",
    "C72_button",
    "C72_labels_refuted",
    "C72_labels_partial"
   ],
   "note": "False for the labels: a rule without children is drawn without label (refuted, with the page main writes for the empty text); proved for all other nodes. Everything else is exact, for an arbitrary layout function."
  },
  {
   "property": "C73",
   "status": "proved",
   "theorems": [
    "C73_zoom",
    "C73_drag",
    "C73_released",
    "C73_reset",
    "C73_start"
   ],
   "note": "Coordinates are integers, the product of the zoom factor is an arbitrary function."
  },
  {
   "property": "C74",
   "status": "partial",
   "theorems": [
    "C74_regex_refuted",
    "C74_regex_iff_partial"
   ],
   "note": "False (refuted with a two-rule text); exact condition proved. Generated (v1) lexer; the hand-written lexer has the same regex, its behaviour is C68."
  },
  {
   "property": "C75",
   "status": "partial",
   "theorems": [
    "C75_name_refuted",
    "C75_name_iff_partial"
   ],
   "note": "False for one-letter names (refuted); exact condition proved, for a name followed by anything that does not continue it."
  },
  {
   "property": "C76",
   "status": "proved",
   "theorems": [
    "C76_visitor",
    "C76_listener",
    "C76_lines_iff",
    "C76_order"
   ],
   "note": "Fixture code of the tests. The printed lines are modelled, not the unit results."
  },
  {
   "property": "C77",
   "status": "partial",
   "theorems": [
    "C77_constants",
    "C77_every_grammar",
    "C77_generated",
    "C77_hand_refuted",
    "C77_hand_iff_partial"
   ],
   "note": "Found by a wrong-program experiment (names of the hand-written lexer exchanged) that no theorem noticed."
  },
  {
   "property": "C78",
   "status": "partial",
   "theorems": [
    "C78_literal_refuted",
    "C78_literal_iff_partial"
   ],
   "note": "False (refuted); exact condition proved, including where the scan stops."
  },
  {
   "property": "C79",
   "status": "partial",
   "theorems": [
    "C79_draw_refuted",
    "C79_draw_partial",
    "C79_draw_exact",
    "C79_page_text",
    "C79_deterministic",
    "C79_main",
    "C79_parser_test",
    "C79_gen_lexer",
    "C79_load_and_draw",
    "C79_untouched",
    "C79_unreadable"
   ],
   "note": "False where write takes only part of the bytes (refuted); exact description of the disk after draw proved."
  },
  {
   "property": "C80",
   "status": "proved",
   "theorems": [
    "C80_accepts",
    "C80_rejects",
    "C80_total",
    "C80_agrees",
    "C80_cut",
    "C80_byte_order_mark"
   ],
   "note": "Strict UTF-8 decoding in front of the JSON reader of C62."
  },
  {
   "property": "C81",
   "status": "partial",
   "theorems": [
    "C81_same",
    "C81_definitions",
    "C81_lexer_rules",
    "C81_report_partial",
    "C81_silent_partial",
    "C81_rules_refuted",
    "C81_spurious_refuted",
    "C81_report_all",
    "C81_report_plain",
    "C81_silent_all"
   ],
   "note": "False for rules defined twice and under number collisions (both refuted). For every grammar that loads the exact list of lines is proved: alternatives count as the same where the same symbols stand for them (C83); without collisions that is where they are written alike. Lines printed before a panic are not kept."
  },
  {
   "property": "C82",
   "status": "proved",
   "theorems": [
    "C82_lines",
    "C82_conflict",
    "C82_conflict_text",
    "C82_decimal",
    "C82_shipped",
    "C82_silent"
   ],
   "note": "Lines printed before a panic are not kept: the statements speak about runs that return."
  },
  {
   "property": "C83",
   "status": "partial",
   "theorems": [
    "C83_all",
    "C83_rewriting_refuted",
    "C83_rewriting_partial"
   ],
   "note": "False under clashing numbers (refuted with C41); proved in full without them, and for every grammar the exact rewriting (first operand with the same suffix and number)."
  },
  {
   "property": "C84",
   "status": "proved",
   "theorems": [
    "C84_lines",
    "C84_load",
    "C84_lexer_rules",
    "C84_strings",
    "C84_text"
   ],
   "note": "Equality of results, panics included; for texts through the trees of main with token types renumbered (C45)."
  },
  {
   "property": "C85",
   "status": "proved",
   "theorems": [
    "C85_rules",
    "C85_unique",
    "C85_first_rule",
    "C85_reports",
    "C85_accepts",
    "C85_silent",
    "C85_text",
    "C85_text_apart",
    "C85_accepts_every"
   ],
   "note": "The engine is a parameter that only finds beginnings of the text; the model of the regex crate is one (example). C85_accepts_every drops the condition on collisions (operands read as in C41), an example shows it is needed in C85_accepts. Tokens behind a complete sentence: C36."
  },
  {
   "property": "C86",
   "status": "proved",
   "theorems": [
    "C86_no_early_report",
    "C86_first_report",
    "C86_expected",
    "C86_chain"
   ],
   "note": "Reports on token lists where the parser returns; for runs that panic see C87. The expected token needs every rule to match something."
  },
  {
   "property": "C87",
   "status": "proved",
   "theorems": [
    "C87_cut",
    "C87_cut_unique",
    "C87_cut_all",
    "C87_any_text",
    "C87_every",
    "C87_text",
    "C87_same_run",
    "C87_ends",
    "C87_no_early_trouble",
    "C87_first_trouble",
    "C87_before_trouble",
    "C87_no_trouble",
    "C87_chain",
    "C87_main"
   ],
   "note": "Crash.v keeps the lines printed before a panic and the place of the panic; C87_same_run relates it to Parser.v. That the tokens before the trouble begin a sentence needs every nonterminal to derive something (every rule to match something, with number collisions: every rule to be readable by numbers)."
  },
  {
   "property": "C88",
   "status": "proved",
   "theorems": [
    "C88_load",
    "C88_load_same",
    "C88_files",
    "C88_stdout",
    "C88_main",
    "C88_inner_orders",
    "C88_inner_own"
   ],
   "note": "Which alternatives are reported before a panic is left open beyond their kind; for grammars that load see C81."
  },
  {
   "property": "C89",
   "status": "proved",
   "theorems": [
    "C89_parsed",
    "C89_generated_exact",
    "C89_exact"
   ],
   "note": "For the generated accessors on parsed trees, and as an equivalence for both sets of accessors. An empty alternative node counts as described (the trees main builds have none, by C44)."
  },
  {
   "property": "C90",
   "status": "partial",
   "theorems": [
    "C90_stops_refuted",
    "C90_blind",
    "C90_never_stops",
    "C90_content_partial"
   ],
   "note": "False of the code: the hook is given the box, not its content, so every downcast to a result type fails (refuted; proved for every hook that asks for other types than Box<dyn Any>). Proved: opening the box first gives the intended behaviour."
  },
  {
   "property": "C91",
   "status": "partial",
   "theorems": [
    "C91_same",
    "C91_work_partial",
    "C91_table_partial",
    "C91_linear_refuted",
    "C91_star",
    "C91_named"
   ],
   "note": "False of the code for the copies: clone of the children of a nameless rule at every level of a repetition (refuted with a loaded grammar; exact count). Proved: calls linear, copies at most quadratic, no copies where all nonterminals are named. Counted are calls and cloned nodes of children, not the work inside HashMap or Vec."
  },
  {
   "property": "C92",
   "status": "proved",
   "theorems": [
    "C92_any_calls",
    "C92_any_calls_handwritten",
    "C92_stream_unique",
    "C92_same"
   ],
   "note": "For every regex engine whose matches end at char boundaries. The public fields of the lexer are not written between the calls."
  },
  {
   "property": "C93",
   "status": "proved",
   "theorems": [
    "C93_scan",
    "C93_scans",
    "C93_scan_all",
    "C93_ties_matter"
   ],
   "note": "For every regex engine. The rules are permuted together with their names; type numbers change accordingly."
  },
  {
   "property": "C94",
   "status": "proved",
   "theorems": [
    "C94_types_only",
    "C94_entry_points",
    "C94_change_leaves"
   ],
   "note": ""
  },
  {
   "property": "C95",
   "status": "proved",
   "theorems": [
    "C95_load",
    "C95_load_tree",
    "C95_chain",
    "C95_builtin_names"
   ],
   "note": "The number of WHITE_SPACE is kept; the template refers to it by name, so a grammar that renames WHITE_SPACE itself gets no compiling lexer (C61)."
  },
  {
   "property": "C96",
   "status": "proved",
   "theorems": [
    "C96_load",
    "C96_lexer_rules",
    "C96_strings",
    "C96_text",
    "C96_names_needed"
   ],
   "note": "The order of the lines printed while loading is not part of the claim: the passes print in the order of the text."
  },
  {
   "property": "C97",
   "status": "proved",
   "theorems": [
    "C97_numbers",
    "C97_tokens",
    "C97_chain",
    "C97_longer_matters",
    "C97_nameless_move"
   ],
   "note": ""
  },
  {
   "property": "C98",
   "status": "proved",
   "theorems": [
    "C98_load",
    "C98_same",
    "C98_ll1",
    "C98_chain",
    "C98_shuffled",
    "C98_text",
    "C98_collision_matters",
    "C98_first_matters"
   ],
   "note": "Grammars that are not LL(1) are not covered by C98_chain: which of two conflicting productions wins depends on the iteration order of a hash set anyway (C30)."
  },
  {
   "property": "C99",
   "status": "proved",
   "theorems": [
    "C99_ll1",
    "C99_chain",
    "C99_appended",
    "C99_text",
    "C99_ll1_matters"
   ],
   "note": ""
  },
  {
   "property": "C100",
   "status": "proved",
   "theorems": [
    "C100_load",
    "C100_ll1",
    "C100_chain",
    "C100_apart",
    "C100_text",
    "C100_ties_matter"
   ],
   "note": "Grammars that are not LL(1) are not covered by C100_chain, as in C98."
  },
  {
   "property": "C101",
   "status": "proved",
   "theorems": [
    "C101_language",
    "C101_chain",
    "C101_appended",
    "C101_text",
    "C101_errors_change"
   ],
   "note": "C101_chain speaks about texts that the lexer rules cut completely; texts that are not accepted are covered by C99 only, see C101_errors_change."
  },
  {
   "property": "C102",
   "status": "proved",
   "theorems": [
    "C102_same",
    "C102_language",
    "C102_chain",
    "C102_text"
   ],
   "note": "That both grammars are LL(1) is a hypothesis, it is not derived for one from the other; the tree with the nodes of the new name taken out is not compared, only its leaves."
  }
 ]
}