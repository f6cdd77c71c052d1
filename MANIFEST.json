{
 "claims": [
  {
   "property": "C01",
   "status": "proved",
   "theorems": [
    "C01_round_trip",
    "C01_round_trip_unicode",
    "C01_bytes",
    "C01_bytes_text"
   ],
   "note": "ASCII offsets exact; any document: character containing the byte."
  },
  {
   "property": "C02",
   "status": "partial",
   "theorems": [
    "C02_lsp_positions",
    "C02_lsp_positions_ascii",
    "C02_units",
    "C02_all_documents",
    "C02_ascii_refuted",
    "C02_utf16_refuted"
   ],
   "note": "Holds for plain documents (LF/CR line ends, BMP characters) and fully characterised for all documents; the unrestricted claim is refuted (VT, astral characters)."
  },
  {
   "property": "C03",
   "status": "proved",
   "theorems": [
    "C03_range_ordered",
    "C03_monotone",
    "C03_defined"
   ],
   "note": "All documents, all spans."
  },
  {
   "property": "C04",
   "status": "partial",
   "theorems": [
    "C04_cursor_in_line",
    "C04_cursor_no_line",
    "C04_behind",
    "C04_clamp_refuted"
   ],
   "note": "In-line positions, missing lines and (C04_behind) what larger columns mean proved; that they are clamped to the line is refuted."
  },
  {
   "property": "C05",
   "status": "proved",
   "theorems": [
    "C05_lexer_total",
    "C05_lexer_gives_up"
   ],
   "note": "All texts, all Unicode tables."
  },
  {
   "property": "C06",
   "status": "proved",
   "theorems": [
    "C06_spans"
   ],
   "note": "All texts, also with lexical errors."
  },
  {
   "property": "C07",
   "status": "proved",
   "theorems": [
    "C07_complete",
    "C07_token_text",
    "C07_with_errors_refuted"
   ],
   "note": "Error-free documents; witness that it fails with errors."
  },
  {
   "property": "C08",
   "status": "proved",
   "theorems": [
    "C08_grammar",
    "C08_grammar_errors",
    "C08_deterministic",
    "C08_blank_document_refuted"
   ],
   "note": "Equivalence in both directions, with the number of garbage runs = number of errors; blank-only documents refuted."
  },
  {
   "property": "C09",
   "status": "proved",
   "theorems": [
    "C09_recovery",
    "C09_trailing_garbage",
    "C09_trailing_garbage_refuted"
   ],
   "note": "Recovery in front of lexable text proved after any complete lines; garbage at the end loses all tokens (general theorem and witness)."
  },
  {
   "property": "C10",
   "status": "proved",
   "theorems": [
    "C10_print_relex"
   ],
   "note": ""
  },
  {
   "property": "C11",
   "status": "proved",
   "theorems": [
    "C11_parser_total",
    "C11_document_total"
   ],
   "note": "All token sequences and all texts; includes every recovery path."
  },
  {
   "property": "C12",
   "status": "proved",
   "theorems": [
    "C12_names_are_tokens",
    "C12_grammar"
   ],
   "note": "Names are a subsequence of the document's tokens; moreover the statements are a derivation of the declarative grammar."
  },
  {
   "property": "C13",
   "status": "proved",
   "theorems": [
    "C13_layout"
   ],
   "note": "All documents, also with errors."
  },
  {
   "property": "C14",
   "status": "proved",
   "theorems": [
    "C14_round_trip",
    "C14_document",
    "C14_unambiguous"
   ],
   "note": "Every concrete layout (newlines, comments), every well-formed module; grammar is unambiguous."
  },
  {
   "property": "C15",
   "status": "partial",
   "theorems": [
    "C15_statements_before",
    "C15_junk_before",
    "C15_junk_at_end",
    "C15_no_statement_lost_refuted"
   ],
   "note": "Locality before errors and recovery before a statement proved; junk at the end of the document provably loses everything (refuted). C83 gives the exact law of what is kept and lost for all token sequences."
  },
  {
   "property": "C16",
   "status": "proved",
   "theorems": [
    "C16_every_symbol_once",
    "C16_no_repetition"
   ],
   "note": "All documents, ASCII or not, also with errors; the dual-name exception is explicit."
  },
  {
   "property": "C17",
   "status": "partial",
   "theorems": [
    "C17_only_tokens",
    "C17_text",
    "C17_text_with_errors",
    "C17_text_with_errors_refuted"
   ],
   "note": "Every listed span is a token of the right class and name (all documents); source text at the span equals the name if lexing has no errors. With lexical errors the span also covers the garbage in front (refuted)."
  },
  {
   "property": "C18",
   "status": "proved",
   "theorems": [
    "C18_found",
    "C18_not_found",
    "C18_the_one"
   ],
   "note": "All documents and offsets; unique except for names used as variable and function."
  },
  {
   "property": "C19",
   "status": "proved",
   "theorems": [
    "C19_scope"
   ],
   "note": "All documents."
  },
  {
   "property": "C20",
   "status": "partial",
   "theorems": [
    "C20_lists_exact",
    "C20_index",
    "C20_two_lists_refuted"
   ],
   "note": "Lists are exactly the syntax-tree occurrences plus the remaining tokens as uses; 'no token in two lists' holds except for names used both as variable and function (refuted witness)."
  },
  {
   "property": "C21",
   "status": "proved",
   "theorems": [
    "C21_ascii_total",
    "C21_panics_exactly",
    "C21_non_ascii_refuted"
   ],
   "note": "ASCII total; all documents: panics exactly when an annotation value is not a byte range; non-ASCII witness."
  },
  {
   "property": "C22",
   "status": "proved",
   "theorems": [
    "C22_decodes",
    "C22_decodes_ascii",
    "C22_total"
   ],
   "note": "Whole documents, from the lexer's result to the decoded list."
  },
  {
   "property": "C23",
   "status": "proved",
   "theorems": [
    "C23_legend"
   ],
   "note": ""
  },
  {
   "property": "C24",
   "status": "proved",
   "theorems": [
    "C24_all_diagnostics",
    "C24_undefined",
    "C24_each_once"
   ],
   "note": "Multiset of published diagnostics for every hash-map order; ASCII documents with LF/CR line ends. Undefined uses characterised against tokens and syntax tree."
  },
  {
   "property": "C25",
   "status": "proved",
   "theorems": [
    "C25_redefinitions",
    "C25_each_once"
   ],
   "note": "With C24_all_diagnostics: each redefinition once, linked to the first definition."
  },
  {
   "property": "C26",
   "status": "proved",
   "theorems": [
    "C26_missing_targets",
    "C26_unreadable"
   ],
   "note": "C26_missing_targets with C24_all_diagnostics: reported iff the target list of the parsed instruction is empty; C26_unreadable: in a document without syntax errors that is so exactly if no form with targets can be read at that place."
  },
  {
   "property": "C27",
   "status": "partial",
   "theorems": [
    "C27_error_places",
    "C27_dropped_refuted"
   ],
   "note": "Each error inside the document published once at its span; errors at the end dropped (witness), which is what the property forbids."
  },
  {
   "property": "C28",
   "status": "proved",
   "theorems": [
    "C28_all_occurrences"
   ],
   "note": "Plain (ASCII) documents; every occurrence of the symbol, separate non-empty ranges, exactly the accepted names; edits are those of the recorded occurrences."
  },
  {
   "property": "C29",
   "status": "proved",
   "theorems": [
    "C29_rename",
    "C29_shift",
    "C29_colon_refuted",
    "C29_skipped_text_refuted",
    "C29_keyword_refuted",
    "C29_keyword_shift_refuted"
   ],
   "note": "Absolute and relative renames of all kinds of names: the patched document lexes to the old tokens with exactly the renamed ones changed, for every accepted name that the lexer can read back (not ending in a colon; for labels not reserved, and no lexical errors). Witnesses: a name ending in a colon is accepted and changes the tokens; a label can be renamed or moved to a keyword; with lexical errors, skipped text in front of a name is part of its span and deleted."
  },
  {
   "property": "C30",
   "status": "partial",
   "theorems": [
    "C30_shift",
    "C30_up_keeps_apart",
    "C30_moved_apart",
    "C30_down_refuted"
   ],
   "note": "Edits exactly as specified for all shifts without overflow; names kept apart when moving up, and among moved names when moving down; a moved-down name can meet an unmoved one (witness)."
  },
  {
   "property": "C31",
   "status": "proved",
   "theorems": [
    "C31_numbered",
    "C31_not_numbered",
    "C31_total",
    "C31_unique",
    "C31_sound",
    "C31_panic_refuted"
   ],
   "note": "ASCII names completely; all Unicode names: soundness. Panic witness for a multi-byte last non-numeric character."
  },
  {
   "property": "C32",
   "status": "partial",
   "theorems": [
    "C32_only_these_panics",
    "C32_empty_refuted",
    "C32_overflow_refuted"
   ],
   "note": "The only panics are the empty new name and i64 overflow in debug builds; both occur (witnesses)."
  },
  {
   "property": "C33",
   "status": "proved",
   "theorems": [
    "C33_graph_lines",
    "C33_edges"
   ],
   "note": "Lines of the generated graph characterised for every function body of every indexed document. As in the code, branches of an unlabelled first block are not edges (the property speaks of labelled blocks)."
  },
  {
   "property": "C34",
   "status": "proved",
   "theorems": [
    "C34_all_hints"
   ],
   "note": "ASCII documents without CR and other breaks (plain_document). All hints of the document, in order; block_hint uses the same block_branches as the graph of C33."
  },
  {
   "property": "C35",
   "status": "proved",
   "theorems": [
    "C35_lenses",
    "C35_sound",
    "C35_command"
   ],
   "note": "C35_lenses for plain documents; soundness of lenses and success of commands for all documents. Functions defined more than once get no lens, as in the code."
  },
  {
   "property": "C36",
   "status": "proved",
   "theorems": [
    "C36_nesting",
    "C36_lines"
   ],
   "note": "C36_nesting for all documents of less than 2^32 characters (weak inequalities); C36_lines: on plain documents the exact lines, strictly apart."
  },
  {
   "property": "C37",
   "status": "proved",
   "theorems": [
    "C37_basename"
   ],
   "note": ""
  },
  {
   "property": "C38",
   "status": "proved",
   "theorems": [
    "C38_sanitize",
    "C38_idempotent",
    "C38_code_span"
   ],
   "note": ""
  },
  {
   "property": "C39",
   "status": "proved",
   "theorems": [
    "C39_relevant_frame"
   ],
   "note": ""
  },
  {
   "property": "C40",
   "status": "proved",
   "theorems": [
    "C40_backtrace",
    "C40_roots_refuted"
   ],
   "note": "Name, file, line and resolved URL of every frame. Under the hypothesis that workspace roots can be a base; crash witness otherwise."
  },
  {
   "property": "C41",
   "status": "partial",
   "theorems": [
    "C41_short",
    "C41_long",
    "C41_ascii",
    "C41_panic_refuted",
    "C41_ellipsis_refuted"
   ],
   "note": "Exact behaviour for all strings; property violated at 48 bytes and inside characters (witnesses)."
  },
  {
   "property": "C42",
   "status": "proved",
   "theorems": [
    "C42_last_text",
    "C42_independent"
   ],
   "note": "All histories of single-text notifications from any state; all 13 request kinds."
  },
  {
   "property": "C43",
   "status": "proved",
   "theorems": [
    "C43_one_per_change",
    "C43_delivered",
    "C43_in_order",
    "C43_same_documents",
    "C43_last_message_refuted"
   ],
   "note": "All schedules; messages are one per change with that change's diagnostics; in order when publishes are. The last message can be for an older version (witness)."
  },
  {
   "property": "C44",
   "status": "proved",
   "theorems": [
    "C44_lazy_is_eager",
    "C44_other_answers",
    "C44_edits"
   ],
   "note": "All states, also errors and panics; for plain documents the edits are those of a shift by one."
  },
  {
   "property": "C45",
   "status": "partial",
   "theorems": [
    "C45_only_these_panics",
    "C45_present_offer",
    "C45_stale_refuted"
   ],
   "note": "The only panics are a scope that does not exist and i64 overflow (debug); an offer for the present text never meets the first; stale offer panics (witness)."
  },
  {
   "property": "C46",
   "status": "partial",
   "theorems": [
    "C46_single_partial",
    "C46_several_refuted",
    "C46_empty_refuted"
   ],
   "note": "Proved for one change; with several the first one is used, an empty list panics (witnesses)."
  },
  {
   "property": "C47",
   "status": "proved",
   "theorems": [
    "C47_harmless"
   ],
   "note": "All states, all request kinds."
  },
  {
   "property": "C48",
   "status": "partial",
   "theorems": [
    "C48_cause",
    "C48_answered",
    "C48_can_finish",
    "C48_blocks_refuted"
   ],
   "note": "Blocks exactly at a change while a graph request for a document of the same shard is unanswered; otherwise never; everything waiting can be finished. Deadlock witness."
  },
  {
   "property": "C49",
   "status": "partial",
   "theorems": [
    "C49_definition",
    "C49_declaration",
    "C49_references",
    "C49_past_end",
    "C49_line_0_refuted"
   ],
   "note": "Plain documents, cursors in the text or past its last line. Go-to-definition under the hypotheses that roots can be a base and that linked lines count from 1; C49_line_0_refuted: a link to line 0 crashes a debug build."
  },
  {
   "property": "C50",
   "status": "proved",
   "theorems": [
    "C50_outline"
   ],
   "note": "Plain documents, any iteration order of the hash map."
  },
  {
   "property": "C51",
   "status": "proved",
   "theorems": [
    "C51_end_hints"
   ],
   "note": "plain_document; the hints come after the incoming and backtrace hints."
  },
  {
   "property": "C52",
   "status": "partial",
   "theorems": [
    "C52_backtrace_hints",
    "C52_panics",
    "C52_no_panic_refuted"
   ],
   "note": "Content including tooltips proved for plain documents with base-able roots; panic freedom is false (C52_no_panic_refuted), C52_panics gives the only cause."
  },
  {
   "property": "C53",
   "status": "partial",
   "theorems": [
    "C53_texts",
    "C53_count",
    "C53_unlabelled_refuted",
    "C53_undefined_refuted"
   ],
   "note": "Texts of blocks exact; the text of a function counts the labels it defines or mentions (C53_texts), which is the number of blocks for well-labelled functions (C53_count) but not in general (two _refuted witnesses)."
  },
  {
   "property": "C54",
   "status": "partial",
   "theorems": [
    "C54_entries",
    "C54_break_refuted",
    "C54_link_refuted"
   ],
   "note": "C54_entries under the hypothesis that symbols, paths and URLs contain no line feed; C54_break_refuted without; C54_link_refuted: an unresolved path can form a link."
  },
  {
   "property": "C55",
   "status": "proved",
   "theorems": [
    "C55_shape",
    "C55_rename",
    "C55_shift"
   ],
   "note": "C55_shape: relational parametricity of every grammar rule; C55_rename, C55_shift for the patched document, labels included (names that the lexer reads back as labels)."
  },
  {
   "property": "C56",
   "status": "proved",
   "theorems": [
    "C56_rename",
    "C56_shift",
    "C56_used_refuted"
   ],
   "note": "C56_rename, C56_shift; C56_used_refuted shows that the server also renames to a used name, which merges symbols."
  },
  {
   "property": "C57",
   "status": "proved",
   "theorems": [
    "C57_survives",
    "C57_schedule"
   ],
   "note": "C57_survives: induction over the history, panic analysis of every handler; C57_schedule. The causes are real: see the _refuted theorems of C32, C45, C49, C52."
  },
  {
   "property": "C58",
   "status": "proved",
   "theorems": [
    "C58_range",
    "C58_agrees"
   ],
   "note": "C58_range for document positions, C58_agrees for arbitrary positions."
  },
  {
   "property": "C59",
   "status": "proved",
   "theorems": [
    "C59_actions",
    "C59_commands",
    "C59_others",
    "C59_roots"
   ],
   "note": "The handshake is modelled with the capabilities that have contents; constant capabilities are not."
  },
  {
   "property": "C60",
   "status": "partial",
   "theorems": [
    "C60_rename",
    "C60_shift",
    "C60_number_refuted",
    "C60_down_refuted",
    "C60_skipped_refuted"
   ],
   "note": "C60_rename and C60_shift for documents without lexical errors (plain positions); witnesses: a numbered local cannot be renamed back, moving down cannot always be undone, skipped text is lost."
  },
  {
   "property": "C61",
   "status": "proved",
   "theorems": [
    "C61_tokens",
    "C61_document",
    "C61_answers"
   ],
   "note": "C61_tokens, C61_document, C61_answers; documents of blanks only are rejected by the lexer (C08_blank_document_refuted) and excluded."
  },
  {
   "property": "C62",
   "status": "partial",
   "theorems": [
    "C62_insert",
    "C62_delete",
    "C62_document",
    "C62_answers",
    "C62_empty_refuted",
    "C62_comma_refuted"
   ],
   "note": "C62_insert, C62_delete, C62_document, C62_answers for documents with a statement; C62_empty_refuted: a document of comments and blank lines only is a syntax error although the empty document is fine; C62_comma_refuted: the token behind a comma is skipped whatever it is, so line ends there count."
  },
  {
   "property": "C63",
   "status": "proved",
   "theorems": [
    "C63_exact",
    "C63_document",
    "C63_unique",
    "C63_rejects"
   ],
   "note": "C63_exact (both directions), C63_document, C63_unique, C63_rejects; the grammar is SpecExact.v on top of SpecParse.v. The recovery after errors is C15."
  },
  {
   "property": "C64",
   "status": "proved",
   "theorems": [
    "C64_selection",
    "C64_cursor",
    "C64_answered",
    "C64_nowhere"
   ],
   "note": "C64_selection, C64_cursor (both directions through offers), C64_answered, C64_nowhere; the edits of the action are C44."
  },
  {
   "property": "C65",
   "status": "proved",
   "theorems": [
    "C65_rename",
    "C65_unknown",
    "C65_command"
   ],
   "note": "C65_rename and C65_command are equivalences; C65_unknown covers rename, code_action and code_action_resolve. Not covered: the serde text behind `Invalid data for code action`, and the JSON-RPC error codes, which are not modelled."
  },
  {
   "property": "C66",
   "status": "partial",
   "theorems": [
    "C66_places",
    "C66_says",
    "C66_hopeless",
    "C66_viable",
    "C66_kind_refuted",
    "C66_comma_refuted",
    "C66_continued_refuted"
   ],
   "note": "C66_places and C66_says for all errors of all documents; C66_hopeless for the first syntax error where the text up to it is tidy (no line ends with a comma or type) and the token is no comma. C66_kind_refuted: \"expected global name\" at a global name; C66_comma_refuted and C66_continued_refuted: the excluded cases. C66_viable for all documents and first errors at a token. C84 extends this to the later errors. That the listed expected tokens would help is C80."
  },
  {
   "property": "C67",
   "status": "partial",
   "theorems": [
    "C67_graph",
    "C67_shown",
    "C67_blocks_refuted"
   ],
   "note": "C67_graph and C67_shown for all functions; the DOT reader is an executable specification. C67_blocks_refuted: a block that only an unlabelled block branches to is not drawn."
  },
  {
   "property": "C68",
   "status": "partial",
   "theorems": [
    "C68_runs",
    "C68_places",
    "C68_first",
    "C68_shown",
    "C68_unclosed_refuted"
   ],
   "note": "C68_runs, C68_places (texts that are not only blanks) and C68_first for all texts; C68_shown for plain documents. C68_unclosed_refuted: a quote that is not closed gives a lexical error and no diagnostic."
  },
  {
   "property": "C69",
   "status": "proved",
   "theorems": [
    "C69_statements",
    "C69_undefined",
    "C69_redefinitions",
    "C69_diagnostics",
    "C69_any_order",
    "C69_outline",
    "C69_local_below",
    "C69_local_above"
   ],
   "note": "Error-free parts, each but the last of complete lines; diagnostics and answers for plain documents (ASCII without VT and FF)."
  },
  {
   "property": "C70",
   "status": "proved",
   "theorems": [
    "C70_coherent",
    "C70_nothing"
   ],
   "note": "Plain documents (ASCII without VT and FF), as for C17. External (printed IR) locations are part of the definitions and the same at every occurrence."
  },
  {
   "property": "C71",
   "status": "proved",
   "theorems": [
    "C71_displacement",
    "C71_shown",
    "C71_definition",
    "C71_declaration",
    "C71_references",
    "C71_diagnostics",
    "C71_rename",
    "C71_rename_refuted",
    "C71_outline",
    "C71_folds",
    "C71_lenses",
    "C71_hints",
    "C71_backtrace_refuted",
    "C71_highlighting"
   ],
   "note": "Documents that can be opened (see C21). C71_rename_refuted is a consequence: renames behind such a character damage the document. C71_backtrace_refuted: so are the backtraces of annotations behind one."
  },
  {
   "property": "C72",
   "status": "partial",
   "theorems": [
    "C72_quiet",
    "C72_silent",
    "C72_silent_refuted"
   ],
   "note": "C72_quiet and C72_silent for all documents of the basic multilingual plane. C72_silent_refuted: a document that breaks off in a statement has no diagnostics. C72_silent names the only two exceptions; that the rest of a broken-off statement can be supplied without errors is not claimed."
  },
  {
   "property": "C73",
   "status": "partial",
   "theorems": [
    "C73_rename",
    "C73_used_refuted",
    "C73_keyword_refuted",
    "C73_shift",
    "C73_layout",
    "C73_lines",
    "C73_sum",
    "C73_twice_refuted",
    "C73_order"
   ],
   "note": "C73_rename, C73_shift, C73_layout, C73_lines, C73_sum and C73_order hold. C73_used_refuted and C73_keyword_refuted: the server also renames to names in use and to keywords, after which the document is no program. C73_twice_refuted shows that the condition of C73_sum is needed. C73_sum is about programs with statements."
  },
  {
   "property": "C74",
   "status": "proved",
   "theorems": [
    "C74_folds",
    "C74_tokens",
    "C74_graph",
    "C74_lenses",
    "C74_hints"
   ],
   "note": "Error-free parts, the first of complete lines; plain documents (ASCII without VT and FF) except for the graph. Lenses and hints under the stated conditions, C74_shared_ex shows that they are needed."
  },
  {
   "property": "C75",
   "status": "proved",
   "theorems": [
    "C75_diagnostics"
   ],
   "note": "Error-free parts of complete lines, plain documents (ASCII without VT and FF). The location of the previous definition in a redefinition diagnostic is left out, it may be in the edited part. C75_offer_ex shows that the condition on the symbols is needed."
  },
  {
   "property": "C76",
   "status": "proved",
   "theorems": [
    "C76_syntax",
    "C76_diagnostics",
    "C76_navigation",
    "C76_views"
   ],
   "note": "Plain documents (ASCII without VT and FF) with at least one statement besides the commented lines. Go to definition of a function whose source annotation resolves to the document itself is left out: that link has a fixed line. Outline up to the order of entries."
  },
  {
   "property": "C77",
   "status": "proved",
   "theorems": [
    "C77_session",
    "C77_schedule",
    "C77_edits",
    "C77_outline_order_refuted"
   ],
   "note": "For arbitrary documents (any characters, any errors). C77_outline_order_refuted shows that the order of the outline need not be the order of the text."
  },
  {
   "property": "C78",
   "status": "partial",
   "theorems": [
    "C78_room",
    "C78_action",
    "C78_global_refuted"
   ],
   "note": "Proved for locals, labels and debug references (plain documents, no leading zeros in the numbers; C78_room); the code action equals the rename by +1 for all documents (C78_action). Fails for global variables and functions, which share one name space in the language but not in the shift: C78_global_refuted."
  },
  {
   "property": "C79",
   "status": "proved",
   "theorems": [
    "C79_parts",
    "C79_inserted",
    "C79_declared"
   ],
   "note": "Plain documents (ASCII without VT and FF) without syntax errors. C79_inserted compares range and message (the place of the previous definition in a redefinition report is left out), C79_parts whole diagnostics."
  },
  {
   "property": "C80",
   "status": "proved",
   "theorems": [
    "C80_tokens",
    "C80_end",
    "C80_advice",
    "C80_all_refuted"
   ],
   "note": "C80_tokens, C80_end, C80_advice for all documents and first errors at a token (as in C66_viable; the complaint about a non-overflow branch asks for nothing). The converse is not claimed and is false, C80_all_refuted: the message does not name everything that would be right: `declare void @g(5)` is told to expect `)` only, though a parameter may stand there."
  },
  {
   "property": "C81",
   "status": "proved",
   "theorems": [
    "C81_order",
    "C81_steps",
    "C81_same"
   ],
   "note": "C81_order, C81_steps, C81_same on the whole rename request, with the edits applied to the text and the text analysed again. The conditions on the names are those under which C54/C60 show that the bindings are kept; C81_clash_ex shows that with a used name the order matters."
  },
  {
   "property": "C82",
   "status": "proved",
   "theorems": [
    "C82_errors",
    "C82_ascii",
    "C82_reports"
   ],
   "note": "C82_errors for every text, C82_ascii and C82_reports for ASCII lines in front. An error at the end of the text moves by bytes, not by characters, when the lines in front are not ASCII (the position of the end that the parser is given counts bytes); the theorem says so and C82_errors_ex shows it. C82_lost_ex shows why at least one statement must have been recognised. C69 (diagnostics, outline, local names), C74 and C75 are proved under the same condition on the last part."
  },
  {
   "property": "C83",
   "status": "proved",
   "theorems": [
    "C83_exact",
    "C83_unique",
    "C83_total",
    "C83_document",
    "C83_clean",
    "C83_errors"
   ],
   "note": "C83_exact is an equivalence for all token sequences; C83_unique and C83_total say that the grammar (SpecSalvage.v, without the combinators) gives exactly one result; C83_document for texts; C83_clean connects it with C63. The texts and positions of the errors are the subject of C66 and C82."
  },
  {
   "property": "C84",
   "status": "proved",
   "theorems": [
    "C84_every",
    "C84_salvage",
    "C84_document",
    "C84_each"
   ],
   "note": "C84_every: the errors are exactly those of the grammar `faulty` (SpecStuck.v), which is the grammar of C83 with the errors instead of their number (C84_salvage); C84_document for texts; C84_each for each error separately. The tidiness condition is part of the definition `hopeless_at` and is needed (C66_continued_refuted)."
  },
  {
   "property": "C85",
   "status": "partial",
   "theorems": [
    "C85_references",
    "C85_declarations_refuted",
    "C85_together",
    "C85_hints_refuted",
    "C85_crash_refuted"
   ],
   "note": "C85_references: the answer is exact for requests without declarations and the same for requests with; C85_together: complete with the other two requests. C85_declarations_refuted, C85_hints_refuted, C85_crash_refuted: the options are ignored."
  },
  {
   "property": "C86",
   "status": "proved",
   "theorems": [
    "C86_diagnostics",
    "C86_views",
    "C86_answers"
   ],
   "note": "C86_diagnostics, C86_views and C86_answers. Hypotheses of C86 as in C80: the new name is acceptable and unused, the symbol is not both a function and a variable, label names are not words of the grammar. The document after the edits must be plain (ASCII, below 4 GiB) as well."
  },
  {
   "property": "C87",
   "status": "proved",
   "theorems": [
    "C87_diagnostics",
    "C87_views",
    "C87_answers"
   ],
   "note": "C87_diagnostics, C87_views and C87_answers. Names of the scope have no leading zeros; shifted labels are not words of the grammar. Shifts of global names and downward shifts may capture other names (C78 and C30 with their witnesses) and are not part of the claim."
  },
  {
   "property": "C88",
   "status": "proved",
   "theorems": [
    "C88_lenses",
    "C88_graphs",
    "C88_hints",
    "C88_shift"
   ],
   "note": "C88_lenses, C88_graphs, C88_hints and C88_shift. Hints are compared for documents in which no changed name is part of the value of a debug annotation (that value is the text handed to the JSON parser). Parts of hints are compared through the range they link to."
  },
  {
   "property": "C89",
   "status": "partial",
   "theorems": [
    "C89_open",
    "C89_never",
    "C89_closed_refuted",
    "C89_closed",
    "C89_folders",
    "C89_folders_refuted"
   ],
   "note": "C89_open and C89_never hold for all sessions. C89_closed_refuted and C89_folders_refuted show the violations; C89_closed and C89_folders say what happens instead, for all sessions. Each message is handled before the next one is read (other schedules: C43, C45); a panic ends the session."
  },
  {
   "property": "C90",
   "status": "proved",
   "theorems": [
    "C90_diagnostics",
    "C90_shown",
    "C90_graphs",
    "C90_lines_diagnostics",
    "C90_lines_shown",
    "C90_lines_graphs",
    "C90_requests"
   ],
   "note": "C90_diagnostics, C90_shown and C90_graphs for other blanks, line ends and comments; C90_lines_diagnostics, C90_lines_shown and C90_lines_graphs for idle lines; C90_requests: definitions, declarations, references and renames at corresponding tokens correspond (other blanks, line ends and comments). Diagnostics and lenses correspond up to the order in which hash maps are visited. The hypothesis values_alike about the JSON reader is per document, because layout may join tokens of a value that JSON reads differently apart. A relation between places is used rather than a shift of numbers: a comment may contain a carriage return, which LSP counts as a line end."
  },
  {
   "property": "C91",
   "status": "proved",
   "theorems": [
    "C91_diagnostics",
    "C91_folds",
    "C91_outline",
    "C91_lenses",
    "C91_tokens",
    "C91_graphs",
    "C91_hints"
   ],
   "note": "One theorem per kind of thing shown. Everything but highlighting is equal up to order (hash maps; handlers list functions before blocks). Extends C69 (messages only) and C74 (two parts) to any number of parts with their places; the hints no longer need every annotation to be in the part that uses it. C91_clash_ex shows two parts that define the same names and for which no such lists exist."
  },
  {
   "property": "C92",
   "status": "proved",
   "theorems": [
    "C92_written",
    "C92_labels",
    "C92_nothing"
   ],
   "note": "The places are described over the tokens of the text (labels: over the statements, as the word of a label is an ordinary identifier), not over the index. Definitions in other files come behind the own ones (`ext`); goto_definition may panic because of them (C49). The rename is for new names without a leading sign as in C70."
  },
  {
   "property": "C93",
   "status": "proved",
   "theorems": [
    "C93_diagnostics",
    "C93_shown",
    "C93_graphs",
    "C93_requests",
    "C93_int1_refuted"
   ],
   "note": "Hints need the JSON reader to find the same in the annotations (`values_alike`), as backtraces are shown from them. Definitions in other files are told by the values of annotations and are left open (`defined_at`). C93_int1_refuted shows that the exception for int1 is needed."
  },
  {
   "property": "C94",
   "status": "proved",
   "theorems": [
    "C94_diagnostics",
    "C94_shown",
    "C94_hints",
    "C94_graphs",
    "C94_requests",
    "C94_merged_refuted"
   ],
   "note": "Words the grammar looks at (`special_words`, and words ending in `br`) keep their place: labels are exchanged between other words (`plain_word`). Hints need the JSON reader to find the same in corresponding annotations (`values_renamed`). Definitions in other files are left open (`defined_at`). C94_merged_refuted shows that merging two names does change the diagnostics."
  },
  {
   "property": "C95",
   "status": "proved",
   "theorems": [
    "C95_diagnostics",
    "C95_unused",
    "C95_folds",
    "C95_outline",
    "C95_lenses",
    "C95_tokens",
    "C95_graphs",
    "C95_functions",
    "C95_hints"
   ],
   "note": "As in C91, diagnostics, lenses, hints and refused graphs are about parts that do not define the same function, variable or annotation (`all_apart`). Hints: if they could be computed before, they can be afterwards."
  },
  {
   "property": "C96",
   "status": "proved",
   "theorems": [
    "C96_diagnostics",
    "C96_graphs"
   ],
   "note": "Parts may define the same names (no `all_apart`). Folds, outline, highlighting and hints of the copy are those of C74."
  },
  {
   "property": "C97",
   "status": "proved",
   "theorems": [
    "C97_names",
    "C97_labels",
    "C97_above",
    "C97_below"
   ],
   "note": "The description of places is that of C92. Definitions in other files come behind the own ones (`ext`); goto_definition may panic because of them (C49). The rename is for new names without a leading sign as in C70."
  },
  {
   "property": "C98",
   "status": "proved",
   "theorems": [
    "C98_action_words",
    "C98_action_labels",
    "C98_words",
    "C98_labels"
   ],
   "note": "The words are described over the tokens of the text (labels: over the statements), not over the index, unlike in C30. What happens outside of 64 bits is C32."
  },
  {
   "property": "C99",
   "status": "proved",
   "theorems": [
    "C99_words",
    "C99_same_words",
    "C99_labels",
    "C99_same_labels"
   ],
   "note": "Words of which only one is in the scope of the other (the definition of a variable that is called like a function) are excluded; C99_apart shows why. Edits are compared as multisets."
  }
 ]
}