{"id": "C01", "title": "Offset/position round trip", "statement": "Converting a document offset to an LSP position and back gives the same offset, for every offset of an ASCII document below 4 GiB, including the end of the document and offsets inside a CR LF pair. For an arbitrary Unicode document the round trip of a byte offset gives the index of the character that contains the byte.", "quantifier": "all documents, all offsets up to and including the length", "why_tests_cant": "every combination of line breaks and offsets matters (CR, LF, CRLF, VT, FF, none at the end); a test fixes a handful", "anchors": ["src/lsp_utils.rs: lsp_pos_to_offset, offset_to_lsp_pos"]}
{"id": "C02", "title": "Positions follow the LSP definition", "statement": "The position reported for an offset is the one the LSP specification defines: line = number of line ends (LF, CR LF, lone CR) before it, character = number of UTF-16 code units since the last line end. True for ASCII documents without VT and FF; the code violates it for other documents.", "quantifier": "all documents, all offsets", "why_tests_cant": "the specification is a function of the whole text before the offset; only a proof covers all texts", "anchors": ["src/lsp_utils.rs: offset_to_lsp_pos"]}
{"id": "C03", "title": "Ranges are well formed", "statement": "For every document, also non-ASCII, and every span with start <= end, the reported range has start <= end in document order, its positions lie on existing lines, the conversion is monotone, and it fails exactly when the end is past the end of the document (below 4 GiB).", "quantifier": "all documents, all spans", "why_tests_cant": "monotonicity relates all pairs of offsets", "anchors": ["src/lsp_utils.rs: offset_to_lsp_pos, range_to_lsp"]}
{"id": "C04", "title": "Cursor positions hit the right offset", "statement": "A cursor position whose column does not exceed the length of its line is mapped to the offset that reports exactly that position; a line number past the end is rejected. The LSP rule that a larger column means the end of the line is not implemented (violated).", "quantifier": "all documents, all cursor positions", "why_tests_cant": "needs all line shapes and columns", "anchors": ["src/lsp_utils.rs: lsp_pos_to_offset"]}
{"id": "C05", "title": "Lexing never crashes and always terminates", "statement": "For every input text the lexer returns a result: it never panics (no empty-progress loop) and never runs forever.", "quantifier": "all texts, all Unicode classification tables", "why_tests_cant": "a panic needs one specific text; only a proof excludes all of them", "anchors": ["src/hir_tokenizer.rs: tokenizer", "src/hir_parser.rs: parse_from_str"]}
{"id": "C06", "title": "Token spans are ordered, disjoint, non-empty and inside the document", "statement": "Whatever the input, also with lexical errors, the tokens come with spans in strictly increasing, non-overlapping order, each non-empty and within the document.", "quantifier": "all texts", "why_tests_cant": "recovery makes spans depend on arbitrary garbage runs", "anchors": ["src/hir_tokenizer.rs: tokenizer"]}
{"id": "C07", "title": "Error-free lexing loses nothing", "statement": "If lexing reports no error then the document is exactly the concatenation of the token texts with only blanks and tabs between them, and the text of every name, number and string token is the text at its span. Nothing in the document is silently ignored.", "quantifier": "all texts that lex without error", "why_tests_cant": "must hold for all token adjacencies", "anchors": ["src/hir_tokenizer.rs: tokenizer"]}
{"id": "C08", "title": "The lexer implements the lexical grammar", "statement": "Lexing without errors gives exactly the token sequence of an independently written longest-match lexical definition (keywords, type names, modifiers, names with inner colons, numbers, strings, comments, punctuation, newlines); that definition is deterministic, and conversely every text the definition accepts is lexed without errors to those tokens, except that a non-empty document of blanks only is rejected (violated).", "quantifier": "all texts", "why_tests_cant": "equivalence of two definitions on all texts", "anchors": ["src/hir_tokenizer.rs: tokenizer"]}
{"id": "C09", "title": "Lexical error recovery keeps the rest of the document", "statement": "A run of unlexable characters followed by lexable text produces exactly one error and the tokens after it are the same (up to the start of the first span) as without the garbage. If the garbage is at the very end of the document all tokens are lost (violated: the document becomes empty to the server).", "quantifier": "all prefixes, garbage runs and suffixes", "why_tests_cant": "the interaction of recovery with context is unbounded", "anchors": ["src/hir_tokenizer.rs: tokenizer (recover_with)"]}
{"id": "C10", "title": "Printing and re-lexing tokens is the identity", "statement": "For every sequence of well-formed tokens, writing their texts separated by single blanks (comments end their line) lexes without error to the same sequence.", "quantifier": "all token sequences", "why_tests_cant": "round trip over all sequences", "anchors": ["src/hir_tokenizer.rs: tokenizer"]}
{"id": "C11", "title": "Parsing never crashes and always terminates", "statement": "For every token sequence, valid or not, the parser returns a result without panicking.", "quantifier": "all token sequences", "why_tests_cant": "needs all token sequences, incl. every way of entering recovery", "anchors": ["src/hir_parser.rs: parser, parse_from_str"]}
{"id": "C12", "title": "Every name in the syntax tree is a token of the document", "statement": "All names, labels, targets, references and debug references in the parsed statements are tokens of the document of the right class, with the same text and the same span.", "quantifier": "all documents, also with syntax errors", "why_tests_cant": "covers every grammar path", "anchors": ["src/hir_parser.rs: parser"]}
{"id": "C13", "title": "The syntax tree is ordered and nested", "statement": "Parsed statements cover disjoint token segments in document order; the blocks and instructions of a function lie inside its braces in order; function ranges are disjoint.", "quantifier": "all documents, also with syntax errors", "why_tests_cant": "covers every grammar path and recovery", "anchors": ["src/hir_parser.rs: parser"]}
{"id": "C14", "title": "Printing and re-parsing statements is the identity", "statement": "For every well-formed module (list of statements), the token sequence of its canonical form parses without errors to exactly that module.", "quantifier": "all modules of any size", "why_tests_cant": "round trip over all syntax trees", "anchors": ["src/hir_parser.rs: parser"]}
{"id": "C15", "title": "Syntax errors stay local", "statement": "Complete statements before an error are parsed as if the rest were not there: putting a complete statement in front of any token sequence that parses adds exactly that statement and no error. Garbage followed by a valid statement costs one error and no later statement. Garbage at the end of the document loses all statements (violated).", "quantifier": "all statements, all following token sequences", "why_tests_cant": "unbounded contexts", "anchors": ["src/hir_parser.rs: parser (recover_with)"]}
{"id": "C16", "title": "Every symbol occurrence is indexed", "statement": "After opening any document, each global name, debug reference, and each local name inside a function is recorded exactly once as declaration, definition or use of its name (global names that are both variable and function excepted, see C20).", "quantifier": "all documents (ASCII), also with errors", "why_tests_cant": "all documents", "anchors": ["src/hir_index.rs: create_index"]}
{"id": "C17", "title": "Only real occurrences are indexed", "statement": "Every span recorded for a symbol is the span of a token of the document whose text is the symbol's name; so go-to-definition, references and rename never touch text that is not that name.", "quantifier": "all documents", "why_tests_cant": "all documents", "anchors": ["src/hir_index.rs: create_index"]}
{"id": "C18", "title": "Cursor lookup finds the token under the cursor", "statement": "Looking up a symbol at an offset returns an occurrence exactly when the offset lies in the span of an indexed token, and then the occurrence of that token.", "quantifier": "all documents, all offsets", "why_tests_cant": "all offsets of all documents", "anchors": ["src/hir_index.rs: find_symbol_at_position"]}
{"id": "C19", "title": "Local names belong to the enclosing function", "statement": "A local name or label inside a function is recorded in that function's scope and in no other; equal names in different functions never share an entry.", "quantifier": "all documents with any number of functions", "why_tests_cant": "any nesting/ordering of functions", "anchors": ["src/hir_index.rs: create_index, add_func_local"]}
{"id": "C20", "title": "Declaration, definition and use lists are exact", "statement": "The definitions of a symbol are exactly the tokens in defining position (left of '=' at top level, function headers, parameters, instruction targets, block labels), declarations exactly the names in declare headers, uses all other occurrences; no token is in two lists.", "quantifier": "all documents", "why_tests_cant": "all documents", "anchors": ["src/hir_index.rs: create_index, add_internal"]}
{"id": "C21", "title": "Opening a document does not crash the server", "statement": "For every ASCII document the whole analysis (lex, parse, index, semantic tokens, diagnostics) finishes without panic. For non-ASCII documents this is violated.", "quantifier": "all ASCII documents", "why_tests_cant": "a crash needs one specific document", "anchors": ["src/main.rs: on_change", "src/hir_index.rs: create_index"]}
{"id": "C22", "title": "Semantic tokens decode to the right places", "statement": "Decoding the relative semantic-token encoding gives exactly the start line/column, length and type of each highlighted token in order, without arithmetic underflow.", "quantifier": "all ASCII documents below 4 GiB", "why_tests_cant": "all sequences of tokens over lines", "anchors": ["src/semantic_token.rs: convert_to_lsp_tokens"]}
{"id": "C23", "title": "Semantic token types are in the announced legend", "statement": "Every emitted token type index is valid in the legend announced at initialisation and denotes the type intended for that token class; exactly the tokens with a class are emitted.", "quantifier": "all token sequences", "why_tests_cant": "all tokens", "anchors": ["src/semantic_token.rs: semantic_tokens_from_tokens, LEGEND_TYPE"]}
{"id": "C24", "title": "Undefined symbols are reported exactly", "statement": "A use of a name is reported as undefined exactly when the document (or function, for local names and labels) contains no declaration or definition of it; each such use is reported once.", "quantifier": "all documents, all hash-map orders", "why_tests_cant": "iff over all documents and iteration orders", "anchors": ["src/diagnostics.rs: diagnostics_from_index"]}
{"id": "C25", "title": "Duplicate definitions are reported exactly", "statement": "Every definition after the first of a name is reported exactly once with a link to the first definition, and nothing else is.", "quantifier": "all documents, all hash-map orders", "why_tests_cant": "iff over all documents", "anchors": ["src/diagnostics.rs: diagnostics_from_index"]}
{"id": "C26", "title": "Branches without targets are reported exactly", "statement": "Each branch, switch or phi instruction whose targets could not be read is reported once at its mnemonic, and no other instruction is.", "quantifier": "all documents", "why_tests_cant": "all documents", "anchors": ["src/diagnostics.rs: diagnostics_from_statements", "src/hir_parser.rs: is_branching"]}
{"id": "C27", "title": "Syntax errors are reported", "statement": "Each lexical or syntax error is published as a diagnostic at its span. Errors at the very end of the input are silently dropped (violated).", "quantifier": "all documents", "why_tests_cant": "all documents", "anchors": ["src/diagnostics.rs: diagnostics_from_parser"]}
{"id": "C28", "title": "Rename edits exactly all occurrences", "statement": "A plain rename produces exactly one edit per occurrence of the symbol, at the occurrence's range and nowhere else; edits never overlap.", "quantifier": "all documents, all symbols", "why_tests_cant": "all documents", "anchors": ["src/rename.rs: get_rename_edits", "src/main.rs: rename"]}
{"id": "C29", "title": "Renaming changes the names and nothing else", "statement": "Applying the edits of a rename (to a name or by a relative number) to the document and lexing the result gives the old token sequence with exactly the renamed tokens changed to the new name. For labels the new name must not be a reserved word and the document must lex without errors; the server accepts reserved words all the same.", "quantifier": "all ASCII documents, all accepted new names that do not end in a colon (labels: nor start with one, nor are reserved)", "why_tests_cant": "unbounded documents and name lengths, shifting offsets", "anchors": ["src/rename.rs: get_rename_edits", "src/hir_tokenizer.rs: tokenizer"]}
{"id": "C30", "title": "Relative renames shift consistently", "statement": "A relative rename gives every symbol of the same scope and kind numbered at or above the cursor's number its number plus the shift, leaves the others alone, and keeps different names different as long as no result is negative, no overflow occurs and numbers have no leading zeros.", "quantifier": "all scopes, shifts and numbers", "why_tests_cant": "64-bit arithmetic and all name sets", "anchors": ["src/rename.rs: get_shift_edits"]}
{"id": "C31", "title": "Number extraction splits a name exactly", "statement": "A name is split into the longest numeric suffix and the rest; for ASCII names prefix and decimal suffix concatenate to the name, the number is the value of the suffix, and it fails exactly if the suffix is empty or exceeds 64 bits.", "quantifier": "all names", "why_tests_cant": "all strings", "anchors": ["src/rename.rs: extract_number_from_identifier"]}
{"id": "C32", "title": "Rename never crashes the server", "statement": "No rename request on an opened ASCII document panics. Violated: empty new name, i64 overflow.", "quantifier": "all documents, cursors, new names", "why_tests_cant": "needs the one crashing request", "anchors": ["src/main.rs: rename", "src/rename.rs"]}
{"id": "C33", "title": "The CFG has exactly the branch edges", "statement": "The generated graph contains the edge a -> b exactly when a labelled block a contains a branch instruction that names b.", "quantifier": "all functions", "why_tests_cant": "all functions", "anchors": ["src/control_flow_graph.rs: create_cfg_dot_visualization"]}
{"id": "C34", "title": "Incoming-branch hints agree with the CFG", "statement": "The hint at a block lists exactly the labels of the blocks with a CFG edge to it, each label occurrence once.", "quantifier": "all documents", "why_tests_cant": "relates two independently computed results on all documents", "anchors": ["src/main.rs: inlay_hint", "src/hir_index.rs: create_index (incoming_bb_branches)", "src/control_flow_graph.rs"]}
{"id": "C35", "title": "Code lens commands succeed", "statement": "Every command offered by a code lens on an open document executes without error while the document is unchanged, and shows the graph of the function the lens is attached to.", "quantifier": "all documents", "why_tests_cant": "all documents", "anchors": ["src/main.rs: code_lens, execute_command"]}
{"id": "C36", "title": "Folding ranges are well nested", "statement": "For every document the folding ranges have start line <= end line; function ranges do not overlap and every block range lies inside its function's range.", "quantifier": "all documents", "why_tests_cant": "all documents", "anchors": ["src/main.rs: folding_range"]}
{"id": "C37", "title": "Short file names", "statement": "Shortening a path returns the part after the last '/' or '\\', which contains no separator and is a suffix of the path, without panic for any Unicode path.", "quantifier": "all strings", "why_tests_cant": "all strings", "anchors": ["src/backtrace.rs: shorten_filepath"]}
{"id": "C38", "title": "Markdown sanitising", "statement": "Symbol names embedded in Markdown never contain a back-tick or any other character outside letters, digits, whitespace and the fixed safe set; allowed characters are unchanged, the length is preserved, and sanitising twice equals once.", "quantifier": "all strings", "why_tests_cant": "all strings", "anchors": ["src/backtrace.rs: sanitize_markdown_code"]}
{"id": "C39", "title": "The relevant frame is the best and first one", "statement": "The frame shown is the first one matching the most preferred symbol pattern that matches any frame, else the first one outside the internal directories; none only if no frame qualifies.", "quantifier": "all backtraces", "why_tests_cant": "all lists of frames", "anchors": ["src/backtrace.rs: identify_relevant_frames"]}
{"id": "C40", "title": "Backtraces are parsed frame by frame", "statement": "Parsing a backtrace yields one frame per array entry in order; file and line are set exactly if the link has the form path:line with one colon and a 32-bit line; malformed entries yield a placeholder instead of failing; a missing or non-array backtrace yields nothing.", "quantifier": "all JSON values", "why_tests_cant": "all JSON values", "anchors": ["src/backtrace.rs: parse_backtrace_from_json"]}
{"id": "C41", "title": "Names in hints are shortened correctly", "statement": "A hint label shows the full symbol if it is shorter than 48 bytes, else its first 48 bytes and an ellipsis. Violated for a 48th byte inside a character (panic) and for names of exactly 48 bytes (ellipsis although nothing is cut).", "quantifier": "all strings", "why_tests_cant": "all strings", "anchors": ["src/backtrace.rs: shorten_name"]}
{"id": "C42", "title": "The last text wins and documents are independent", "statement": "After any sequence of open/change notifications the answers for a document depend only on the last text received for it, and not on other documents.", "quantifier": "all histories of notifications", "why_tests_cant": "all histories", "anchors": ["src/main.rs: on_change, did_open, did_change"]}
{"id": "C43", "title": "Diagnostics belong to their version under every schedule", "statement": "Under every interleaving of handlers, every published diagnostics message for (document, version) is the analysis of exactly that version's text, each change publishes exactly once. Not guaranteed (violated): the last message is for the last version.", "quantifier": "all interleavings of change handlers", "why_tests_cant": "all schedules", "anchors": ["src/main.rs: on_change"]}
{"id": "C44", "title": "Lazy and eager code actions agree", "statement": "Resolving a code action lazily gives the same edits as eager resolution if the document did not change in between.", "quantifier": "all documents and positions", "why_tests_cant": "all documents", "anchors": ["src/main.rs: code_action, code_action_resolve, do_code_action_resolve"]}
{"id": "C45", "title": "Resolving code actions never crashes", "statement": "Resolving any code action data against any opened document returns a result or an error. Violated: stale or forged function indices panic.", "quantifier": "all histories between offering and resolving", "why_tests_cant": "needs a history", "anchors": ["src/main.rs: do_code_action_resolve", "src/rename.rs: get_shift_edits"]}
{"id": "C46", "title": "A change notification with several changes applies them all", "statement": "After a change notification with full-text changes c1..cn the document is cn. Violated: c1 is used; an empty list panics.", "quantifier": "all change lists", "why_tests_cant": "all lists", "anchors": ["src/main.rs: did_change"]}
{"id": "C47", "title": "Requests for unknown documents are harmless", "statement": "Before a document is opened every query about it answers with 'nothing' or an error and never panics.", "quantifier": "all server states and requests", "why_tests_cant": "all states", "anchors": ["src/main.rs"]}
{"id": "C48", "title": "The server never blocks", "statement": "Under every schedule of change notifications and graph commands the server can always make progress. Violated: a change arriving while a showDot request is unanswered blocks the server forever; without an outstanding showDot request no schedule blocks.", "quantifier": "all schedules", "why_tests_cant": "all schedules", "anchors": ["src/main.rs: execute_command, on_change"]}
{"id": "C49", "title": "Go-to-definition and references return the recorded occurrences", "statement": "Go-to-definition, go-to-declaration and references at a position inside an occurrence return exactly the ranges of the definitions, declarations and uses of that symbol (plus resolvable external definitions for go-to-definition); outside occurrences they return nothing.", "quantifier": "all ASCII documents, positions", "why_tests_cant": "all documents and cursors", "anchors": ["src/main.rs: get_use_def_ranges"]}
{"id": "C50", "title": "Document symbols list all definitions", "statement": "The outline contains exactly one entry per global variable definition and per function definition with the right ranges, the name range inside the full range.", "quantifier": "all ASCII documents", "why_tests_cant": "all documents", "anchors": ["src/main.rs: document_symbol"]}
{"id": "C51", "title": "Function ends are labelled", "statement": "The hints of an open document contain, for every function definition in order, one hint directly behind its closing brace that shows the function's name and links to the name in its definition.", "quantifier": "all ASCII documents", "why_tests_cant": "all documents with any number of functions", "anchors": ["src/main.rs: inlay_hint"]}
{"id": "C52", "title": "Backtrace hints show the relevant frame", "statement": "Every instruction whose debug annotation is a backtrace gets one hint behind the reference, with the relevant frame (shortened to 48 bytes) and the full backtrace; other instructions get none. The request never panics. Violated: a relevant frame name with a multi-byte character across byte 48 panics; nothing else does if the workspace roots can be bases.", "quantifier": "all ASCII documents, all JSON annotations", "why_tests_cant": "all documents and annotations; needs the one crashing name", "anchors": ["src/main.rs: inlay_hint", "src/backtrace.rs"]}
{"id": "C53", "title": "Collapsed text counts blocks and instructions", "statement": "A folded block shows the number of its instructions, a folded function the number of its blocks. Violated for functions: the number shown is that of the distinct labels defined or mentioned, so unlabelled blocks are not counted and undefined labels are.", "quantifier": "all documents below 4 GiB", "why_tests_cant": "all documents; a test with well-labelled functions never shows the difference", "anchors": ["src/main.rs: folding_range"]}
{"id": "C54", "title": "Backtrace tooltips have one entry per frame", "statement": "The tooltip with the full backtrace is a Markdown list with exactly one line per frame in order, its symbol as sanitised code and its place, linked if and only if the file was found. Violated if a symbol has a line break (it is kept), and a path that was not found can be a link of its own, as paths are not sanitised.", "quantifier": "all frames, all URLs", "why_tests_cant": "all symbols and paths, including hostile ones", "anchors": ["src/backtrace.rs: backtrace_json_to_md", "src/backtrace.rs: format_frame_as_md", "src/backtrace.rs: inlay_hint_for_backtrace"]}
{"id": "C55", "title": "Renaming keeps the syntax tree", "statement": "The parser never looks at names: two token lists that differ only in names of the same kind are parsed to trees of the same shape over corresponding tokens, with the same errors. Hence the document a client has after applying the edits of an accepted rename (or of a shift of numbers) parses to the statements it had before, node by node, and reports the same syntax errors.", "quantifier": "all token lists; all plain documents, positions and accepted names (not ending in a colon; labels: unreserved names in lexically correct documents)", "why_tests_cant": "all documents and names, and a relation between two runs of the lexer and parser", "anchors": ["src/hir_parser.rs: parser", "src/hir_parser.rs: parse_from_str", "src/main.rs: rename"]}
{"id": "C56", "title": "Renaming to an unused name keeps the bindings", "statement": "After renaming a symbol to a name that is not visible where it is, or moving the numbers of locals, labels or debug references up, the occurrences of the new document correspond one by one to those of the old one: same role, kind and function; two belong to the same symbol afterwards if and only if they did before; exactly the corresponding uses are undefined and definitions are duplicates. (The server does not check that the name is unused.)", "quantifier": "all plain documents, positions and accepted unused names; names that are both variable and function excluded", "why_tests_cant": "capture freedom quantifies over all documents and names and relates two analyses", "anchors": ["src/rename.rs", "src/hir_index.rs: create_index", "src/diagnostics.rs: diagnostics_from_index"]}
{"id": "C57", "title": "Only known causes bring the server down", "statement": "After any sequence of open and change notifications with plain (ASCII, LSP line ends) texts, every notification has been answered by one diagnostics message, and a request makes the server panic only for one of these causes: rename with an empty name or (debug build) 64 bit overflow, goto-definition to an external definition in line 0 (debug build), resolving a code action whose scope no longer exists, a code action on i64::MAX (debug build), a backtrace name that cannot be cut at a character boundary. No schedule of changes, messages and graph requests with ASCII texts crashes the server.", "quantifier": "all histories and schedules, all requests and positions", "why_tests_cant": "unbounded histories and requests; absence of further panics", "anchors": ["src/main.rs: Backend", "src/rename.rs", "src/backtrace.rs"]}
{"id": "C58", "title": "Prepare-rename and rename agree", "statement": "prepareRename answers with a range exactly where a symbol is; the range is that of the symbol under the cursor; without a range every rename is refused; with a range some name is accepted, and every successful rename, absolute or relative, edits that range.", "quantifier": "all plain documents, all positions, all new names", "why_tests_cant": "agreement of two handlers on all documents, positions and names", "anchors": ["src/main.rs: prepare_rename", "src/main.rs: rename"]}
{"id": "C59", "title": "The server keeps what it announces", "statement": "Code actions come without edits only if the server announced to resolve them, which it does exactly for clients that support resolving the edit and keep data. Commands of code lenses are among the announced commands and others are refused. Files are searched below the workspace folders, or the root if none are given, in all later requests.", "quantifier": "all client capabilities, histories and requests", "why_tests_cant": "all capability combinations and later histories", "anchors": ["src/main.rs: initialize", "src/main.rs: code_action", "src/main.rs: code_lens", "src/main.rs: execute_command"]}
{"id": "C60", "title": "A rename can be undone by a rename", "statement": "After a rename to an unused name has been applied, renaming any occurrence of the new name to the old one answers edits that, applied, give back the old document character for character. After numbers have been moved up by n, asking for -n at any name with the moved number gives back the old document. (Numbered locals are not accepted back, moving down cannot be undone when numbers meet, and text that is no token is lost.)", "quantifier": "all documents without lexical errors, positions, new names, servers in which the new document is open", "why_tests_cant": "the edits of the second request depend on parsing the document made by the first; all documents and names", "anchors": ["src/main.rs: rename", "src/rename.rs"]}
{"id": "C61", "title": "Layout and comments have no meaning", "statement": "A document without lexical errors that is laid out in another way (blanks inserted, changed, or removed where tokens stay apart or at line starts, other comment texts, LF instead of CRLF) has the same tokens, the same syntax tree over corresponding tokens, the same syntax errors, and the same bindings, undefined names and redefinitions. Definition, declaration and reference requests at corresponding names answer corresponding places.", "quantifier": "all documents without lexical errors that contain a token, all layouts of them", "why_tests_cant": "all documents with all of their layouts; depends on the longest-match rule of the lexer at every place", "anchors": ["src/hir_tokenizer.rs", "src/hir_parser.rs", "src/main.rs: goto_definition, goto_declaration, references"]}
{"id": "C62", "title": "Blank lines and comment lines have no meaning", "statement": "Inserting or deleting lines that hold nothing but blanks and a comment, between the lines of a document that parses without errors and has a statement, gives a document without errors, with corresponding statements over the same tokens, and with the same bindings, undefined names and redefinitions. Definition, declaration and reference requests at corresponding names answer corresponding places.", "quantifier": "all documents without syntax errors, all line boundaries not behind a comma or type, any number of inserted or deleted lines", "why_tests_cant": "all documents and all places in them; depends on how every rule of the grammar treats line ends", "anchors": ["src/hir_parser.rs", "src/hir_tokenizer.rs", "src/main.rs: goto_definition, goto_declaration, references"]}
{"id": "C63", "title": "The parser accepts exactly the grammar", "statement": "A token list is parsed without errors to the statements ss if and only if it is a module ss of the grammar in which every instruction is read in the first form that fits (br with a target, conditional br, overflow branch, switch, phi, anything else). Such a reading is unique, and every other token list is reported with an error.", "quantifier": "all token lists and documents, including branches whose targets cannot be read", "why_tests_cant": "both directions quantify over all token lists; the choice between forms looks beyond the line", "anchors": ["src/hir_parser.rs"]}
{"id": "C64", "title": "What the code actions offer", "statement": "For a selection no action is offered. For a cursor exactly one action is offered if the name at the cursor ends in a number, with a title that names the kind of the symbol, and none otherwise; in particular none where no rename is possible. Every cursor is answered unless a number of the document cannot be moved up.", "quantifier": "all documents, all ranges and positions, clients with and without lazy resolution", "why_tests_cant": "all documents and all cursor positions", "anchors": ["src/main.rs: code_action", "src/rename.rs: extract_number_from_identifier"]}
{"id": "C65", "title": "A refusal says why", "statement": "A rename is refused with a message exactly for the cause that the message names: no symbol under the cursor, a character that names cannot have, a leading digit, a sign without a number, or a name without a number. Requests for documents that were never sent are refused as such. A command is refused exactly if it is unknown or has the wrong arguments, its document was never sent, or the document does not define the function; the message names which.", "quantifier": "all plain documents, cursors and new names; all histories, commands and arguments", "why_tests_cant": "both directions range over all names, documents and histories", "anchors": ["src/main.rs: rename, code_action, execute_command, do_code_action_resolve"]}
{"id": "C66", "title": "A syntax error marks the token that is wrong", "statement": "Every syntax error is reported at a token of the document or at its end. Its message is true there: it says end of input only at the end, it never lists the token that is there as expected, and a message that asks for a kind of token stands at a token of another kind (violated: identifiers are asked for with \"expected global name\"). Whatever follows the token of the first syntax error, the document stays wrong: no document that begins with the same tokens up to and including the marked one is free of errors (violated at commas of dependency lists and behind lines that end with a comma or type; true everywhere else). What is in front of the first syntax error is not to blame: it consists of complete statements and the beginning of another statement.", "quantifier": "all documents, all continuations behind the marked token", "why_tests_cant": "the claim ranges over all continuations of all documents", "anchors": ["src/hir_parser.rs: parser, parse_from_str", "src/diagnostics.rs: diagnostics_from_parser"]}
{"id": "C67", "title": "The shown graph is a readable graph of the function", "statement": "The text shown for a function is a DOT file. Read as one, it has an edge from a to b exactly if a block labelled a branches to b, and the nodes are exactly the ends of these edges. Every block of the function is drawn (violated: blocks without a label and their branches are left out, and blocks that are no end of another branch).", "quantifier": "all documents and functions", "why_tests_cant": "all functions, all label texts", "anchors": ["src/control_flow_graph.rs: create_cfg_dot_visualization, escape_dot_label", "src/main.rs: execute_command"]}
{"id": "C68", "title": "A lexical error marks the first character that cannot stand there", "statement": "There is one lexical error for each run of characters that is no token, and it marks the character the run starts with (what follows it for a carriage return, the end of the text for a string that is not closed). The first one is exactly where the text goes wrong: the text before the marked character can be continued to a text without lexical errors, and no text that agrees with the document up to and including the marked character lexes without errors. Each marked character is shown as a diagnostic (violated: a string that is not closed is reported at the end of the document, and errors there are never shown).", "quantifier": "all texts, all Unicode tables, all continuations", "why_tests_cant": "all continuations of all texts; the place is the furthest of the failures of all alternatives and of what earlier tokens looked at", "anchors": ["src/hir_tokenizer.rs: tokenizer", "src/hir_parser.rs: parse_from_str", "src/diagnostics.rs: diagnostics_from_parser"]}
{"id": "C69", "title": "A document is the sum of its parts", "statement": "If error-free documents made of complete lines are put one behind the other, the result is error-free, and it has the statements and the outline of all of them, further down. Uses without definition are those that no part introduces; definitions are second ones if the symbol was defined before in the same or an earlier part; diagnostics of parts with nothing in common are put together unchanged. Every order of the parts gives the same messages. What is answered for a local name or a label (definition, declaration, references) depends on its own part only. Diagnostics, outline and local names of two parts are put together in this way also if the second part has syntax errors.", "quantifier": "all error-free documents (with two parts: also second parts with errors that have statements), any number and order of parts, all positions of local names, all hash map orders", "why_tests_cant": "all pairs of documents; functions are numbered and offsets are absolute, so each part could be confused with another one", "anchors": ["src/hir_parser.rs: parse_from_str", "src/hir_index.rs: create_index", "src/diagnostics.rs", "src/main.rs: document_symbol, goto_definition, goto_declaration, references"]}
{"id": "C70", "title": "The requests about a symbol agree with each other", "statement": "If go to definition answers at a position, go to declaration, references and prepare rename answer there too, for the same origin range, which contains the position. The places in the document they list are all different, one of them is the origin, and asking at any position inside any of them gives the same definitions, declarations and references. A successful absolute rename replaces exactly these places. If one of the requests finds nothing, none does and rename is refused.", "quantifier": "all plain documents, all positions, all hash map orders, all new names", "why_tests_cant": "all pairs of occurrences of all symbols, including names that are a function and a variable at once", "anchors": ["src/main.rs: goto_definition, goto_declaration, references, prepare_rename, rename, get_use_def_ranges", "src/hir_index.rs: find_symbol_at_position"]}
{"id": "C71", "title": "Text that is not ASCII displaces what is behind it and nothing else", "statement": "In a document with characters that are not ASCII (within the basic multilingual plane, LSP line ends) the cursor finds the right symbol everywhere, and definition, declaration, references, diagnostics, rename, outline, folding, lenses, highlighting and the hints of blocks and functions report the right occurrences, names and messages, none missing. Each place is shown where it is exactly if the text up to its end is ASCII; otherwise it is shown earlier, at the character in which the byte with that number lies. Debug annotations are read from the displaced place as well, so a backtrace behind such a character is lost.", "quantifier": "all documents of the basic multilingual plane that can be opened, all positions, all hash map orders", "why_tests_cant": "all texts and all places of foreign characters relative to all names", "anchors": ["src/lsp_utils.rs: offset_to_lsp_pos, range_to_lsp, lsp_pos_to_offset", "src/main.rs: get_use_def_ranges, rename", "src/diagnostics.rs", "src/main.rs: document_symbol, folding_range, code_lens, inlay_hint, semantic_tokens_full"]}
{"id": "C72", "title": "A document without diagnostics is a program", "statement": "The server says nothing about a document in which tokens and statements are well-formed, every used name is introduced, nothing is defined twice and every branch has a target. Conversely, if it says nothing, the document is such a program, or it breaks off at its end inside a token or a statement (this exception is a violation: errors at the end are never shown).", "quantifier": "all documents of the basic multilingual plane that can be opened, all hash map orders", "why_tests_cant": "all programs must be quiet, and all mistakes at all places in all documents must be found", "anchors": ["src/main.rs: on_change", "src/diagnostics.rs: diagnostics_from_parser, diagnostics_from_statements, diagnostics_from_index", "src/hir_parser.rs: parse_from_str"]}
{"id": "C73", "title": "Changes that keep a program a program", "statement": "If the server has nothing to complain about because the document is a program, it stays a program when a symbol is renamed to an acceptable name that is not in use, when numbered names are moved up, when blanks and comments change, when lines without a meaning are added or removed, when another program with other definitions is put behind it, and when its parts are put into another order. Renames to names in use and of labels to keywords are accepted by the server all the same and can destroy the program (violations).", "quantifier": "all programs, all symbols, new names, layouts, parts and orders", "why_tests_cant": "each change can be made to infinitely many programs; a test fixes the program and the change", "anchors": ["src/main.rs: rename, on_change", "src/diagnostics.rs: diagnostics_from_parser, diagnostics_from_statements, diagnostics_from_index", "src/hir_parser.rs: parse_from_str", "src/hir_tokenizer.rs: tokenizer"]}
{"id": "C74", "title": "What is shown about a part does not depend on the other parts", "statement": "If an error-free document made of complete lines is followed by another document (one with errors must have statements), folding ranges and highlighting of the whole are those of the two documents, the second ones further down. The graph of a function is the one of the first part that defines it. If the parts define different functions the lenses, and if no instruction of one part names an annotation of the other the inlay hints (incoming branches, backtraces, function ends) are those of the two documents as well; the hint request fails exactly if it fails for one of the parts.", "quantifier": "all pairs of documents of which the first is error-free, all functions, all hash map orders, workspace roots and annotation contents", "why_tests_cant": "all pairs of documents; offsets are absolute, functions are numbered and annotation values are slices of the whole text", "anchors": ["src/main.rs: folding_range, semantic_tokens_full, inlay_hint, code_lens, execute_command", "src/hir_index.rs: create_index", "src/control_flow_graph.rs: create_cfg_dot_visualization", "src/semantic_token.rs: convert_to_lsp_tokens"]}
{"id": "C75", "title": "An edit inside one part changes no diagnostic elsewhere", "statement": "If complete lines in the middle of a document are replaced by others, both free of syntax errors like the lines above, and the new lines declare and define the same set of global symbols, functions and annotations as the old ones, then the diagnostics (range and message) in the lines above stay as they are and those in the lines below, syntax errors included, stay the same apart from the line numbers, which move by the number of lines added or removed.", "quantifier": "all documents split into two error-free parts of complete lines and a third one, which may have errors if it has statements, all replacements offering the same symbols, all hash map orders", "why_tests_cant": "all edits of all documents; diagnostics are recomputed from absolute offsets over the whole text and uses may refer to any other part", "anchors": ["src/diagnostics.rs", "src/hir_index.rs: create_index", "src/main.rs: on_change"]}
{"id": "C76", "title": "Commenting out lines is the same as deleting them", "statement": "If complete lines of a document are commented out with the editor's line comment (# after the indentation, blank lines left alone), the document has no syntax error exactly when the document without these lines has none, and then the server reports the same diagnostics, the same outline, the same folds and gives the same answers to go to definition, go to declaration, find references and prepare rename as for the document without the lines, apart from line numbers behind the commented lines, which are larger by the number of commented lines.", "quantifier": "all documents, all groups of consecutive lines, all positions, all hash map orders", "why_tests_cant": "all texts on the commented lines and all documents around them; comments reach the parser as tokens that several hand-written filters have to skip, and every offset behind them moves", "anchors": ["vscode-extension/hyper-ir-language-configuration.json: lineComment", "src/hir_tokenizer.rs: comment", "src/hir_parser.rs: parse_from_str", "src/main.rs: goto_definition, references, document_symbol, folding_range"]}
{"id": "C77", "title": "Hash seeds change the order of answers and nothing else", "statement": "Two runs of the server that receive the same notifications and requests under the same schedule and differ only in how hash maps and hash sets are iterated crash at the same points, hold the same documents, publish the same diagnostics (up to their order and the order of the expected tokens in a syntax error message) and give the same answers to every request; only the order of outline entries, lenses and rename edits may differ, and applying the edits in another order gives the same document.", "quantifier": "all pairs of iteration orders, all sequences of notifications with arbitrary texts, all requests, all schedules", "why_tests_cant": "a test runs with one random seed per process; independence from all seeds over all sessions is a relational property of two executions", "anchors": ["src/main.rs: on_change, document_symbol, code_lens, rename", "src/diagnostics.rs", "src/rename.rs: get_shift_edits", "src/hir_index.rs: HIRIndex"]}
{"id": "C78", "title": "Shifting the numbering makes room for new numbers", "statement": "Renaming a numbered symbol by +z (or by the code action \"Shift ... numbering\", which is the rename by +1 with the same edits at every position of every document) raises the numbers of all names of the same kind in the same scope from that number on by exactly z, leaves every other name as it is, and leaves the z numbers from the renamed one on unused in that scope of the document as it is read again, so that they can be given to new symbols.", "quantifier": "all documents, all positions, all shifts z >= 0 without overflow, all hash map orders", "why_tests_cant": "all documents and all combinations of names, numbers and prefixes; the freed numbers have to be unused in the parse of the edited text, not in the list of edits", "anchors": ["src/rename.rs: get_shift_edits, extract_number_from_identifier", "src/main.rs: rename, code_action, do_code_action_resolve", "src/hir_index.rs"]}
{"id": "C79", "title": "Introducing what is missing settles the reports about it and no others", "statement": "If complete lines that declare or define new symbols are inserted anywhere between the statements of a document without syntax errors, the reports of undefined symbols about exactly the symbols introduced by the new lines vanish; every other report about the old lines stays with its message and place (lines below move by the number of new lines), and the new lines carry the reports they have on their own except those about symbols of the other lines. Declaring a missing function adds no report at all.", "quantifier": "all documents without syntax errors, all insertion points between statements, all new lines that define nothing that is defined already, all hash map orders", "why_tests_cant": "all documents and all combinations of uses, declarations and definitions across parts; every offset behind the insertion moves", "anchors": ["src/diagnostics.rs", "src/hir_index.rs: create_index", "src/main.rs: on_change"]}
{"id": "C80", "title": "What a syntax error asks for would be right there", "statement": "Whatever the message of the first syntax error names as expected - tokens, the end of the input, or a kind of token such as a local name - would be accepted at that place: with it, the text in front of the error is again a sequence of complete statements and the beginning of another one (complete, if the end is named).", "quantifier": "all documents whose first syntax error is at a token, all orders in which the message lists its expectations", "why_tests_cant": "the expectations are merged from all alternatives of the grammar that fail at the furthest place, including optional and repeated parts that were skipped; every combination of them over all documents has to be right", "anchors": ["src/hir_parser.rs", "src/diagnostics.rs: diagnostics_from_parser"]}
{"id": "C81", "title": "Renames can be done in any order and in several steps", "statement": "Renaming two symbols to names that are not used gives the same text in either order. Renaming a symbol to an unused name and then, at any of its occurrences in the new text, to a third name gives the same text as renaming it to the third name at once. Renaming a symbol to the name it has answers with edits that change nothing.", "quantifier": "all ASCII documents without lexical errors, all pairs of occurrences of different symbols, all accepted names (labels that are not words of the grammar; global names that do not stand for both a function and a variable), all positions of the symbols in the intermediate text", "why_tests_cant": "the second rename is computed from a new analysis of the edited text; that it reaches exactly the occurrences the first one left, at their new places, is a statement about all documents", "anchors": ["src/main.rs: rename", "src/rename.rs", "src/hir_index.rs"]}
{"id": "C82", "title": "Complete lines without errors in front of a text do not change what is wrong with it", "statement": "If complete lines without errors are put in front of a text that has lexical or syntax errors, the errors found in the text stay the same, in number, order, message and place, apart from the line numbers; also its tokens and statements are the same ones, further down, and the reports about the syntax in the whole are those of the text, lowered. The text must not be lost as a whole: at least one of its statements was recognised.", "quantifier": "all texts with any number of errors and recoveries, all error-free complete lines in front of them, all hash map orders", "why_tests_cant": "error recovery skips tokens and retries at every one of them, and error positions compete by the length of the remaining input; that nothing of this depends on the lines above is a statement about all pairs of texts", "anchors": ["src/hir_parser.rs: parse_from_str, parser", "src/hir_tokenizer.rs: tokenizer", "src/diagnostics.rs: get_diagnostics_from_parser"]}
{"id": "C83", "title": "What survives syntax errors", "statement": "For every token sequence, what is read of it and the number of errors are given by a grammar: where a statement can be read it is taken (with one complaint for each instruction that has the targets of an arithmetic branch after another mnemonic and no other reading); where none can be read, tokens are dropped one by one until one can, at the price of one error; if none ever can, everything is lost, also the statements before. There are never more syntax errors than tokens.", "quantifier": "all token sequences and documents", "why_tests_cant": "an exact description of the results of the parser, including error recovery, for all inputs", "anchors": ["src/hir_parser.rs: parser", "src/hir_parser.rs: parse_from_str"]}
{"id": "C84", "title": "Every syntax error marks where reading a statement stopped", "statement": "Each syntax error of a document, not only the first, stands where reading got stuck. When tokens are dropped because no statement can be read at a place, the error of that place marks a token such that everything from the place to the token is blank lines and the beginning of a statement, and (if no comma or type ends a line before it) nothing that could be written behind the marked token makes a statement readable at that place. When everything is lost, the last error marks the furthest such token. All other errors mark the mnemonic of an instruction that was read, once per instruction, in the order of the instructions. No other errors exist.", "quantifier": "all token sequences and documents, all continuations behind each marked token", "why_tests_cant": "ranges over all documents with any number of errors and all continuations", "anchors": ["src/hir_parser.rs: parser", "src/hir_parser.rs: parse_from_str"]}
{"id": "C85", "title": "Requests are answered as asked", "statement": "Find references lists exactly the uses of the symbol if declarations are not asked for, and the uses, declarations and definitions if they are (violated: the option is ignored and only uses are listed; together with the answers of go to definition and go to declaration the list is complete). Inlay hints are given for the asked range only (violated: always for the whole document, and a backtrace outside of the range can make the request crash).", "quantifier": "all plain documents, positions and options", "why_tests_cant": "the exactness claim is about all documents and positions", "anchors": ["src/main.rs: references", "src/main.rs: inlay_hint"]}
{"id": "C86", "title": "A rename changes nothing but the name", "statement": "After a rename to an unused name the editor shows what it showed before, moved with the text: the same diagnostics (those about the renamed symbol with its new name), the same outline with the new name, the same folds, the same highlighting, and navigation asked at the start of any name leads to the same, moved places. Where a place has moved is told by the edits of the answer alone.", "quantifier": "all plain documents without lexical errors (syntax errors, undefined and redefined names allowed), all symbols, all acceptable unused names, all orders of the hash maps", "why_tests_cant": "relates the answers of every request before and after for all documents and names; several edits in one line have to be added up", "anchors": ["src/main.rs: rename", "src/main.rs: document_symbol", "src/main.rs: folding_range", "src/main.rs: semantic_tokens_full", "src/main.rs: get_use_def_ranges", "src/main.rs: on_change"]}
{"id": "C87", "title": "Moving numbers up changes nothing but the numbers", "statement": "After a relative rename that moves the numbers of local variables, labels or debug annotations up, the editor shows what it showed before, moved with the text: the same diagnostics (those about names of that scope with the moved numbers), the same outline, the same folds, the same highlighting, and navigation asked at the start of any name leads to the same, moved places.", "quantifier": "all plain documents without lexical errors, all numbered local symbols, all shifts that are not negative and do not overflow, all orders of the hash maps", "why_tests_cant": "every number of the scope moves at once, names get longer at different places, and every request is compared before and after for all documents", "anchors": ["src/main.rs: rename", "src/main.rs: document_symbol", "src/main.rs: folding_range", "src/main.rs: semantic_tokens_full", "src/main.rs: get_use_def_ranges", "src/main.rs: on_change"]}
{"id": "C88", "title": "Lenses, graphs and hints follow renames", "statement": "After a rename, or a relative rename that moves numbers up, the code lenses sit at the moved function names and ask for the functions by their new names; the graph shown for a function, asked for under its new name, has the same blocks and edges under their new labels; and the inlay hints are the same, moved with the text, with the new names in their parts and links to the moved definitions (as long as no renamed name stands inside the value of a debug annotation, which is text for the JSON parser).", "quantifier": "all plain documents without lexical errors, all renames to a new name that does not capture, all shifts of local numbers that are not negative and do not overflow, all orders of the hash maps", "why_tests_cant": "relates the answers before and after for all documents, functions and control flow graphs; tests look at one document", "anchors": ["src/main.rs: rename", "src/main.rs: code_lens", "src/main.rs: execute_command", "src/main.rs: inlay_hint", "src/control_flow.rs"]}
{"id": "C89", "title": "A session shows what is open", "statement": "Whatever documents were opened, changed, saved and closed before, an open document is shown - diagnostics on the screen and the answer to every request - as in a session that has only this document with its present text, and nothing is shown of a document that was never opened. Nothing is shown of a document that was closed (violated: its diagnostics stay and requests about it are answered with its last text until it is opened again), and files are looked for in the present folders of the workspace (violated: only in those of the beginning).", "quantifier": "all sequences of messages of a session, all documents, all requests, all capabilities and folders of the client", "why_tests_cant": "the claim is about every history; the server has state that only histories reach", "anchors": ["src/main.rs: initialize", "src/main.rs: did_open", "src/main.rs: did_change", "src/main.rs: on_change"]}
{"id": "C90", "title": "Reformatting changes nothing shown but the places", "statement": "Take a document and another one that differs from it only in layout: other blanks where blanks do not separate anything, other line ends, other comment texts (C61); or idle lines put in or left out, in a document that parses without errors (C62). Then everything a client shows of the second document is what it shows of the first, at the places of the corresponding tokens. Every diagnostic is there with the same message, on the range of the corresponding tokens, with the same related messages; also for documents with syntax errors in the C61 case. The outline lists the same symbols; every fold runs between the lines of the corresponding tokens; every lens has the same command and arguments; every inlay hint has the same parts, at the corresponding places; and every highlighted token has the same type and length (in the C62 case: every token that is not a comment). The control flow graph of a function is the same text. In the C61 case requests about a token (definition, declaration, references, rename) name the corresponding places. For the hints it is assumed that the JSON reader makes the same of the annotation values of both documents.", "quantifier": "all pairs of plain documents of which one is the other laid out anew, all servers with the same roots that have them open, all orders in which hash maps are visited", "why_tests_cant": "A test reformats one file. The claim is about every way to lay out every document, and every answer the server gives about it.", "anchors": ["src/main.rs: on_change", "src/main.rs: document_symbol", "src/main.rs: folding_range", "src/main.rs: code_lens", "src/main.rs: inlay_hint", "src/main.rs: semantic_tokens_full", "src/main.rs: execute_command", "src/hir_tokenizer.rs", "src/hir_parser.rs"]}
{"id": "C91", "title": "Moving a part of a document takes along what is shown about it", "statement": "Take a document made of parts that each consist of whole lines and parse without errors, and put the parts in any other order. For every part there is a list of things shown about it, and in every order the document shows exactly these lists, each moved down by the number of lines in front of its part. For folds, outline, lenses and highlighting that list is what is shown about the part alone. For diagnostics it is what is said about the part alone without the uses of names that other parts introduce. For inlay hints it is what is shown about the part alone and the hints at instructions whose annotation is in another part. Control flow graphs are the same text in every order. Diagnostics, lenses, hints and graphs need that no function, variable or annotation is defined in two parts: which definition is reported as the second one, and which value an annotation has, does depend on the order.", "quantifier": "all lists of parts whose concatenation is a plain document, all orders of them, all servers that have the documents open, all orders in which hash maps are visited", "why_tests_cant": "A test moves one function of one file. The claim is about every number of parts, every order of them and every answer of the server.", "anchors": ["src/main.rs: on_change", "src/main.rs: document_symbol", "src/main.rs: folding_range", "src/main.rs: code_lens", "src/main.rs: inlay_hint", "src/main.rs: semantic_tokens_full", "src/main.rs: execute_command", "src/hir_index.rs", "src/diagnostics.rs"]}
{"id": "C92", "title": "The requests about a name find exactly the places where it is written", "statement": "Put the cursor on a global name (@f), an annotation (!1) or, inside a function definition, a local name (%x). Definition, declaration and references together list every place where the same word is written, each exactly once, and no other place of the document: the whole document for global names and annotations, the function definition from `define` to its closing brace for local names. Places in statements with syntax errors count as well. A rename replaces exactly these places. For a label the places are those in front of the blocks and in the branch targets of its function. At any other position (keywords, punctuation, local names outside of functions) all of these requests find nothing.", "quantifier": "all plain documents that are open in a server, also ones with syntax errors, all tokens of them and all positions on them, all new names", "why_tests_cant": "A test asks about some names of some files. The claim compares the answers with a plain search for the word, for every document and every position.", "anchors": ["src/main.rs: goto_definition", "src/main.rs: goto_declaration", "src/main.rs: references", "src/main.rs: rename", "src/main.rs: prepare_rename", "src/hir_index.rs: create_index"]}
{"id": "C93", "title": "The values of literals have no meaning", "statement": "Replace numbers, hexadecimal numbers, texts in quotes, function modifiers and types other than int1 anywhere in a document by others of the same kind. The diagnostics stay with the tokens they were about and keep their words, also in documents with syntax errors. The outline, the folds, the lenses, the hints and the highlighting stay with their tokens, the graphs are the same. Definition, declaration, references and rename asked at a token answer with the counterparts of the places they answered with before. The exception is the type int1, which tells a conditional branch from other instructions.", "quantifier": "all pairs of plain documents that are read without lexical errors and are token for token the same or literals of the same kind, all servers in which they are open, all tokens and positions on them, all new names without a sign", "why_tests_cant": "A test compares some pairs of files. The claim is that no value of any literal in any document, well-formed or not, plays a role in any answer.", "anchors": ["src/hir_parser.rs: parse_from_str", "src/hir_index.rs: create_index", "src/main.rs: on_change", "src/main.rs: rename", "src/semantic_token.rs: semantic_tokens_from_tokens"]}
{"id": "C94", "title": "Which names are chosen has no meaning", "statement": "Take two documents that have the same tokens up to the names that are chosen (and the values of literals), where names that could be names of one thing - global names, references to debug annotations, local names of one function definition, labels of one function - are equal in one document exactly if they are equal in the other. Then everything corresponds: the diagnostics, also for syntax errors, with the names in their texts exchanged; the outline, the folds, the lenses, the hints and the highlighting; the graph asked for a function, which is the same graph with the new labels, or refused for both; and definition, declaration, references, prepare-rename and rename asked at corresponding tokens.", "quantifier": "all pairs of plain documents that are read without lexical errors and differ in consistently chosen names, literals and layout; all servers in which they are open; all tokens and positions on them; all new names without a sign", "why_tests_cant": "A test compares some renamed files. The claim is that no spelling of any name plays a role in any answer in any document: no name is reserved, two names of different scopes never interact, and no answer depends on the order or length of names.", "anchors": ["src/hir_parser.rs: parse_from_str", "src/hir_index.rs: create_index", "src/main.rs: on_change", "src/main.rs: inlay_hint", "src/main.rs: rename", "src/control_flow_graph.rs: create_cfg_dot_visualization"]}
{"id": "C95", "title": "Deleting parts reports what they leave behind and changes nothing else", "statement": "Take a document made of parts that each consist of whole lines and parse without errors, and delete any of the parts. What was shown about the remaining parts is still shown, moved up by the deleted lines: folds, outline, lenses, highlighting and the graphs of their functions. What was said about the remaining parts is still said, and in addition exactly the uses of names that deleted parts introduced and no remaining part introduces; if there are none, no diagnostic changes. The hints of the remaining parts are those shown before without those at instructions whose annotation was in a deleted part. The graph of a deleted function is refused as not found.", "quantifier": "all lists of parts whose concatenation is a plain document, all choices of the deleted parts, all servers that have the documents open, all function names, all orders in which hash maps are visited", "why_tests_cant": "A test deletes one function from one file. The claim is about every number of parts, every choice of deleted ones and every answer of the server; it excludes that anything about a deleted part lingers or that an unrelated answer changes.", "anchors": ["src/main.rs: on_change", "src/main.rs: document_symbol", "src/main.rs: folding_range", "src/main.rs: code_lens", "src/main.rs: inlay_hint", "src/main.rs: semantic_tokens_full", "src/main.rs: execute_command", "src/hir_index.rs", "src/diagnostics.rs"]}
{"id": "C96", "title": "A pasted copy is reported definition by definition", "statement": "Take a document made of parts that each consist of whole lines and parse without errors, and paste a copy of one of the parts at the end. Every diagnostic shown before is still shown. In addition each variable, function and debug annotation defined in the copy is reported once as already defined, with a link to its first definition in the document, and what was said about the part itself (branches without targets, undefined names, local names defined twice) is said about the copy at its place. Nothing else is reported: local names and labels of the copied functions do not clash with those of the originals, and uses in the copy are not undefined. The graph shown for any function stays the same.", "quantifier": "all lists of parts, all choices of the copied part, all function names, all orders in which hash maps are visited, provided the document with the copy is plain", "why_tests_cant": "A test pastes one function once. The claim counts the reports exactly for every document and every part of it, including parts that contain errors of the reported kinds.", "anchors": ["src/main.rs: on_change", "src/main.rs: execute_command", "src/hir_index.rs: create_index", "src/diagnostics.rs"]}
{"id": "C97", "title": "A name is found in all parts of a document, a local one in its own", "statement": "Take a document made of parts that each consist of whole lines and parse without errors. Asking at a global name or debug annotation written in one of the parts, the answers of go to definition, go to declaration and find references together list the places where this name is written in each of the parts, moved down by the lines of the parts above, and nothing else of the document. Asking at a local name or a label lists the places in its own part only, as if the part were alone, moved down likewise: functions of other parts that use the same local names or labels are never listed. Prepare rename offers the asked-for name at its place, and rename edits exactly the listed places. With two parts the lower one may contain syntax errors, as long as a statement of it is read, and names in broken lines are found as well.", "quantifier": "all lists of parts, all names in all parts, all positions in the name, all orders in which hash maps are visited, provided the whole document is plain", "why_tests_cant": "A test asks at one name of one file. The claim is about every split of every document into parts, so it says how answers for a file follow from answers for its pieces.", "anchors": ["src/main.rs: goto_definition", "src/main.rs: references", "src/main.rs: rename", "src/hir_index.rs: create_index"]}
{"id": "C98", "title": "A relative rename moves the numbers of exactly the words of its scope", "statement": "Put the cursor on a name that ends in a number n and rename it to +k or -k. The edits replace every word of the same scope whose number is at least n by the word with the number moved by k, each exactly once, and no other word of the document. The scope of a local name or a label is its function definition. The scope of an annotation is all annotations, that of a function name all names of functions, that of another global name all global names that are no functions, together with the defining places of variables that are called like a function. Words in statements with syntax errors count as well. The code action that is offered at a numbered name does the same as renaming it to +1, whether the client asks for its edits later or not.", "quantifier": "all plain documents that are open in a server, also ones with syntax errors, all names and positions on them, all relative renames and the code action, all shifts for which the moved numbers stay within 64 bits, all orders in which hash maps are visited", "why_tests_cant": "A test shifts some numbers in some files. The claim compares the edits with a plain search for numbered words, for every document, every name and every shift.", "anchors": ["src/main.rs: rename", "src/rename.rs: get_shift_edits", "src/hir_index.rs: create_index", "src/main.rs: code_action, do_code_action_resolve"]}
{"id": "C99", "title": "Where a relative rename is asked for only decides from which number on", "statement": "Take two numbered words of the same scope (see C98), each in the scope of the other, and ask for the same relative rename at each of them. If their numbers are equal, even if the words are not, both replies contain the same edits. Otherwise the reply for the smaller number contains all edits of the reply for the larger one, and besides them only edits of words of the scope whose numbers are at least the smaller and below the larger one.", "quantifier": "all plain documents that are open in a server, also ones with syntax errors, all pairs of numbered names of a scope and all positions on them, all shifts for which the moved numbers stay within 64 bits, all orders in which hash maps are visited", "why_tests_cant": "A test asks at some places of some files. The claim compares the replies for every pair of places in every document.", "anchors": ["src/main.rs: rename", "src/rename.rs: get_shift_edits", "src/hir_index.rs: find_symbol_at_position"]}
