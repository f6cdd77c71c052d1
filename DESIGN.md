# Formal model of hyper-ir-lsp

Rocq/Coq 8.16.1, standard library only. Sources in `rocq/theories`, build with
`coq_makefile -f _CoqProject -o Makefile && make -j4` in `rocq`.

## Layout

Model (one file per source file, every definition cites the lines it models):

| file | models |
|---|---|
| Text.v | characters, strings, hash maps, options, panics |
| Rope.v | ropey 1.6.1 index conversions, src/lsp_utils.rs |
| Chumsky.v | the chumsky 0.9.3 combinators the project uses |
| Tokenizer.v | src/hir_tokenizer.rs |
| Parser.v | src/hir_parser.rs |
| Numbers.v | std integer parsing/printing, i64/u32 arithmetic |
| Index.v | src/hir_index.rs |
| SemTok.v | src/semantic_token.rs |
| Diag.v | src/diagnostics.rs |
| Rename.v | src/rename.rs |
| Cfg.v | src/control_flow_graph.rs |
| Backtrace.v | src/backtrace.rs |
| Server.v | src/main.rs: store, handlers |
| Dispatch.v | src/main.rs: histories, schedules of handlers |
| Session.v | src/main.rs: sessions from `initialize` on, with the notifications that have no handler |

Specifications are in `Spec*.v` (written without using model functions beyond
the shared data types). Proofs are in `P*.v`. The property theorems are in
`Properties*.v`, which contain nothing else: each theorem is closed by `exact`
and followed by `Print Assumptions`; next to it an `Example` shows that its
hypotheses are satisfiable.

## Modelling decisions

* `char` is `N`, a string is the list of its characters; byte offsets are
  computed with `utf8_len`. `SpecBytes.v` writes out the UTF-8 and UTF-16
  encodings from the standard; C01_bytes, C01_bytes_text and C02_units prove
  that `utf8_len`, `byte_len` and `utf16_len` are the lengths of these encodings
  and that the UTF-8 encoding is injective. Unicode tables for non-ASCII characters
  (`is_alphabetic`, `is_numeric`, `is_whitespace`) are a parameter record; every
  theorem holds for all of them. ASCII rows are written out.
* `HashMap` is an association list with distinct keys. Wherever the code
  iterates a map, the iteration order is a parameter `ord` and theorems assume
  only that `ord m` is a permutation of `m`.
* Panics are the explicit outcome `Panic`. Integer overflow follows the
  `profile` parameter (Debug panics, Release wraps).
* `usize` is unbounded. `u32` conversions are explicit.
* chumsky streams are suffix lists. Running out of the model's fuel in
  `repeated` is the same explicit outcome as chumsky's own "no progress" panic,
  so the no-panic theorems also exclude it.
* Handlers are functions of the server state; a step of the schedule model
  (`wstep`) is what runs between two await points.

## Trusted base

* Coq's kernel. `Print Assumptions` under every property theorem; all are
  "Closed under the global context".
* The model is a faithful reading of the code (it is not run against it).
* Dependencies are modelled from knowledge of their source, not from their code
  in this sandbox: chumsky 0.9.3 (combinators, recovery, character-index spans of
  `&str` streams), ropey 1.6.1 with default features (line breaks: LF, VT, FF, CR,
  CRLF, NEL, LS, PS), url (`path_segments_mut().extend` skips `.` and `..`),
  serde derive for `CodeActionData`, DashMap (one lock per shard, a blocked
  insert blocks the thread), tower-lsp (all handlers run on the one task that
  `main` awaits).
  The unit tests of the repository (tokens, spans, trees, errors, index, frames, numbers,
  and the example file fcf.hir) are replayed on the model in ExamplesTests.v. The example
  file query.hir is too large for that.
* Contents of error messages of chumsky (expected sets, alternatives): best
  effort. No theorem about tokens, statements or index depends on how
  alternative errors are merged; only which alternative wins (first success
  without secondary errors) matters. C27, C66 and C80 do depend on it: C66 says which
  tokens errors are reported at, C80 what they ask for. A successful retry of
  `skip_then_retry_until` reports its own errors, then the error it recovered from;
  secondary errors of the failed attempt are dropped then.
* Oracles (parameters, no assumptions unless stated in the theorem): file
  system, URL display/parse, JSON parsing, hash orders (maps and sets), shard function.

Not modelled: tower-lsp transport and JSON decoding of requests, logging,
`initialize` reply contents except legend, commands and resolve support, the VS Code extension, memory
and time, percent-encoding of URLs, documents of 2^64 bytes.

## Properties: what is modelled and how it is proved

* C01-C04 (positions): Rope.v. Induction over the text for the list of line
  starts; independent LSP specification in SpecText.v.
* C05-C10 (lexer): the combinator lexer is shown equal to a direct recursive
  lexer (outcome view of combinators); then induction over the text. The
  lexical grammar is an inductive definition in SpecLex.v.
* C11-C15 (parser): generic progress/suffix lemmas for combinators give
  termination; a segment semantics (each node covers a token segment) gives
  provenance, ordering and nesting; C14 by induction over the printed tree.
  C63: SpecExact.v adds the choice between the forms of an instruction (with all
  the following tokens as lookahead); PExact.v proves both directions rule by rule.
* C16-C21 (index): invariant over the two passes; specification of defining
  positions in SpecIndex.v over the syntax tree and the tokens.
* C22, C23 (semantic tokens): decoder written independently; induction.
* C24-C27 (diagnostics): from C16-C20 plus permutation invariance.
* C28, C30-C32 (rename): which names are accepted and which occurrences the
  edits replace is specified in SpecRename.v over the occurrence list of
  SpecIndex.v; separate ranges from strict monotonicity of positions.
* C29: SpecPatch.v says what a client does with edits (`patched`); PRelex.v
  replays the lexical grammar of SpecLex.v over the patched text, by induction
  over the derivation `lexes`; PLabel.v shows that in a lexically correct document the
  text in front of a label token cannot merge with it.
* C55: SpecSimilar.v says when two token lists have the same shape and two
  trees are the same over corresponding tokens; PNatural.v proves a relational
  parametricity lemma for every combinator and grammar rule. C56: SpecRebind.v;
  PRebind.v shows that the occurrence lists correspond (order of tokens,
  ranges of functions, consistent renaming of names). C60: PUndo.v; the patched
  text has the blanks of the old one between tokens (`regapped`, from the
  induction of C29), so two renames compose token by token. C61: SpecLayout.v
  says when two texts differ in their layout only; PLayout.v shows that the longest
  match stays the longest match. C62: SpecLines.v says when two token lists differ in
  newlines at line starts only; PLines.v carries every rule of the grammar over, PLinesExact.v
  the grammar of C14 (the readings tried first stay unreadable: at the latest the closing
  brace of the function stops them), PIdle.v goes from lines of text to tokens.
* C33-C35, C51, C52, C54 (CFG, hints): SpecCfg.v; C36, C49, C50, C53 (folding, navigation,
  outline): SpecView.v. From the parser segments and the index.
* C37-C41 (backtraces): string lemmas.
* C42-C48 (server): Dispatch.v is a state machine over messages; induction over
  histories and schedules (SpecServer.v). C57-C59 (crash causes, prepareRename,
  announced capabilities) and C64 (what actions are offered): SpecRequest.v, from the
  panic analysis of every handler.
* C65 (a refusal says why): SpecRefusal.v lists the causes (`refused`, `command_refused`) in terms of
  the new name, the symbol under the cursor and the last texts sent. PRefusal.v proves that a request
  is refused with a message exactly if the cause of that message holds. Empty names and overflow in a
  debug build are no refusals but crashes (C32). Error codes and the serde part of the message for
  malformed action data are not modelled.
* C66 (what a syntax error marks): SpecFault.v says what an error at a token or at the end claims
  (`fault`, `says`) and when a marked token could still be part of a valid document (`marked`,
  `repaired`). PPlace.v follows every error through all combinators to the token it was raised at.
  PFurther.v compares two runs of the statement parser on inputs that agree up to a token: unless the
  first run looks behind that token, both fail or both succeed. PHopeless.v shows that the
  statements before the error are read alike and that the failing one stays wrong. The first syntax
  error is meant; later ones are the subject of C84. That the listed expected tokens would help is
  not claimed: `foo: 1` is answered with "expected ,". SpecViable.v describes what is in front of the
  first error (`viable`: complete statements and the beginning of another one, which some further tokens
  complete); PViable.v shows for every part of the grammar, as a language, that the parser reaches only
  beginnings of it, PViableDoc.v that this holds for documents. A `viable` text need not be a beginning
  of an error-free document: behind `define void @f() {` and ` add !3 x` only the targets of an overflow
  branch are read, which `add` may not have.
* C67 (the graph as a DOT file): SpecDot.v is a reader for the fragment of DOT the graphs use (words,
  quoted strings with backslash escapes, comments, edges, nodes, one default attribute), written from
  the Graphviz language description. PDot.v runs it on the generated text. Names cannot hold quotes or
  backslashes, so the unusual doubling of quotes in `escape_dot_label` does no harm. Not claimed: how
  Graphviz draws it.
* C68 (what a lexical error marks): SpecLexFault.v defines the runs of characters that are no tokens
  (`lex_faults`) and the place each should be marked at (`mark_of`). PLexFault.v follows the
  alternative errors through the lexer: an error is always "unexpected" at the place it was raised,
  and what a token has looked at behind its end is only colons or the `x` after a `0`, which are
  tokens themselves. PLexPlaces.v runs the loop; PLexFirst.v shows that which token comes first does
  not depend on what is behind an unlexable character, hence the first error is exactly where the
  text goes wrong. The lists of expected characters in the messages are not described.
* C69 (a document is the sum of its parts): SpecSum.v moves syntax trees, occurrences and answers down
  by a number of characters or lines. PSum.v shows that an error-free document that consists of complete
  lines, followed by another error-free document, lexes and parses to both results, the second one moved
  (the grammar reads a statement the same whatever follows its line end). PSumIndex.v and PSumDoc.v: the
  uses without definition are those of the parts that the other one does not introduce, which definitions
  are second ones, and that diagnostics of parts with nothing in common are just put together, the second
  ones further down. PSumOrder.v: any number of parts in any order give the same messages (second
  definitions of a symbol are one fewer than its definitions). PSumNav.v: outline, and that asking for
  a local name or label gives the same answers in the part and in the whole. Answers for global names
  depend on the other parts by design and are covered by C49.
* C70 (the requests about a symbol agree): SpecCoherent.v says when a position is inside a range. PCoherent.v:
  at two occurrences of a symbol the same symbol is found, also where one name is a function and a variable
  (a later index entry replaces an earlier one at the same place, which prefers the function at every place or at none), so definition,
  declaration and references are the same lists at each of them, the lists are disjoint, contain the place
  that was asked for, and are exactly what an accepted unsigned rename replaces.
* C71 (text that is not ASCII): SpecForeign.v counts the characters that fit into the first bytes of the
  UTF-8 encoding (`fitting`); the server uses the character offsets of spans as byte offsets, so a span is
  shown at its `displaced` span. PForeign.v: that is never too far right and is right exactly if the text
  up to the end of the span is ASCII; cursor lookup uses character offsets on both sides and is right
  everywhere; answers, diagnostics and rename edits are the right ones with displaced ranges. For
  documents without characters beyond the basic multilingual plane and exotic line ends. PForeignView.v: so
  are the outline, the folds, the lenses, the hints and the highlighted tokens; a backtrace is read from the
  displaced place of its annotation.
* C72 (a document without diagnostics is a program): SpecViable.v defines `program` (tokens, statements,
  names, definitions and branches in order; a text without statements counts) and the two ways to break
  off. PClean.v puts together C71 (which diagnostics are shown), the exactness of the lexer and the
  parser (C12, C13) and where first errors are (C66, C68).
* C73 (changes that keep a program a program): PKeep.v shows that `program` of C72 survives what C56, C61,
  C62 and C69 call the same document: bindings, statements and mistakes correspond, so that none of
  the three kinds of semantic mistakes can appear.
* C74 (views of a part): SpecSumView.v moves folds, lenses, hints and tokens down by lines. PSumView.v
  shows that the functions of two documents put together are those of both, the second ones moved (names,
  extents, blocks, how many labels, where labels are branched to from), and from that what the folding,
  highlighting, graph, lens and hint requests answer. Lenses need that the parts define different functions
  (a function defined twice has none), hints that no part names an annotation of the other one.
* C75 (an edit stays local): SpecEdit.v says which symbols a statement offers to the whole document. PEdit.v
  computes the undefined uses, redefinitions and unusable branches of three parts put together from those
  of the parts and what the others offer, so that exchanging the middle part by one that offers the same
  leaves the diagnostics above alone and moves those below. Related locations may point into the edited
  part and are left out.
* C76 (commenting out lines): SpecComment.v says what the editor's "toggle line comment" does to lines (the comment
  character is taken from vscode-extension/hyper-ir-language-configuration.json, the rest of the extension is not
  modelled) and how places move when lines are put in front of a line. PComment.v: the commented lines are idle
  lines in the sense of C14, so the parse of the document is the one of the document without the lines with every
  span behind them moved by the same number of characters; diagnostics, answers, outline and folds follow,
  with the links to files outside of the document left alone. Proved for all places between two complete lines
  where a line may start (`place_after`).
* C77 (hash seeds): SpecSeed.v relates two environments that differ in the iteration orders of hash maps and
  of the sets of expected tokens. PSeed.v runs both servers side by side, through notifications, requests and
  schedules, with equal states throughout; orders enter the answers only through lists that are permuted.
  Each order is a function of the contents (two maps with equal contents are iterated alike within a run).
* C78 (room for numbers): SpecRoom.v says that a range of numbers is free in a scope and that names are renumbered.  PRoom.v
  reads it off the tokens and bindings of the edited document (C55, C56): an occurrence of the new parse has a counterpart,
  whose name moved or stayed.  The code action is compared with the rename by +1 for any document and state.
* C79 (missing symbols): SpecFix.v says by its message which report is about a symbol that given statements introduce.  PFix.v
  adds up the reports of the parts (PSumDoc.v, PEdit.v); names of different kinds differ in their first character, so the
  message decides which use is meant.
* C80 (expectations): SpecHelp.v says what a token that fits is (C66's `viable` with the token) and what the words of a message promise.
  PHelp.v goes through the grammar once more: every parser has a language, and every expectation of its errors continues a word of it or is one of a few
  expectations about what follows the parser (a newline behind an instruction, the end behind a statement).  PHelpDoc.v lifts this over error recovery.
* C81 (several renames): PSteps.v, on top of PUndo.v: the texts have the same blanks (`regapped`), and what becomes of a token is decided by the occurrences
  of the first document at it (`becomes`); `rename_second` carries this over the bindings kept by the first rename. SpecSteps.v collects the conditions on a new name.
* C82 (errors below error-free lines): PRuns.v shows that every lexer combinator commutes with moving the positions (`carries`) and how a repetition runs (`runs`);
  PNatural.v compares two runs of the parser on token lists that differ in their spans, including the tokens found (`serr`). PAbove.v puts them together: the statements of the front part are read as in `parse_sum`,
  then the recovery loop continues with the stream of the second text (`stmts_front`, `parse_above`). SpecAbove.v says what it means for an error to be further down.
* C83 (what survives): SpecSalvage.v extends the grammar of SpecExact.v by complaints and dropped tokens; PSalvage.v proves that the parser of a
  statement succeeds exactly where the grammar reads one (`next_exact`), so that the retry strategy drops exactly the unreadable tokens.
* C84 (every error): SpecStuck.v puts the errors into the grammar of C83; PStuck.v follows the loop over statements and keeps the places where statements
  begin, because the error of a lost document is merged from the furthest errors of all of them.
* C85 (options of requests): Options.v adds the parameters that the handlers do not read; SpecOptions.v says what they ask for. From C49 and C70.
* C86 (after a rename): SpecAfter.v says where a place goes when edits are applied (`carried`), from the edits alone. PAfter.v walks over both texts in step and proves that the ends of corresponding tokens are carried places; PAfterView.v transports diagnostics, outline, folds, highlighting and navigation along this correspondence, with C45-C49, C80 and C81.
* C87 (after a shift): same machinery as C86; the sections of PAfter.v and PAfterView.v are stated for any renaming of occurrences that keeps the bindings, PAfterShift.v instantiates them with `moved`.
* C88 (lenses, graphs and hints after a rename or shift): PAfterHints.v reuses the pairing of the tokens and statements before and after of PAfter.v; graphs are compared through the independent reader of DOT output, hints part by part, values of annotations as slices of the text.
* C89 (sessions): Session.v adds the messages without a handler (didClose, didSave, didChangeWorkspaceFolders), which tower-lsp's default methods only log, and the start of a session by `initialize`. The proofs reduce a session to its notifications with texts (PServer.v).
* C90 (SpecReformat.v, PReformat.v, PReformatDoc.v): the relation `diagnostic_alike T` and its kin say that two things shown are the same up to places, and that their places are those of tokens related by T. One section proves, for any T under which the two parses agree (`same_stmt T`, `bound_over T`), that diagnostics, outline, folds, lenses, graphs and hints are alike; the two kinds of layout supply T from C61 and C62. Highlighting follows from C12's description of the decoded tokens and from every solid token having one spelling.
* C91 (SpecMove.v, PMove.v, PMoveHints.v): `stacked lower f n ps` lists what `f` gives for each part at the place of the part; it is proved by induction over the parts from the sums of two parts (C74). For hints the handler is written with the annotation values as a parameter, so that the sum of two parts needs no assumption about annotations; that the value of a name does not depend on the order is a separate lemma (`lookup_perm`).
* C92 (SpecWritten.v, PWritten.v): `written` filters the tokens for the word; the symbol found at a token has exactly these tokens as its occurrences (`written_spans`), because every name token is recorded by the index exactly once and the ranges of functions do not overlap. Labels: the occurrences of kind label with body i are `label_names` of the i-th function (`labelled_tree`).
* C93 (SpecValues.v, SpecValued.v, PValues.v): the relational parser proof (PNatural.v) is over `resembles`, which lets literals and types other than `int1` differ; so the statements correspond, the index records counterparts (`bindings_stay`), and the proofs of C90 (PReformat.v, over `revalued` tokens) give what is shown. Requests: the symbol found at a token is the counterpart of the one found before (`symbols_kept`).
* C94 (SpecNames.v, PNames.v): `renamed_text` relates the token lists by `resembles` and asks that `together` names keep being equal or different. Recorded occurrences of one namespace and body are `together` (`recorded_together`, by the scopes of the index), so `bindings_stay` applies; from there the reports, the folds (equally many labels), lenses, hints, graphs (`edges_after`) and requests (`entries_renamed`) correspond, as the proofs use only which names are equal.
* C95 (SpecDelete.v, PDelete.v): what is shown about a part is the same list in both documents (`stacked` of C91, whose lists are those of the part alone); the diagnostics about a part depend on the other parts only through which names they introduce (`nobody`), so deleting parts adds the uses in `orphans`; the annotation values seen by a part are those before or none (`lookup_stays`, `lookup_gone`).
* C96 (SpecPaste.v, PPaste.v): the redefinitions of a document of two parts (C69) are computed for a second part whose variables, functions and annotations are all defined in the first one: each of them once with its first definition (`redefs_pasted`), and those inside functions as in the part alone. As the part is one of the document, it introduces no new names, so no report disappears.
* C97 (SpecMoveAsk.v, PMoveAsk.v): where a name is written (C92) is computed for a document of two parts: global names by induction over the parts, local names by showing that no function range of one part goes around a token of the other. The place of the part between others is then that of C91.
* C98 (SpecRenumber.v, PRenumber.v): as C92 for relative renames. The occurrences in the scope of the symbol that is found correspond to the tokens of the scope (`space_iff`); C30 says what happens to the occurrences. A variable called like a function is recorded as variable only where it is defined, hence the exception for these places.
  SpecActionWords.v and PActionWords.v say the same of the code action (as C44_edits does over occurrences).
* C99 (SpecAnywhere.v, PAnywhere.v): both replies are described by C98; words that are in each other's scope have the same scope (`space_together`: function definitions do not overlap), and separate edits are different edits, so that equal members mean equal multisets.

Where the code violates a property the full statement is refuted by a witness
(`_refuted`) and the part that holds is proved (`_partial` or with the explicit
guard in the property text).

## Wrong programs

`seeded/LOG.jsonl` has one line per wrong program: an edit of a model definition,
made in a scratch copy, followed by a rebuild. How its fields were obtained:

- `lemmas_failed` is what was observed: the lemmas whose proof scripts no longer
  compile. Only the first error of each file is seen, and files that depend on a
  failing file are not compiled at all.
- `theorems_failed` and `examples_failed` are derived: the property theorems and
  examples whose proofs use a failing lemma, directly or not, found by name. This
  may list too many, because a script can fail although the statement still
  holds. It may also list too few, because of the errors that are not seen.
- So an entry shows that the edit does not go unnoticed. It does not show that
  each listed theorem is false for the edited program.
- `note` says `survives` or explains why an edit that is not noticed is harmless
  or outside the claims.

## Findings

Witnesses are the `_refuted` theorems or examples in `Properties*.v`.

1. Spans are character offsets but are used as byte offsets by ropey and by
   string slicing: positions are wrong in documents with non-ASCII characters and
   `create_index` can panic (C02, C21).
2. ropey counts VT, FF, NEL, LS, PS as line ends, LSP does not; LSP columns are
   UTF-16 units, the server counts characters (C02).
3. Columns past the end of a line reach into the next line (C04).
4. An unlexable character at the end of the document loses all tokens (C09); a
   syntax error at the end loses all statements (C15).
5. Errors at the end of the input are never shown (C27).
6. `rename` to an empty name, `+`/`-` i64 overflow: panic (C32).
7. A name defined as variable and as function gets two conflicting entries (C20).
8. `did_change` uses the first change instead of the last (C46).
9. Stale or forged code-action data panics (C45).
10. A change during an unanswered showDot request blocks the server (C48).
11. `shorten_name` panics inside a multi-byte character (C41).
12. External definition with line 0 underflows (C49).
13. Names that end (or start) with a colon are accepted by rename but read back
    as other tokens (C29).
14. The span of a token also covers unlexable text in front of it, so rename
    deletes that text (C29).
15. Moving numbers down can make a name meet one that stays (C30).
16. The control flow graph omits the edges of an unlabelled first block (C33).
17. A name of exactly 48 bytes gets an ellipsis although nothing is cut (C41).
18. The collapsed text of a function counts its labels, defined or mentioned, not its blocks (C53).
19. Backtrace tooltips: a line feed in a symbol splits its list entry, and file paths are not
    sanitised, so a path such as `[a](x.y)` becomes a link (C54).
20. `rename` does not check whether the new name is in use: two symbols are merged (C56).
21. A label can be renamed to a reserved word (`ptr`), and a relative rename can make one
    (`int7` + 1); the document then no longer parses (C29).
22. A numbered local (`%2`) can be renamed to a word but not back: names of locals that
    start with a digit are refused (C60).
23. A document with only blank lines and comments is a syntax error (at the end of the input,
    so it is never shown, see 5); an empty document is not (C62).
24. The parser for identifiers (labels, words) fails with "expected global name"
    (src/hir_parser.rs:94-97), copied from the parser above it: `xbr !1, cont=@g` is answered
    with "expected global name" at the global name `@g` (C66_kind_refuted).
25. A comma that ends a dependency list is marked instead of the token behind it, and
    a token behind a line that ends with a comma is marked although a longer line could use it
    (C66_comma_refuted, C66_continued_refuted).
26. Blocks without a label and their branches are not in the graph; a block without branches that
    only they branch to is missing (C67_blocks_refuted).
27. A string that is not closed is reported at the end of the document, where errors are never
    shown (see 5): a line with a single quote gives no diagnostic at all (C68_unclosed_refuted).
28. A rename of a name behind a character that is not ASCII destroys the document: in a document that
    starts with the comment `# é`, renaming `@x` of the next line puts its definition into the comment
    (C71_rename_refuted).
29. A text that breaks off in a token or statement is not complained about: `declare void` has no
    diagnostics (C72_silent_refuted).
30. The order of the outline, of the lenses and of the diagnostics is the iteration order of hash maps, and syntax
    errors list what they expect in the order of a hash set: they differ from run to run
    (C77_outline_order_refuted, C77_ex).
31. Shifting the numbers of global variables leaves functions alone although both share their names: a variable can get the
    name of a declared function, and what used the variable then uses the function (C78_global_refuted).
32. The message of a syntax error can leave out what would be right: `declare void @g(5)` says "expected )", although a parameter may
    follow (C80_all_refuted).  `filter_map` errors do not add to the expected set, so a kind of token is never listed beside others.
33. Debug annotations are cut out of the text with character offsets used as byte offsets, so one character that is not ASCII
    anywhere in front loses the backtrace hints (C71_backtrace_refuted).
34. `references` ignores `includeDeclaration` and never lists declarations or definitions; `inlay_hint` ignores the asked range (C85).
35. There is no handler for didClose: the diagnostics of a closed document are never withdrawn, its text is kept for the life of the process, and requests about it are answered from it. Workspace folders that are added or removed later are ignored (C89).
