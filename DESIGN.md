# Formal model of Qiu-Weidong/syntaxis in Rocq (Coq 8.16.1)

Sources modelled: `/repo` at the pinned commit (read as text, never built or run).
Properties: `properties.jsonl` (C01..).  Claims: `MANIFEST.json`.  Wrong-program experiments: `seeded/LOG.jsonl`.
This file is written by `tools/mkdesign.py` from `tools/design.md` and the theory files.

The development has four kinds of files: the **model** (executable Gallina, one definition per Rust function, each citing
file and lines), small independent **specifications** (`Spec*.v`), **proofs**, and **property theorems** (`Properties*.v`: every
theorem is closed by `exact`, followed by `Print Assumptions` and a non-trivial case that meets its hypotheses).

## Modelling decisions

* **Panics** are data: `res A = Ret a | Panic | OutOfFuel`.  `unwrap` on `None`, out-of-range indexing, slicing off a char
  boundary and `todo!()` give `Panic`.
* **Loops and recursion** without a structural measure take fuel.  `OutOfFuel` is a distinct outcome; every theorem says which
  fuel suffices, or, for divergence, that none does.
* **usize** is `nat`: overflow is not modelled; C65 proves that ids, offsets and cursors are bounded by the sizes of data held in memory.  Where a usize is read from or
  written to JSON the bound 2^64 is explicit (C63).
* **String** is a list of Unicode scalar values with explicit UTF-8 byte lengths; slicing is by byte offset and panics off a
  boundary, as in Rust.  The byte lengths are compared with the UTF-8 of RFC 3629 in C11.
* **HashMap/HashSet** are std++ `gmap`/`gset`.  Where the code iterates over one and the order can matter (the production set), the
  order is an explicit list that is an arbitrary permutation of the set, and theorems quantify over it.  Where it cannot matter a lemma
  proves independence.
* **Regexes**: the scanner is modelled over an arbitrary list of match functions (`find_at(..).map(end)`); C05-C12 hold for every
  engine whose matches end at char boundaries.  For the shipped lexers the regex texts are parsed by a model of `Regex::new` on the
  constructs that occur, with the `regex` crate's documented leftmost-first semantics.  Which non-ASCII characters `\d` matches is arbitrary.
* **serde_json** is modelled from its documentation: RFC 8259, no trailing characters, the last of equal keys, recursion limit 128,
  lone surrogates are errors.  Which number texts overflow f64 is arbitrary.
* **Tera**: text, `{{ name }}`, and `{% for %}` over the token list, autoescaping off; the two templates that the code renders
  are transcribed by `tools/mkpage.py` and `tools/mkgen.py`.
* **d3 and the browser**: hierarchy, eachBefore, descendants, links, the keyed data join and the removal at the end of a transition are modelled
  from the documentation of d3; the two layouts and the rounding of the zoom factor are arbitrary functions; an event calls the listeners the
  page registers for it.
* **println!**: the lines are part of the returned value where a property speaks about them; Output.v has all lines of src/, in the order of
  printing. Lines printed before a panic are not kept there; Crash.v keeps those of the parser, with the place of the panic, and Program.v all of them.
* `Box<dyn Any>`/`downcast` results are modelled by the type each visit function returns; where the dynamic type matters (C90) by tagged values.

## What is modelled

| source | model |
|---|---|
| src/runtime/vocabulary.rs | Vocab.v (all functions) |
| src/runtime/token.rs, src/runtime/ast/*.rs | Ast.v, TokenDisplay.v (all functions, Display included) |
| src/runtime/lexer.rs, src/tool/v1/syntaxis_lexer.rs, src/tool/syntaxis/syntaxis_lexer.rs | Lexer.v, Regex.v, LexerInst.v; sequences of calls: Session.v |
| src/tool/grammar/mod.rs | Grammar.v (all functions, Display included); ll1_table with any iteration orders of the sets: Orders.v |
| src/main.rs: output, end and disk in one value, also for runs that panic | Program.v; for any iteration orders of the FIRST and FOLLOW sets: ProgramOrders.v |
| src/tool/parser/ll1_parser.rs, src/tool/v1/syntaxis_parser.rs | Parser.v, Main.v; with the lines before a panic: Crash.v; with the work done: Cost.v |
| src/tool/syntaxis/syntaxis_walker.rs, syntaxis_listener.rs, syntaxis_visitor.rs (v1/syntaxis_visitor.rs is the same text) | Walker.v, Reentrant.v; replaced visit, visit_children, enter, exit, and what a hook sees: Overrides.v |
| src/tool/syntaxis/syntaxis_context.rs, src/tool/v1/syntaxis_context.rs | Context.v, V1Context.v (the accessors), Accept.v (accept, enter, exit) |
| src/tool/visitor/grammar_visitor.rs, lexer_rule_visitor.rs | Visitors.v; with the lines they print: Output.v |
| src/tool/serde_ast/mod.rs | SerdeAst.v, JsonText.v |
| src/tool/gui/ast_drawer.rs and templates/gui/ast.html | Drawer.v, Page.v; the script in the page: View.v |
| tests/foo, tests/foo_test.rs | Foo.v |
| src/tool/templates/target/rust/lexer.tera, tests/lexer_gen.rs | Generate.v, LexerTera.v |
| src/main.rs with another grammar and its generated lexer | Chain.v |
| src/main.rs with src/tool/syntaxis/syntaxis2.json | Main.v, ShippedJson.v, ShippedText.v, Page.v; with its files: Files.v |

Three committed files of /repo are reproduced or read exactly, as theorems: parser2.html is the page main writes (C58),
tests/lexer_generate/lexer.rs is the rendered template (C60), and syntaxis2.json reads to the value the model starts from (C62).

Not modelled: file IO beyond Files.v (a disk of byte sequences, no links, no concurrent writers, an operating system that answers arbitrarily), Rc/Box/memory and stack overflow (deep recursion appears as non-termination
for every fuel or as ordinary success; C66 bounds the depth), the empty traits `Parser`, `ErrorStrategy`, `ErrorListener`, `TokenStream`, the
test fixtures under tests/ other than those named above.

## Plan per property

* C01-C04: operations as a list, invariant by induction on the list; the queries against a relation read off the list.
* C05-C12: state invariant relating cursor, position and index to the consumed prefix; induction over scan calls.  C11, C12
  are false of the code (`_STOP` has offsets length+10; positions are bytes): `_refuted` theorems plus what is true.
* C13-C14: the language of each regex, then induction over the text; C14 false (RULE_REF wins the tie).
* C15-C18: functions on trees, event lists as specification.  C16 false in general (empty first or last child).
* C19-C20: JSON value type, encoder and decoder, acceptance as an inductive predicate.
* C21-C22: a JavaScript template literal reader as specification; false for `${` and CR, proved otherwise.
* C49: the script data states of the HTML standard as specification; false for `</script>` and for `<!--<script>`, exact characterisation proved.
* C23-C30: derivations as specification; soundness invariant, fixpoint completeness, termination by counting facts in a finite
  universe.  C27, C30 false in general (unreachable rules; conflicting grammars); C30 holds exactly for LL(1) grammars.
* C31: false: `+` always conflicts when its operand matches a token; proved for every grammar.
* C32-C38: parse trees as specification; soundness by induction on fuel, completeness by induction on the tree, termination by a rank
  on (nonterminal, lookahead).  C35, C36 false in general (left recursion; mismatches are only printed, trailing tokens ignored).
  C35 holds exactly for tables without a cycle of left corners at one lookahead, in particular without left recursion.
* C39-C43: surface EBNF syntax, its trees and its language as specification; simulation of the three visitor passes.  C41 false (suffix
  caches are keyed by the bare number); the language that results is described exactly by reading each operand as the first operand of
  the same operator with the same number (SpecClash.v).
* C44-C45: the shipped JSON as a Coq term, analysed by computation in the kernel, then the general theorems give the statement for all
  texts.  C45 false (the token constants of the two lexers differ).
* C46-C48: direct.  C46 false (no separator before nonterminals).
* C50: the regexes and names of the committed lexer and those collected from the shipped grammar are compared as texts.
* C51-C52: forests prescribed by an EBNF grammar as specification, equivalent to flattened parse trees; composed with C32, C33, C38.
* C53: sentences of each rule followed by the end of input; the rule-by-rule analysis decides which lookups fail.
* C54: visitors as functions of self.visit and self.visit_children; induction on the tree.
* C55-C56: readers for displayed trees and tokens; false for arbitrary names.
* C57: what the regex of a string literal matches, from the language of the regexes; false for metacharacters.
* C58-C59: the page as a function of the text; HTML title and script readers as specification (line ends, U+0000, end tags, script data states); C59 false for arbitrary names, with an exact condition proved. Character references in the title are abstract: only `&lt;` and texts without ampersand are used.
* C60-C61: a reader for Rust tokens (comments, identifiers, strings, raw strings) as specification; the rendered template is read token
  by token.  False for regexes that end the raw string, and for grammars without WHITE_SPACE.
* C62-C63: RFC 8259 as an inductive relation between texts and values; soundness and completeness of the reader, fuel; C63 false from 64
  nested rules on.
* C64: the dispatch table of visit and of the walker against the trait methods; the root is only looked at through its children.
* C65: counting: each identifier is charged to a node, each offset to bytes of the input; induction over scans, fuel and node lists.
* C67: induction over calls: the repaired tokens are derived; positions grow.
* C68: per regex, what it finds; which of the regexes with a common first character wins; then as C13.
* C69: one iteration order by computation in the kernel, all others from the exactness of FIRST and FOLLOW (C24, C26) and of the
  reports (C29).
* C70: FIRST and FOLLOW of the productions against inductive relations on the source syntax; the caches of the production pass
  determine each generated rule's operand, so choices at generated rules are choices in the source, and conversely.
* C71-C73: the state after any list of events; traversals against places in the tree, the join keyed by breadth-first positions; parity of clicks.
* C13 on every text, C78: as C68; a literal's items as the author means them and as the lexer takes them line up.
* C74-C75: the author's reading of a text (SpecAuthor.v) is compared with `written`, which C13 shows to be what the lexer does.
* C76: induction on the tree; the announcements are read back by induction on their derivation.
* C77: the name found at the token's type (C06), then the lists compared entry by entry.
* C79: the model of create-and-write unfolded; C58 and C60 for the contents.
* C80: a strict decoder against the UTF-8 relation, then C62; objects are read without looking behind their brace.
* C81: erasing the lines gives the visitors of Visitors.v; cached keys and inserted productions correspond to plain alternatives (lookup of C70), so
  a failed insertion is a repetition in the source.
  in general the cached keys are the right-hand sides themselves, which gives the report for all grammars without injectivity.
* C82: C81 and C44; printed numbers end at a character that is no digit.
* C83: the caches at the end of the production pass, read as a function from elements to symbols; soundness and completeness from C40, C41.
* C85: C83's language equivalence, the scanner theorems for the generated lexer and the LL(1) theorems composed; the regexes read off the grammar are compared with the generated ones one by one.
* C86: two runs that agree on the first n tokens do the same up to there, and on a sentence there is no report (C33); every symbol derives something when every rule matches something, by induction on the elements with C83.
* C87: the parsers once more with a log that survives a panic (Crash.v), shown equal to Parser.v where that returns; then as C86, with a sentential form invariant for the tokens before the trouble; the committed grammar derives something from each nonterminal by computation.
  On texts that the rules cut only in part, for clashing numbers and from the text of a grammar: ChainAny.v, the same argument over an arbitrary language that the sentences spell. That every nonterminal of a grammar with clashes derives something if every rule can be read: ReadsAll.v, by induction on the position in the list of operands.
* C88: the loader and main once more with lines that survive a panic (Program.v), shown equal to Visitors.v, Output.v and Files.v by forgetting; then C44, C79 and C87 composed. The iteration orders of the FIRST and FOLLOW sets: ProgramOrders.v, by C29.
* C89: described (SpecShape.v) says per rule how the accessors cover the children; induction on the tree relation of SpecEbnf.v one way, on the tree the other way, then C44 and the renumbering of C45.
* C90: results behind dyn Any as a small type of tagged values; should_visit_next_child gets the box because of the coercion of &Box<dyn Any> (Overrides.v). The order of coercions is the language reference's and is trusted. C17 and C54 with replaced enter, exit, visit, visit_children in the same files.
* C91: the parsers with two counters (Cost.v), equal to Parser.v by forgetting them. Calls at one position: a chain argument on the acyclic left corners, with a potential that counts the symbols still to be read; copies are bounded by calls times the size of the largest tree.
* C92: the calls as a list; induction on it with the tokens not yet handed out as the invariant.
* C93: the selected length is the largest of the list, and so is the same for a permutation (SpecReorder.v, ReorderProofs.v); then scan by scan.
* C94: two runs side by side, related trees (SpecShapeOnly.v), induction on the fuel.
* C95: every pass commutes with the renaming of the tokens in the tree (RenameProofs.v; the maps keyed by names with kmap), then C84 for arbitrary trees of the renamed grammar, C94 for the parser.
* C96: the symbol pass as a fold over the rules; adding a token and adding a rule touch different parts of the vocabulary and commute, so the fold splits into one over the lexer rules and one over the parser rules (MixedProofs.v). The other passes read one kind of rule only.
* C97: the symbol pass is a fold over the rules, so added rules only extend its state and the vocabulary only grows; the production pass is the same on a vocabulary with more tokens (GrowProofs.v: ext); the analysis reads productions and nonterminals only; the selection loop keeps its choice unless a later rule is strictly longer.
* C98: by C83 the productions of both grammars are the rewriting of the same alternatives under two numberings, hence related by a one-to-one relation of nonterminals that fixes number 0 (the first rule); derivations, nullability, first and follow sets, prediction, LL(1) and the run of the parser are carried over along such a relation (ShuffleProofs.v: iso, both).
* C99: as C98 with a relation into the larger grammar: derivations and hence prediction are carried over in one direction, so every table entry of the smaller grammar has its counterpart in the larger one, and the run of the parser is followed until an entry is missing (MoreProofs.v: kept).
* C100: as C98 with a second relation, between token numbers (the numbers of one name); productions, derivations and prediction are carried over along both relations in both directions, the two lexers are related by C93 (the compiled rules are permuted, TokensProofs.v: lexers_reordered), the tokens by their names, and the runs of the parser step by step (log_alike).
* C101: by induction on matching, an old rule uses old rules only (UnusedProofs.v: matches_old); acceptance is matching by C85, and the trees are compared by C99.
* C102: the two grammars are related construct by construct (SpecNamed.v), matching is carried over in both directions by induction (NamedProofs.v), and acceptance is matching by C85.
* C29, C30 (inner orders): the loops of ll1_table over FIRST and FOLLOW sets in arbitrary orders (Orders.v), same table and the same conflicts up to order.
* C84 (also the lines, SameLines.v): all passes looked at through what they look up in the tree; equal plain forms give equal results by induction on the trees.
* C11, bytes: an inductive UTF-8 relation; offsets as lengths of prefixes.
* C66: recursion at one position follows an acyclic relation on nonterminals (visited-set argument); lexicographic with the position.

## Trusted base

* Coq 8.16.1's kernel, including `vm_compute`.
* `Print Assumptions`: 400 of the 400 property theorems are closed under the global context (list below); no axiom of
  the standard library or of any other library is used by them.
* The reading of the Rust source recorded in the comments of the model, and of the crates and std contracts listed above.
* The transcriptions made by `tools/mk*.py` (file contents as Coq strings).

## Theory files

### Model

* `Base.v`: shared vocabulary of the model: outcomes, strings, byte slicing.
* `Vocab.v`: model of src/runtime/vocabulary.rs
* `Ast.v`: model of src/runtime/token.rs and src/runtime/ast/*.rs
* `Lexer.v`: model of the scanners: src/tool/v1/syntaxis_lexer.rs, src/tool/templates/target/rust/lexer.tera (same code, generated) and src/tool/syntaxis/syntaxis_lexer.rs (hand-written variant without _STOP).
* `Grammar.v`: model of src/tool/grammar/mod.rs
* `Parser.v`: model of the table-driven parsers: src/tool/parser/ll1_parser.rs and src/tool/v1/syntaxis_parser.rs ("copied verbatim" parse_ast).
* `Orders.v`: ll1_table with arbitrary iteration orders of the FIRST and FOLLOW sets: src/tool/grammar/mod.rs:194-218.
* `Walker.v`: model of src/tool/syntaxis/syntaxis_walker.rs, syntaxis_listener.rs and syntaxis_visitor.rs
* `SerdeAst.v`: model of src/tool/serde_ast/mod.rs, from serde_json's Value on (for texts see JsonText.v).
* `Drawer.v`: model of src/tool/gui/ast_drawer.rs (the script text; the page around it is Tera's).
* `Context.v`: model of the accessors of src/tool/syntaxis/syntaxis_context.rs
* `Visitors.v`: model of src/tool/visitor/grammar_visitor.rs, src/tool/visitor/lexer_rule_visitor.rs and of load_ast in src/main.rs. println! diagnostics are recorded in Output.v.
* `Generate.v`: what a lexer generated from src/tool/templates/target/rust/lexer.tera consists of.
* `Regex.v`: model of the part of the [regex] crate that the scanners of /repo use: the syntax of their regexes and leftmost-first matching at the start of the haystack.
* `LexerInst.v`: the two lexers of the grammar language: their regexes and token names.
* `ShippedJson.v`: src/tool/syntaxis/syntaxis2.json and the text parsed by src/main.rs, generated by tools/mkshipped.py.
* `Main.v`: model of src/main.rs: the whole program.
* `V1Context.v`: model of the accessors of src/tool/v1/syntaxis_context.rs (token types of v1/syntaxis_lexer.rs:24-38, rule ids of v1/syntaxis_parser.rs:20-28), and the accessors of src/tool/syntaxis/syntaxis_context.rs that the visitors do not use.
* `Reentrant.v`: model of visitors whose methods call back into the traversal: the trait SyntaxisVisitor of src/tool/syntaxis/syntaxis_visitor.rs:8-94 (src/tool/v1/syntaxis_visitor.rs is the same text) with overrides that use [self.visit] and [self.visit_children].
* `Overrides.v`: implementations of the traits of src/tool/syntaxis/syntaxis_visitor.rs, syntaxis_listener.rs (and the same ones of v1) that also replace the methods with a dispatching body, and what a hook learns from its [&dyn Any].
* `TokenDisplay.v`: model of the Display implementations of src/runtime/token.rs.
* `Page.v`: model of ASTDrawer::draw (src/tool/gui/ast_drawer.rs:49-60) and of what main writes.
* `Parser2Html.v`: the file parser2.html of /repo, which main writes.
* `LexerTera.v`: model of rendering src/tool/templates/target/rust/lexer.tera (tests/lexer_gen.rs:10-24: the context has "tokens", a list of LexerRuleData, and "name"; autoescaping is off).
* `LexerRs.v`: the file tests/lexer_generate/lexer.rs of /repo, which the template was rendered to.
* `JsonText.v`: model of reading a JSON text: serde_json::from_str::<Value>, which serde_ast::from_str and serde_ast::from_reader call (serde_ast/mod.rs:17-20, 74-77), and these two functions on texts. serde_json (1.0.94, Cargo.toml) is not in /repo; modelled is its documented behaviour: RFC 8259, no trailing characters, duplicate keys keep the last value, a recursion limit of 128, numbers out of the range of f64 and lone surrogates are errors.
* `ShippedText.v`: the text of src/tool/syntaxis/syntaxis2.json, generated by tools/mkshipped.py.
* `Accept.v`: model of accept, enter and exit of the nine context traits: src/tool/syntaxis/syntaxis_context.rs:116-370 (src/tool/v1/syntaxis_context.rs has the same accept functions and neither enter nor exit).
* `Recorded.v`: the outputs recorded in the comments of the tests, generated by tools/mkrecorded.py.
* `RecordedJson.v`: src/tool/syntaxis/syntaxis.json, as a value and as a text, generated by tools/mkrecorded.py.
* `View.v`: the program in the page the drawer writes: src/tool/templates/gui/ast.html, the module script, lines 100-511.
* `Foo.v`: model of the fixture tests/foo (a visitor, a listener and a walker written by hand for a small grammar) and of tests/foo_test.rs.
* `Files.v`: model of the reading and writing of files: serde_ast::from_reader on bytes, ASTDrawer::draw, main and the tests load_ast_and_draw, parser_test and gen_lexer with the files they read and write.
* `Output.v`: model of the println! calls of src/tool/visitor/grammar_visitor.rs, src/tool/visitor/lexer_rule_visitor.rs, src/tool/grammar/mod.rs, src/tool/v1/syntaxis_lexer.rs and src/tool/v1/syntaxis_parser.rs: the visitors of Visitors.v once more, with the lines they print.
* `Chain.v`: model of the program a user of the tool ends up with: main.rs:32-82 with their own grammar and the lexer generated for it (lexer.tera) in place of the committed one.
* `Crash.v`: the parsers once more, with what is printed before a panic and the place of the panic: src/tool/parser/ll1_parser.rs, src/tool/v1/syntaxis_parser.rs:90-131.
* `Program.v`: main.rs as a whole: what a run prints, how it ends and what it leaves on the disk, also when it panics.
* `ProgramOrders.v`: main.rs:32-88 once more, with arbitrary iteration orders of the FIRST and FOLLOW sets in ll1_table (Orders.v).
* `Cost.v`: the parsers once more, with the work they do: src/tool/parser/ll1_parser.rs:27-61, src/tool/v1/syntaxis_parser.rs:96-131.
* `Session.v`: any sequence of calls on one lexer: src/runtime/lexer.rs:7-11, src/tool/v1/syntaxis_lexer.rs:79-166, lexer.tera:56-141, src/tool/syntaxis/syntaxis_lexer.rs:90-157.

### Specifications

* `SpecVocab.v`: words used in the statements about the vocabulary.
* `SpecLexer.v`: specification vocabulary for the scanners.
* `SpecGrammar.v`: specification: context-free derivations, FIRST/FOLLOW, LL(1), parse trees.
* `SpecTree.v`: specification vocabulary for trees, walking and visiting.
* `SpecSerde.v`: which JSON values describe which trees.
* `SpecDrawer.v`: a reader for the JavaScript the drawer emits: template literals, object and array literals (ECMAScript 2015, 11.8.6, 12.2.5, 12.2.6), as far as they occur here.
* `SpecDisplay.v`: when a printed grammar can be read back.
* `SpecEbnf.v`: the grammar language: its abstract syntax, which syntax trees represent it, and the token sequences a rule matches.
* `SpecVisitor.v`: words for the statements about the collecting visitors.
* `SpecRegex.v`: the texts of the grammar language's tokens, without regexes.
* `SpecReads.v`: what the generated lexer of the grammar language makes of every text, also of one that is not a text of the language; and string literals as their author means them.
* `SpecAuthor.v`: how the author of a grammar means the text: a backslash in a regex escapes the character behind it, whatever it is, and names may be as short as one letter.
* `SpecHand.v`: what the hand-written lexer of the grammar language makes of every text, without regexes: tokens, and white space and comments between them.
* `SpecShipped.v`: the concrete syntax of the grammar language: which token sequences (types numbered as in v1/syntaxis_lexer.rs:24-38, and texts) write down a grammar; and renumbering of the tokens of a tree.
* `SpecShape.v`: what it means that the typed accessors of a node describe all of its children.
* `SpecForest.v`: the syntax trees that a grammar written in the grammar language prescribes.
* `SpecReentrant.v`: words for the statements about visitors that call back.
* `SpecOverrides.v`: vocabulary of the statements about replaced methods.
* `SpecTreeDisplay.v`: what a displayed tree or token should show.
* `SpecFormat.v`: the layout of displayed numbers, trees and grammars.
* `SpecLiteral.v`: the text that a string literal of the grammar language stands for.
* `SpecHtml.v`: how an HTML reader finds the text of a script element and of a title element (the HTML standard, sections 13.2.3.5 and 13.2.5: the script data states and the RCDATA states).
* `SpecPage.v`: reading the drawn page back: the text of its script element and of its title element.
* `SpecRust.v`: reading Rust source text: its tokens, as far as the generated lexers need them (The Rust Reference, "Lexical structure": line comments, identifiers and numbers, string literals, raw string literals, lifetimes).
* `SpecJson.v`: the texts of JSON values: the grammar of RFC 8259, sections 2-7.
* `SpecBounds.v`: words for the bounds on the numbers the code computes with (C65).
* `SpecRecursion.v`: left recursion, of a grammar and of a prediction table.
* `SpecMismatch.v`: reported mismatches.
* `SpecRecorded.v`: how the comments of the tests write productions and sets of tokens.
* `SpecSource.v`: LL(1) for a grammar as it is written, with groups and suffixes: which tokens can begin a construct, which can come after it, and when one token of lookahead settles every choice.
* `SpecUtf8.v`: UTF-8 (RFC 3629, section 3) as a relation between texts and bytes.
* `SpecView.v`: what a reader of the page expects to see, in terms of the tree that was drawn and of what was clicked on.
* `SpecClash.v`: what a grammar means when the operand of a suffix operator is recognised by its number alone: as the first operand of that operator having the number.
* `SpecFoo.v`: words for the statements about the fixture tests/foo.
* `SpecNames.v`: the token types of the two lexers of the grammar language, by the names of their constants.
* `SpecFiles.v`: vocabulary for the files read and written (C79, C80).
* `SpecOutput.v`: what loading a grammar should print: the report on duplicates, read off the grammar as it is written.
* `SpecRewrite.v`: the rewriting of groups and suffixes that the comments of the grammar file announce (syntaxis.g4: T* => T1 -> T T1 | ε, T+ => T2 -> T T2 | T, T? => T3 -> T | ε), as a set of productions.
* `SpecReport.v`: the report on a grammar where alternatives are told apart by [key].
* `SpecChain.v`: what the lexer rules of a grammar make of a text.
* `SpecEarliest.v`: beginnings of inputs.
* `SpecCrash.v`: the first sign of trouble in a run of the parser.
* `SpecAny.v`: a text cut into tokens as far as the rules allow.
* `SpecProgram.v`: vocabulary for the effects of main (C88).
* `SpecSession.v`: what a sequence of calls on a lexer should give.
* `SpecReorder.v`: two lexers with the same rules in another order.
* `SpecShapeOnly.v`: trees of the same shape.
* `SpecRename.v`: a grammar with other names.
* `SpecMixed.v`: the parser rules and the lexer rules of a grammar.
* `SpecGrow.v`: a grammar with rules added at its end.
* `SpecShuffle.v`: parser rules and alternatives in another order.
* `SpecMore.v`: more parser rules and more alternatives.
* `SpecTokens.v`: lexer rules in another order.
* `SpecUnused.v`: more rules under new names.
* `SpecNamed.v`: a group that gets a name.

### Proofs

* `VocabProofs.v`: the vocabulary is a pair of partial bijections.
* `LexerProofs.v`: the scanners.
* `LexerMain.v`: the scanner properties in final form, and the witnesses.
* `GrammarLemmas.v`: lemmas on derivations, and inductive characterisations of FIRST/FOLLOW.
* `FirstProofs.v`: correctness of first_set.
* `FollowProofs.v`: correctness of follow_set.
* `TableProofs.v`: correctness of ll1_table.
* `ParserProofs.v`: the table-driven parser: soundness, completeness, termination.
* `GrammarMain.v`: the grammar/parser properties in their final form, and the witnesses.
* `OrdersProofs.v`: the iteration orders of the FIRST and FOLLOW sets do not matter, except for the order of the conflicts printed.
* `TreeProofs.v`: accessors, get_text, walker, visitor.
* `SerdeProofs.v`: C19, C20.
* `DrawerProofs.v`: C21, C22.
* `DrawerExact.v`: C22, exactly.
* `DisplayProofs.v`: C46.
* `VisitorLemmas.v`: visitors whose overrides do not call back fold over the outermost nodes; fuel of the production visitor.
* `SymbolProofs.v`: the symbol pass (C39).
* `ProductionProofs.v`: the production pass on arbitrary trees: fuel, and closedness (C43).
* `VisitorMain.v`: C39, C43, C47, C48.
* `CollectProofs.v`: the collecting visitors (C47, C48).
* `ExampleTree.v`: a tree for every grammar, used by the examples.
* `EbnfTree.v`: what the accessors return on the tree of a grammar.
* `EbnfSymbols.v`: the first two passes on the tree of a grammar.
* `EbnfProofs.v`: the production pass on the tree of a grammar (C40, C42).
* `EbnfMain.v`: C40, C42.
* `EbnfRefuted.v`: C31 and C41 are false.
* `RegexProofs.v`: the matcher of Regex.v: language, preference, boundaries.
* `LexerInstProofs.v`: the lexers of the grammar language on all texts.
* `LexerInstMain.v`: C13, C14: what the lexers of the grammar language do to every text.
* `ReadsProofs.v`: C13: what the generated lexer makes of every text; C78: string literals as their author means them.
* `AuthorProofs.v`: C74, C75: regexes and names as their author means them.
* `HandProofs.v`: C68: what the hand-written lexer of the grammar language does to every text.
* `ShippedProofs.v`: the grammar of syntaxis2.json: its productions, and what its nonterminals parse.
* `ShippedMain.v`: main on syntaxis2.json: which texts it parses, and what the visitors do with the trees.
* `BootstrapProofs.v`: C45: trees of the generated parser and the visitors.
* `ShapeProofs.v`: C89: the typed accessors describe exactly the trees of grammars.
* `ForestProofs.v`: C51, C52: the parser of a loaded grammar returns the trees the grammar prescribes.
* `EntryProofs.v`: the entry points of the generated parser, on the sentences of their rules followed by a token that need not follow the rule in the grammar.
* `ReentrantProofs.v`: C54: visitors that call back; C18 for the trait's default bodies.
* `OverridesProofs.v`: C17 and C54 with replaced methods; C90.
* `FormatProofs.v`: displayed numbers are decimal numerals; the layout of displayed tokens, trees and grammars.
* `TreeDisplayProofs.v`: C15 (edge terminals), C55, C56.
* `LiteralProofs.v`: C57: the regexes of string literals.
* `HtmlProofs.v`: C49: the drawing inside the page's script element.
* `JsReadProofs.v`: the reader of SpecDrawer.v does not look behind what it reads.
* `PageProofs.v`: C58, C59: the page main writes.
* `RustProofs.v`: C60, C61: the source text of generated lexers.
* `RustExact.v`: C60: exactly when the generated source carries the regexes.
* `JsonProofs.v`: C62, C63: syntax trees read from JSON texts.
* `JsonTrees.v`: C62, C63: the theorems about trees, from JsonProofs.v.
* `AcceptProofs.v`: C64: accept, enter and exit of the contexts.
* `BoundsProofs.v`: C65: bounds on identifiers, offsets and cursors.
* `RecursionProofs.v`: C30 and C35 sharpened: order independence exactly for LL(1) grammars; termination without left recursion, whatever the conflicts; divergence with it.
* `ColumnProofs.v`: C12 sharpened: byte counts are character counts exactly for ASCII texts.
* `MismatchProofs.v`: C67: what the reported mismatches say; C36 and C27 sharpened.
* `ConflictProofs.v`: exactly which conflicts ll1_table reports, and how many.
* `RecordedProofs.v`: the outputs recorded in the tests are those computed for syntaxis.json, in every iteration order.
* `EbnfLookup.v`: the items that constructs are translated to, read off the caches of the production pass.
* `SourceProofs.v`: the grammar as written is LL(1) exactly when its table has no conflict (C70).
* `SpellProofs.v`: writing x+ out as (x x* ) keeps what is matched and makes every grammar that is LL(1) in the sense of the textbook one without conflicts (C31, C70).
* `Utf8Proofs.v`: offsets of tokens are positions in the UTF-8 bytes of the input (C05, C11).
* `ViewProofs.v`: the page program: traversals, the keyed join, and the two panes.
* `ViewPanes.v`: what the two panes show after any sequence of events.
* `ViewRun.v`: the page after any sequence of events.
* `ViewMain.v`: the page program on the trees main draws, and concrete cases.
* `ViewLabels.v`: C72: the texts of the button are those in the page.
* `EbnfClash.v`: what the production pass makes of operands with clashing numbers (C41).
* `EbnfClashMain.v`: C41: the language of a loaded grammar, with or without clashes.
* `FooProofs.v`: C76: what the fixture's visitor and listener print.
* `NamesProofs.v`: C77: the names of scanned tokens.
* `FilesProofs.v`: C79, C80: the files read and written.
* `OutputProofs.v`: C81: what loading a grammar prints.
* `OutputMain.v`: proofs of C81 and C82.
* `RewriteProofs.v`: the productions made from a grammar are those of the announced rewriting (C83).
* `SameProofs.v`: loading reads nothing from a tree but the grammar it stands for (C84).
* `SameMain.v`: C84 for texts, and examples for C83 and C84.
* `ReportProofs.v`: C81 for all grammars that load: the report with alternatives told apart by the symbols that stand for them.
* `ChainProofs.v`: C85.
* `ChainMain.v`: C85: the single statements, the engine, an example.
* `GroupsProofs.v`: groups of a grammar that has a tree are not empty; every symbol of a loaded grammar in which all rules match something derives something.
* `EarliestProofs.v`: C86: the first report is at the first token that no sentence has there.
* `ChainText.v`: C85 from the text of a grammar to the parse of a text.
* `ChainEvery.v`: C85 for every grammar that loads, whatever operands share a number.
* `ChainEarliest.v`: C86 for the tool chain of a grammar.
* `CrashProofs.v`: C87: the first sign of trouble is at the first token that no sentence has there, whether the run returns or panics.
* `ChainCrash.v`: C87 for the tool chain of a grammar.
* `MainCrash.v`: C87 for main with the committed grammar.
* `MainCrashExample.v`: examples for C87: grammar files with mistakes.
* `ReadsAll.v`: if every rule can be read, every element of the grammar can, with operands recognised by their number.
* `ChainAny.v`: C87 for the tool chain of a grammar on every text, whether or not the lexer rules cut all of it.
* `ChainNames.v`: C77 for the lexer generated for any grammar.
* `ProgramProofs.v`: C88: the effects of main.
* `ProgramMain.v`: C88 for the grammar file of the repository.
* `ProgramOrdersProofs.v`: C88: the iteration orders of the FIRST and FOLLOW sets only change the order of the conflict lines.
* `CostProofs.v`: C91: calls are linear in the number of tokens, copies quadratic.
* `SessionProofs.v`: proofs about sequences of calls on a lexer (C92).
* `SameLines.v`: loading prints the same lines for two trees of the same grammar (C84), also when it panics.
* `ReorderProofs.v`: the order of the lexer rules (C93).
* `ShapeOnlyProofs.v`: C94.
* `RenameProofs.v`: C95: loading a grammar with other names.
* `RenameChain.v`: C95 through the tool chain.
* `MixedProofs.v`: C96: parser rules and lexer rules mixed in another way.
* `MixedMain.v`: C96 for texts; a case that needs the hypothesis; a concrete case.
* `GrowProofs.v`: C97: rules added at the end of a grammar.
* `GrowMain.v`: C97: concrete cases.
* `ShuffleProofs.v`: C98: parser rules in another order.
* `ShuffleMain.v`: C98: the theorems' last steps and concrete cases.
* `MoreProofs.v`: C99: more parser rules and more alternatives.
* `MoreMain.v`: C99: texts and concrete cases.
* `TokensProofs.v`: C100: lexer rules in another order, through the whole tool chain.
* `TokensMain.v`: C100: texts, a sufficient condition and concrete cases.
* `UnusedProofs.v`: C101.
* `UnusedMain.v`: C101: texts and concrete cases.
* `NamedProofs.v`: C102.
* `NamedMain.v`: C102: texts and concrete cases.

### Property theorems

* `PropertiesVocab.v`: C01-C04: the vocabulary.
* `PropertiesLexer.v`: C05-C12: the scanners, for every list of regexes.
* `PropertiesGrammar.v`: C23-C30 and C32-C38: FIRST, FOLLOW, the LL(1) table and the parser.
* `PropertiesOrders.v`: C29, C30: the iteration orders of the FIRST and FOLLOW sets.
* `PropertiesTree.v`: C15-C18: syntax trees, their accessors, the walker and the visitor.
* `PropertiesSerde.v`: C19-C20: syntax trees read from JSON values.
* `PropertiesDrawer.v`: C21, C22: the HTML drawing.
* `PropertiesDisplay.v`: C46: printed grammars.
* `PropertiesVisitors.v`: C39, C43, C47, C48: building a grammar from a tree.
* `PropertiesEbnf.v`: C31, C40, C41, C42: from EBNF to productions.
* `PropertiesReads.v`: C13: the generated lexer of the grammar language on every text; C78: string literals as their author means them.
* `PropertiesAuthor.v`: C74, C75: regexes and names in the text of a grammar, as their author means them.
* `PropertiesHand.v`: C68: the hand-written lexer of the grammar language, with its regexes.
* `PropertiesLexerInst.v`: C13, C14: the lexers of the grammar language, with their regexes.
* `PropertiesShipped.v`: C44, C45, C50: the whole program of main.rs on the shipped grammar file.
* `PropertiesShape.v`: C89: the typed accessors (rule_ref, block, alternative_list, ...) give back the whole tree.
* `PropertiesForest.v`: C51, C52: the parser of a loaded grammar and the trees the grammar prescribes.
* `PropertiesEntry.v`: C53: the nine entry points of the generated parser, each on a sentence of its rule followed by the end of the input.
* `PropertiesReentrant.v`: C54 (visitors whose methods call back) and C18 for the trait's default bodies.
* `PropertiesOverrides.v`: C17 and C54 for implementations that also replace the dispatching methods; C90 (what should_visit_next_child can see).
* `PropertiesTreeDisplay.v`: C15 (edge terminals), C46, C55 (displayed grammars and trees), C56 (displayed tokens).
* `PropertiesLiteral.v`: C57: what the regexes of string literals match.
* `PropertiesPage.v`: C49, C58, C59: the page main writes.
* `PropertiesRust.v`: C60, C61: the source text of generated lexers.
* `PropertiesJson.v`: C62, C63: syntax trees read from JSON texts.
* `PropertiesAccept.v`: C64: accept, enter and exit of the contexts.
* `PropertiesBounds.v`: C65: bounds on identifiers, offsets and cursors.
* `PropertiesRecursion.v`: C30 and C35 sharpened, C66: order independence, left recursion, recursion depth.
* `PropertiesColumns.v`: C12 sharpened: when offsets and columns are character counts.
* `PropertiesMismatch.v`: C67: what reported mismatches say; C27 and C36 sharpened.
* `PropertiesRecorded.v`: C29 sharpened; C69: the outputs recorded in the tests.
* `PropertiesSource.v`: C70: what the reported conflicts say about the grammar as it is written.
* `PropertiesUtf8.v`: C11 in terms of the bytes of the input (UTF-8 as in RFC 3629, SpecUtf8.v).
* `PropertiesView.v`: C71-C73: what the program in the drawn page shows, for any layout, any rounding of the zoom factor, and any sequence of clicks, wheel turns, pointer movements and ends of transitions.
* `PropertiesClash.v`: C41: the language of every grammar that loads, clashes of numbers included.
* `PropertiesFoo.v`: C76: the visitor and the listener of the fixture tests/foo.
* `PropertiesNames.v`: C77: the names tokens carry.
* `PropertiesFiles.v`: C79, C80: the files read and written.
* `PropertiesOutput.v`: C81, C82: what loading a grammar prints, and the standard output of main.
* `PropertiesRewrite.v`: C83: the productions are the documented rewriting; C84: loading depends on the grammar, not on how it is written.
* `PropertiesReport.v`: C81 for every grammar that loads, collisions or not.
* `PropertiesEarliest.v`: C86: the first report is at the first token that cannot stand there.
* `PropertiesChain.v`: the tool chain of a user's grammar (C85).
* `PropertiesCrash.v`: C87: where wrong input is noticed, also by a run that panics.
* `PropertiesAny.v`: C87 on every text, also where the lexer rules cut only a part of it; for grammars with clashing numbers; and from the text of a grammar.
* `PropertiesChainNames.v`: C77: the names of the tokens of the lexer generated for any grammar.
* `PropertiesProgram.v`: C88: the whole effect of main, also when it panics: its standard output, how it ends, the disk.
* `PropertiesProgramOrders.v`: C88: the iteration orders of the FIRST and FOLLOW sets.
* `PropertiesCost.v`: C91: the work done by the parsers.
* `PropertiesSession.v`: C92: any sequence of calls on one lexer.
* `PropertiesLines.v`: C84: the report printed while loading depends on the grammar, not on how it is written.
* `PropertiesReorder.v`: C93: the order of the lexer rules.
* `PropertiesShapeOnly.v`: C94: what the parser looks at.
* `PropertiesRename.v`: C95: names are only names.
* `PropertiesMixed.v`: C96: lexer rules and parser rules may be mixed in any way.
* `PropertiesGrow.v`: C97: rules added at the end of a grammar.
* `PropertiesShuffle.v`: C98: the parser rules and their alternatives in another order.
* `PropertiesMore.v`: C99: more parser rules and more alternatives.
* `PropertiesTokens.v`: C100: lexer rules in another order, through the whole tool chain.
* `PropertiesUnused.v`: C101: more rules under new names.
* `PropertiesNamed.v`: C102: a group gets a name; grammars that match the same.

## Print Assumptions, per theorem

Output of `Print Assumptions` in the Properties files, in the order of the files.

`PropertiesVocab.v`

* C01_names_ids_bijection: Closed under the global context
* C02_add_terminal_exact: Closed under the global context
* C02_add_named_nonterminal_exact: Closed under the global context
* C02_add_unnamed_nonterminal_exact: Closed under the global context
* C02_bindings_permanent: Closed under the global context
* C03_start_stop: Closed under the global context
* C04_membership: Closed under the global context
* C04_queries: Closed under the global context
* C04_display_names: Closed under the global context

`PropertiesLexer.v`

* C05_no_input_lost: Closed under the global context
* C05_no_input_lost_handwritten: Closed under the global context
* C06_maximal_munch: Closed under the global context
* C06_maximal_munch_handwritten: Closed under the global context
* C07_tokens_nonempty: Closed under the global context
* C07_scan_all_terminates: Closed under the global context
* C08_stop_iff_complete: Closed under the global context
* C08_error_after_stop: Closed under the global context
* C09_line_and_column: Closed under the global context
* C09_line_and_column_handwritten: Closed under the global context
* C09_position_determined: Closed under the global context
* C10_only_whitespace_dropped: Closed under the global context
* C10_only_comments_dropped_handwritten: Closed under the global context
* C11_offsets_in_input_refuted: Closed under the global context
* C11_stop_offsets: Closed under the global context
* C11_offsets_in_input_partial: Closed under the global context
* C12_columns_are_characters_refuted: Closed under the global context
* C12_columns_are_characters_partial: Closed under the global context

`PropertiesGrammar.v`

* C23_first_terminates: Closed under the global context
* C23_first_returns: Closed under the global context
* C24_first_exact: Closed under the global context
* C24_first_order_independent: Closed under the global context
* C25_production_first_exact: Closed under the global context
* C26_follow_returns: Closed under the global context
* C26_follow_needs_start: Closed under the global context
* C26_follow_exact: Closed under the global context
* C27_textbook_follow_refuted: Closed under the global context
* C27_textbook_follow_partial: Closed under the global context
* C28_table_returns: Closed under the global context
* C28_table_entries: Closed under the global context
* C29_warnings_iff_not_ll1: Closed under the global context
* C30_order_independent_refuted: Closed under the global context
* C30_order_independent_partial: Closed under the global context
* C30_last_production_wins: Closed under the global context
* C32_parse_sound: Closed under the global context
* C33_parse_complete: Closed under the global context
* C33_parse_start_complete: Closed under the global context
* C34_parse_terminates: Closed under the global context
* C35_parse_terminates_refuted: Closed under the global context
* C36_only_sentences_refuted: Closed under the global context
* C36_mismatch_accepted_refuted: Closed under the global context
* C36_only_sentences_partial: Closed under the global context
* C37_leaves_and_names: Closed under the global context
* C38_unambiguous: Closed under the global context
* C38_unambiguous_start: Closed under the global context

`PropertiesOrders.v`

* C29_inner_orders: Closed under the global context
* C29_inner_returns: Closed under the global context
* C30_inner_insert: Closed under the global context

`PropertiesTree.v`

* C15_get_terminals_exact: Closed under the global context
* C15_get_errornodes_exact: Closed under the global context
* C15_get_rule_contexts_exact: Closed under the global context
* C16_get_text_refuted: Closed under the global context
* C16_get_text_panic_refuted: Closed under the global context
* C16_get_text_partial: Closed under the global context
* C16_get_text_otherwise: Closed under the global context
* C16_get_text_no_panic_partial: Closed under the global context
* C16_get_text_sentence_partial: Closed under the global context
* C17_walk_nested: Closed under the global context
* C17_walk_order: Closed under the global context
* C18_dispatch: Closed under the global context
* C18_leaves_in_order: Closed under the global context
* C18_leaf_tokens: Closed under the global context
* C18_aggregates_until_stopped: Closed under the global context

`PropertiesSerde.v`

* C19_roundtrip: Closed under the global context
* C19_exact: Closed under the global context
* C20_accepts: Closed under the global context
* C20_rejects: Closed under the global context
* C20_never_panics: Closed under the global context
* C20_fuel_irrelevant: Closed under the global context

`PropertiesDrawer.v`

* C21_escape_refuted: Closed under the global context
* C21_escape_partial: Closed under the global context
* C22_dump_refuted: Closed under the global context
* C22_dump_partial: Closed under the global context
* C22_dump_iff: Closed under the global context
* C22_dump_exact: Closed under the global context

`PropertiesDisplay.v`

* C46_display_refuted: Closed under the global context
* C46_display_partial: Closed under the global context
* C46_display_panics_exactly: Closed under the global context

`PropertiesVisitors.v`

* C39_numbering: Closed under the global context
* C39_generated_lexer: Closed under the global context
* C39_constants: Closed under the global context
* C43_closed: Closed under the global context
* C43_analyses_return: Closed under the global context
* C47_symbol_visitor: Closed under the global context
* C47_lexer_rule_visitor: Closed under the global context
* C47_unescape_unique: Closed under the global context
* C48_lexer_rules: Closed under the global context
* C48_lexer_rules_return: Closed under the global context
* C48_load_ast: Closed under the global context
* C48_string_literals: Closed under the global context

`PropertiesEbnf.v`

* C40_language: Closed under the global context
* C41_language_refuted: Closed under the global context
* C42_returns_iff: Closed under the global context
* C42_panics_iff: Closed under the global context
* C31_plus_refuted: Closed under the global context
* C31_plus_always_conflicts: Closed under the global context

`PropertiesReads.v`

* C13_reads_exactly: Closed under the global context
* C13_one_reading: Closed under the global context
* C78_literal_refuted: Closed under the global context
* C78_literal_iff_partial: Closed under the global context

`PropertiesAuthor.v`

* C74_regex_refuted: Closed under the global context
* C74_regex_iff_partial: Closed under the global context
* C75_name_refuted: Closed under the global context
* C75_name_iff_partial: Closed under the global context

`PropertiesHand.v`

* C68_reads_exactly: Closed under the global context
* C68_one_reading: Closed under the global context
* C68_last_comment: Closed under the global context

`PropertiesLexerInst.v`

* C13_written_iff_scanned: Closed under the global context
* C14_keyword_refuted: Closed under the global context
* C14_v1_keyword_partial: Closed under the global context
* C14_hand_keyword: Closed under the global context

`PropertiesShipped.v`

* C44_shipped_ll1: Closed under the global context
* C44_parses_written: Closed under the global context
* C44_only_written: Closed under the global context
* C44_terminates: Closed under the global context
* C45_visitors_refuted: Closed under the global context
* C45_visitors_panic: Closed under the global context
* C45_accessors: Closed under the global context
* C45_renumbered_partial: Closed under the global context
* C50_committed_lexer: Closed under the global context

`PropertiesShape.v`

* C89_parsed: Closed under the global context
* C89_generated_exact: Closed under the global context
* C89_exact: Closed under the global context

`PropertiesForest.v`

* C51_trees: Closed under the global context
* C51_tree_exists: Closed under the global context
* C51_parsed: Closed under the global context
* C52_parse_complete: Closed under the global context
* C52_parse_sound: Closed under the global context
* C52_entry_complete: Closed under the global context
* C52_entry_sound: Closed under the global context
* C52_unique: Closed under the global context

`PropertiesEntry.v`

* C53_block_refuted: Closed under the global context
* C53_rule_list: Closed under the global context
* C53_rules: Closed under the global context
* C53_leaf: Closed under the global context
* C53_block_panics: Closed under the global context
* C53_alternative_partial: Closed under the global context
* C53_element_partial: Closed under the global context
* C53_suffix_partial: Closed under the global context

`PropertiesReentrant.v`

* C54_forwarding_is_walking: Closed under the global context
* C54_descending_terminates: Closed under the global context
* C54_plain: Closed under the global context
* C18_defaults: Closed under the global context

`PropertiesOverrides.v`

* C17_replaced: Closed under the global context
* C54_nothing_replaced: Closed under the global context
* C54_around_visit_is_walking: Closed under the global context
* C54_visit_children_replaced: Closed under the global context
* C90_stops_refuted: Closed under the global context
* C90_blind: Closed under the global context
* C90_never_stops: Closed under the global context
* C90_content_partial: Closed under the global context

`PropertiesTreeDisplay.v`

* C15_edge_terminals: Closed under the global context
* C55_display_shape_refuted: Closed under the global context
* C55_display_shape_partial: Closed under the global context
* C56_token_display_refuted: Closed under the global context
* C56_token_display_partial: Closed under the global context
* C55_display_format: Closed under the global context
* C46_display_format: Closed under the global context
* C56_token_display_format: Closed under the global context

`PropertiesLiteral.v`

* C57_dot_refuted: Closed under the global context
* C57_backslash_refuted: Closed under the global context
* C57_parenthesis_refuted: Closed under the global context
* C57_regex_partial: Closed under the global context
* C57_collected_partial: Closed under the global context

`PropertiesPage.v`

* C58_deterministic: Closed under the global context
* C58_committed_page: Closed under the global context
* C49_embedding_refuted: Closed under the global context
* C49_embedding_partial: Closed under the global context
* C49_embedding_exact: Closed under the global context
* C59_name_refuted: Closed under the global context
* C59_page_iff_partial: Closed under the global context
* C59_page_partial: Closed under the global context
* C59_shown_partial: Closed under the global context
* C59_main_iff_partial: Closed under the global context
* C59_main_partial: Closed under the global context
* C59_written_partial: Closed under the global context

`PropertiesRust.v`

* C60_committed: Closed under the global context
* C60_hashes_refuted: Closed under the global context
* C60_source_partial: Closed under the global context
* C60_source_iff_partial: Closed under the global context
* C61_declared: Closed under the global context
* C61_white_space_refuted: Closed under the global context
* C61_references_iff_partial: Closed under the global context

`PropertiesJson.v`

* C62_accepts: Closed under the global context
* C62_rejects: Closed under the global context
* C62_total: Closed under the global context
* C62_unambiguous: Closed under the global context
* C62_shipped_text: Closed under the global context
* C62_shipped_loads: Closed under the global context
* C63_deep_refuted: Closed under the global context
* C63_deep_rejected: Closed under the global context
* C63_reads_partial: Closed under the global context
* C63_written_partial: Closed under the global context

`PropertiesAccept.v`

* C64_accept: Closed under the global context
* C64_listener: Closed under the global context
* C64_root: Closed under the global context
* C64_load: Closed under the global context

`PropertiesBounds.v`

* C65_scan: Closed under the global context
* C65_scan_handwritten: Closed under the global context
* C65_symbols: Closed under the global context
* C65_productions: Closed under the global context
* C65_load: Closed under the global context
* C65_parse: Closed under the global context

`PropertiesRecursion.v`

* C30_order_independent_iff: Closed under the global context
* C35_terminates_iff: Closed under the global context
* C35_cycle_diverges: Closed under the global context
* C35_no_left_recursion_partial: Closed under the global context
* C35_left_recursion_diverges: Closed under the global context
* C66_depth_linear: Closed under the global context

`PropertiesColumns.v`

* C12_columns_iff: Closed under the global context
* C12_columns_iff_handwritten: Closed under the global context

`PropertiesMismatch.v`

* C67_repaired: Closed under the global context
* C67_first_mismatch: Closed under the global context
* C67_no_false_alarm: Closed under the global context
* C36_accepts_iff: Closed under the global context
* C27_superset: Closed under the global context

`PropertiesRecorded.v`

* C29_reports_exactly: Closed under the global context
* C29_same_number: Closed under the global context
* C69_productions: Closed under the global context
* C69_sets: Closed under the global context
* C69_conflicts: Closed under the global context
* C69_text: Closed under the global context

`PropertiesSource.v`

* C70_source_ll1: Closed under the global context
* C70_reports: Closed under the global context
* C70_no_reports_sound: Closed under the global context
* C70_plus_spelt_out: Closed under the global context
* C70_begins: Closed under the global context

`PropertiesUtf8.v`

* C11_offsets_are_bytes: Closed under the global context
* C11_offsets_are_bytes_handwritten: Closed under the global context
* C11_bytes_exist: Closed under the global context
* C11_bytes_unique: Closed under the global context

`PropertiesView.v`

* C71_outline: Closed under the global context
* C71_settles: Closed under the global context
* C71_twice: Closed under the global context
* C72_pane: Closed under the global context
* C72_settles: Closed under the global context
* C72_switch: Closed under the global context
* C72_button: Closed under the global context
* C72_labels_refuted: Closed under the global context
* C72_labels_partial: Closed under the global context
* C73_zoom: Closed under the global context
* C73_drag: Closed under the global context
* C73_released: Closed under the global context
* C73_reset: Closed under the global context
* C73_start: Closed under the global context

`PropertiesClash.v`

* C41_read: Closed under the global context
* C41_language_partial: Closed under the global context

`PropertiesFoo.v`

* C76_visitor: Closed under the global context
* C76_listener: Closed under the global context
* C76_lines_iff: Closed under the global context
* C76_order: Closed under the global context

`PropertiesNames.v`

* C77_generated: Closed under the global context
* C77_hand_refuted: Closed under the global context
* C77_hand_iff_partial: Closed under the global context
* C45_numbers: Closed under the global context

`PropertiesFiles.v`

* C79_draw_refuted: Closed under the global context
* C79_draw_partial: Closed under the global context
* C79_draw_exact: Closed under the global context
* C79_page_text: Closed under the global context
* C79_deterministic: Closed under the global context
* C79_main: Closed under the global context
* C79_parser_test: Closed under the global context
* C79_gen_lexer: Closed under the global context
* C79_load_and_draw: Closed under the global context
* C79_untouched: Closed under the global context
* C79_unreadable: Closed under the global context
* C80_accepts: Closed under the global context
* C80_rejects: Closed under the global context
* C80_total: Closed under the global context
* C80_agrees: Closed under the global context
* C80_cut: Closed under the global context
* C80_byte_order_mark: Closed under the global context

`PropertiesOutput.v`

* C81_same: Closed under the global context
* C81_definitions: Closed under the global context
* C81_lexer_rules: Closed under the global context
* C81_report_partial: Closed under the global context
* C81_silent_partial: Closed under the global context
* C81_rules_refuted: Closed under the global context
* C81_spurious_refuted: Closed under the global context
* C82_lines: Closed under the global context
* C82_conflict: Closed under the global context
* C82_conflict_text: Closed under the global context
* C82_decimal: Closed under the global context
* C82_shipped: Closed under the global context
* C82_silent: Closed under the global context

`PropertiesRewrite.v`

* C83_all: Closed under the global context
* C83_rewriting_refuted: Closed under the global context
* C83_rewriting_partial: Closed under the global context
* C84_load: Closed under the global context
* C84_lexer_rules: Closed under the global context
* C84_strings: Closed under the global context
* C84_text: Closed under the global context

`PropertiesReport.v`

* C81_report_all: Closed under the global context
* C81_report_plain: Closed under the global context
* C81_silent_all: Closed under the global context

`PropertiesEarliest.v`

* C86_no_early_report: Closed under the global context
* C86_first_report: Closed under the global context
* C86_expected: Closed under the global context
* C86_chain: Closed under the global context

`PropertiesChain.v`

* C85_rules: Closed under the global context
* C85_unique: Closed under the global context
* C85_first_rule: Closed under the global context
* C85_reports: Closed under the global context
* C85_accepts: Closed under the global context
* C85_silent: Closed under the global context
* C85_text: Closed under the global context
* C85_text_apart: Closed under the global context
* C85_accepts_every: Closed under the global context

`PropertiesCrash.v`

* C87_same_run: Closed under the global context
* C87_ends: Closed under the global context
* C87_no_early_trouble: Closed under the global context
* C87_first_trouble: Closed under the global context
* C87_before_trouble: Closed under the global context
* C87_no_trouble: Closed under the global context
* C87_chain: Closed under the global context
* C87_main: Closed under the global context

`PropertiesAny.v`

* C87_cut: Closed under the global context
* C87_cut_unique: Closed under the global context
* C87_cut_all: Closed under the global context
* C87_any_text: Closed under the global context
* C87_every: Closed under the global context
* C87_text: Closed under the global context

`PropertiesChainNames.v`

* C77_constants: Closed under the global context
* C77_every_grammar: Closed under the global context

`PropertiesProgram.v`

* C88_load: Closed under the global context
* C88_load_same: Closed under the global context
* C88_files: Closed under the global context
* C88_stdout: Closed under the global context
* C88_main: Closed under the global context

`PropertiesProgramOrders.v`

* C88_inner_orders: Closed under the global context
* C88_inner_own: Closed under the global context

`PropertiesCost.v`

* C91_same: Closed under the global context
* C91_work_partial: Closed under the global context
* C91_table_partial: Closed under the global context
* C91_linear_refuted: Closed under the global context
* C91_star: Closed under the global context
* C91_named: Closed under the global context

`PropertiesSession.v`

* C92_any_calls: Closed under the global context
* C92_any_calls_handwritten: Closed under the global context
* C92_stream_unique: Closed under the global context
* C92_same: Closed under the global context

`PropertiesLines.v`

* C84_lines: Closed under the global context

`PropertiesReorder.v`

* C93_scan: Closed under the global context
* C93_scans: Closed under the global context
* C93_scan_all: Closed under the global context
* C93_ties_matter: Closed under the global context

`PropertiesShapeOnly.v`

* C94_types_only: Closed under the global context
* C94_entry_points: Closed under the global context
* C94_change_leaves: Closed under the global context

`PropertiesRename.v`

* C95_load: Closed under the global context
* C95_load_tree: Closed under the global context
* C95_chain: Closed under the global context
* C95_builtin_names: Closed under the global context

`PropertiesMixed.v`

* C96_load: Closed under the global context
* C96_lexer_rules: Closed under the global context
* C96_strings: Closed under the global context
* C96_text: Closed under the global context
* C96_names_needed: Closed under the global context

`PropertiesGrow.v`

* C97_numbers: Closed under the global context
* C97_tokens: Closed under the global context
* C97_chain: Closed under the global context
* C97_longer_matters: Closed under the global context
* C97_nameless_move: Closed under the global context

`PropertiesShuffle.v`

* C98_load: Closed under the global context
* C98_same: Closed under the global context
* C98_ll1: Closed under the global context
* C98_chain: Closed under the global context
* C98_shuffled: Closed under the global context
* C98_text: Closed under the global context
* C98_collision_matters: Closed under the global context
* C98_first_matters: Closed under the global context

`PropertiesMore.v`

* C99_ll1: Closed under the global context
* C99_chain: Closed under the global context
* C99_appended: Closed under the global context
* C99_text: Closed under the global context
* C99_ll1_matters: Closed under the global context

`PropertiesTokens.v`

* C100_load: Closed under the global context
* C100_ll1: Closed under the global context
* C100_chain: Closed under the global context
* C100_apart: Closed under the global context
* C100_text: Closed under the global context
* C100_ties_matter: Closed under the global context

`PropertiesUnused.v`

* C101_language: Closed under the global context
* C101_chain: Closed under the global context
* C101_appended: Closed under the global context
* C101_text: Closed under the global context
* C101_errors_change: Closed under the global context

`PropertiesNamed.v`

* C102_same: Closed under the global context
* C102_language: Closed under the global context
* C102_chain: Closed under the global context
* C102_text: Closed under the global context
