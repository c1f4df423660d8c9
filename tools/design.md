# Formal model of Qiu-Weidong/syntaxis in Rocq (Coq 8.16.1)

Sources modelled: `/repo` at the pinned commit (read as text, never built or run).
Properties: `properties.jsonl` (C01..).  Claims: `MANIFEST.json`.  Wrong-program experiments: `seeded/LOG.jsonl`.
This file is written by `tools/mkdesign.py` from `tools/design.md` and the theory files.

The development has four kinds of files: the **model** (executable Gallina, one definition per Rust function, each citing
file and lines), small independent **specifications** (`Spec*.v`), **proofs**, and **property theorems** (`Properties*.v`: every
theorem is closed by `exact`, followed by `Print Assumptions` and a non-trivial case that meets its hypotheses).

## Modelling decisions

* **Panics** are data: `res A = Ret a | Panic | OutOfFuel`.  `unwrap` on `None`, out-of-range indexing, slicing off a char
  boundary and `todo!()` give `Panic`.
* **Loops and recursion** without a structural measure take fuel.  `OutOfFuel` is a distinct outcome; every theorem says which
  fuel suffices, or, for divergence, that none does.
* **usize** is `nat`: overflow is not modelled; C65 proves that ids, offsets and cursors are bounded by the sizes of data held in memory.  Where a usize is read from or
  written to JSON the bound 2^64 is explicit (C63).
* **String** is a list of Unicode scalar values with explicit UTF-8 byte lengths; slicing is by byte offset and panics off a
  boundary, as in Rust.  The byte lengths are compared with the UTF-8 of RFC 3629 in C11.
* **HashMap/HashSet** are std++ `gmap`/`gset`.  Where the code iterates over one and the order can matter (the production set), the
  order is an explicit list that is an arbitrary permutation of the set, and theorems quantify over it.  Where it cannot matter a lemma
  proves independence.
* **Regexes**: the scanner is modelled over an arbitrary list of match functions (`find_at(..).map(end)`); C05-C12 hold for every
  engine whose matches end at char boundaries.  For the shipped lexers the regex texts are parsed by a model of `Regex::new` on the
  constructs that occur, with the `regex` crate's documented leftmost-first semantics.  Which non-ASCII characters `\d` matches is arbitrary.
* **serde_json** is modelled from its documentation: RFC 8259, no trailing characters, the last of equal keys, recursion limit 128,
  lone surrogates are errors.  Which number texts overflow f64 is arbitrary.
* **Tera**: text, `{{ name }}`, and `{% for %}` over the token list, autoescaping off; the two templates that the code renders
  are transcribed by `tools/mkpage.py` and `tools/mkgen.py`.
* **d3 and the browser**: hierarchy, eachBefore, descendants, links, the keyed data join and the removal at the end of a transition are modelled
  from the documentation of d3; the two layouts and the rounding of the zoom factor are arbitrary functions; an event calls the listeners the
  page registers for it.
* **println!**: the lines are part of the returned value where a property speaks about them; Output.v has all lines of src/, in the order of
  printing. Lines printed before a panic are not kept there; Crash.v keeps those of the parser, with the place of the panic, and Program.v all of them.
* `Box<dyn Any>`/`downcast` results are modelled by the type each visit function returns; where the dynamic type matters (C90) by tagged values.

## What is modelled

| source | model |
|---|---|
| src/runtime/vocabulary.rs | Vocab.v (all functions) |
| src/runtime/token.rs, src/runtime/ast/*.rs | Ast.v, TokenDisplay.v (all functions, Display included) |
| src/runtime/lexer.rs, src/tool/v1/syntaxis_lexer.rs, src/tool/syntaxis/syntaxis_lexer.rs | Lexer.v, Regex.v, LexerInst.v; sequences of calls: Session.v |
| src/tool/grammar/mod.rs | Grammar.v (all functions, Display included); ll1_table with any iteration orders of the sets: Orders.v |
| src/main.rs: output, end and disk in one value, also for runs that panic | Program.v; for any iteration orders of the FIRST and FOLLOW sets: ProgramOrders.v |
| src/tool/parser/ll1_parser.rs, src/tool/v1/syntaxis_parser.rs | Parser.v, Main.v; with the lines before a panic: Crash.v; with the work done: Cost.v |
| src/tool/syntaxis/syntaxis_walker.rs, syntaxis_listener.rs, syntaxis_visitor.rs (v1/syntaxis_visitor.rs is the same text) | Walker.v, Reentrant.v; replaced visit, visit_children, enter, exit, and what a hook sees: Overrides.v |
| src/tool/syntaxis/syntaxis_context.rs, src/tool/v1/syntaxis_context.rs | Context.v, V1Context.v (the accessors), Accept.v (accept, enter, exit) |
| src/tool/visitor/grammar_visitor.rs, lexer_rule_visitor.rs | Visitors.v; with the lines they print: Output.v |
| src/tool/serde_ast/mod.rs | SerdeAst.v, JsonText.v |
| src/tool/gui/ast_drawer.rs and templates/gui/ast.html | Drawer.v, Page.v; the script in the page: View.v |
| tests/foo, tests/foo_test.rs | Foo.v |
| src/tool/templates/target/rust/lexer.tera, tests/lexer_gen.rs | Generate.v, LexerTera.v |
| src/main.rs with another grammar and its generated lexer | Chain.v |
| src/main.rs with src/tool/syntaxis/syntaxis2.json | Main.v, ShippedJson.v, ShippedText.v, Page.v; with its files: Files.v |

Three committed files of /repo are reproduced or read exactly, as theorems: parser2.html is the page main writes (C58),
tests/lexer_generate/lexer.rs is the rendered template (C60), and syntaxis2.json reads to the value the model starts from (C62).

Not modelled: file IO beyond Files.v (a disk of byte sequences, no links, no concurrent writers, an operating system that answers arbitrarily), Rc/Box/memory and stack overflow (deep recursion appears as non-termination
for every fuel or as ordinary success; C66 bounds the depth), the empty traits `Parser`, `ErrorStrategy`, `ErrorListener`, `TokenStream`, the
test fixtures under tests/ other than those named above.

## Plan per property

* C01-C04: operations as a list, invariant by induction on the list; the queries against a relation read off the list.
* C05-C12: state invariant relating cursor, position and index to the consumed prefix; induction over scan calls.  C11, C12
  are false of the code (`_STOP` has offsets length+10; positions are bytes): `_refuted` theorems plus what is true.
* C13-C14: the language of each regex, then induction over the text; C14 false (RULE_REF wins the tie).
* C15-C18: functions on trees, event lists as specification.  C16 false in general (empty first or last child).
* C19-C20: JSON value type, encoder and decoder, acceptance as an inductive predicate.
* C21-C22: a JavaScript template literal reader as specification; false for `${` and CR, proved otherwise.
* C49: the script data states of the HTML standard as specification; false for `</script>` and for `<!--<script>`, exact characterisation proved.
* C23-C30: derivations as specification; soundness invariant, fixpoint completeness, termination by counting facts in a finite
  universe.  C27, C30 false in general (unreachable rules; conflicting grammars); C30 holds exactly for LL(1) grammars.
* C31: false: `+` always conflicts when its operand matches a token; proved for every grammar.
* C32-C38: parse trees as specification; soundness by induction on fuel, completeness by induction on the tree, termination by a rank
  on (nonterminal, lookahead).  C35, C36 false in general (left recursion; mismatches are only printed, trailing tokens ignored).
  C35 holds exactly for tables without a cycle of left corners at one lookahead, in particular without left recursion.
* C39-C43: surface EBNF syntax, its trees and its language as specification; simulation of the three visitor passes.  C41 false (suffix
  caches are keyed by the bare number); the language that results is described exactly by reading each operand as the first operand of
  the same operator with the same number (SpecClash.v).
* C44-C45: the shipped JSON as a Coq term, analysed by computation in the kernel, then the general theorems give the statement for all
  texts.  C45 false (the token constants of the two lexers differ).
* C46-C48: direct.  C46 false (no separator before nonterminals).
* C50: the regexes and names of the committed lexer and those collected from the shipped grammar are compared as texts.
* C51-C52: forests prescribed by an EBNF grammar as specification, equivalent to flattened parse trees; composed with C32, C33, C38.
* C53: sentences of each rule followed by the end of input; the rule-by-rule analysis decides which lookups fail.
* C54: visitors as functions of self.visit and self.visit_children; induction on the tree.
* C55-C56: readers for displayed trees and tokens; false for arbitrary names.
* C57: what the regex of a string literal matches, from the language of the regexes; false for metacharacters.
* C58-C59: the page as a function of the text; HTML title and script readers as specification (line ends, U+0000, end tags, script data states); C59 false for arbitrary names, with an exact condition proved. Character references in the title are abstract: only `&lt;` and texts without ampersand are used.
* C60-C61: a reader for Rust tokens (comments, identifiers, strings, raw strings) as specification; the rendered template is read token
  by token.  False for regexes that end the raw string, and for grammars without WHITE_SPACE.
* C62-C63: RFC 8259 as an inductive relation between texts and values; soundness and completeness of the reader, fuel; C63 false from 64
  nested rules on.
* C64: the dispatch table of visit and of the walker against the trait methods; the root is only looked at through its children.
* C65: counting: each identifier is charged to a node, each offset to bytes of the input; induction over scans, fuel and node lists.
* C67: induction over calls: the repaired tokens are derived; positions grow.
* C68: per regex, what it finds; which of the regexes with a common first character wins; then as C13.
* C69: one iteration order by computation in the kernel, all others from the exactness of FIRST and FOLLOW (C24, C26) and of the
  reports (C29).
* C70: FIRST and FOLLOW of the productions against inductive relations on the source syntax; the caches of the production pass
  determine each generated rule's operand, so choices at generated rules are choices in the source, and conversely.
* C71-C73: the state after any list of events; traversals against places in the tree, the join keyed by breadth-first positions; parity of clicks.
* C13 on every text, C78: as C68; a literal's items as the author means them and as the lexer takes them line up.
* C74-C75: the author's reading of a text (SpecAuthor.v) is compared with `written`, which C13 shows to be what the lexer does.
* C76: induction on the tree; the announcements are read back by induction on their derivation.
* C77: the name found at the token's type (C06), then the lists compared entry by entry.
* C79: the model of create-and-write unfolded; C58 and C60 for the contents.
* C80: a strict decoder against the UTF-8 relation, then C62; objects are read without looking behind their brace.
* C81: erasing the lines gives the visitors of Visitors.v; cached keys and inserted productions correspond to plain alternatives (lookup of C70), so
  a failed insertion is a repetition in the source.
  in general the cached keys are the right-hand sides themselves, which gives the report for all grammars without injectivity.
* C82: C81 and C44; printed numbers end at a character that is no digit.
* C83: the caches at the end of the production pass, read as a function from elements to symbols; soundness and completeness from C40, C41.
* C85: C83's language equivalence, the scanner theorems for the generated lexer and the LL(1) theorems composed; the regexes read off the grammar are compared with the generated ones one by one.
* C86: two runs that agree on the first n tokens do the same up to there, and on a sentence there is no report (C33); every symbol derives something when every rule matches something, by induction on the elements with C83.
* C87: the parsers once more with a log that survives a panic (Crash.v), shown equal to Parser.v where that returns; then as C86, with a sentential form invariant for the tokens before the trouble; the committed grammar derives something from each nonterminal by computation.
  On texts that the rules cut only in part, for clashing numbers and from the text of a grammar: ChainAny.v, the same argument over an arbitrary language that the sentences spell. That every nonterminal of a grammar with clashes derives something if every rule can be read: ReadsAll.v, by induction on the position in the list of operands.
* C88: the loader and main once more with lines that survive a panic (Program.v), shown equal to Visitors.v, Output.v and Files.v by forgetting; then C44, C79 and C87 composed. The iteration orders of the FIRST and FOLLOW sets: ProgramOrders.v, by C29.
* C89: described (SpecShape.v) says per rule how the accessors cover the children; induction on the tree relation of SpecEbnf.v one way, on the tree the other way, then C44 and the renumbering of C45.
* C90: results behind dyn Any as a small type of tagged values; should_visit_next_child gets the box because of the coercion of &Box<dyn Any> (Overrides.v). The order of coercions is the language reference's and is trusted. C17 and C54 with replaced enter, exit, visit, visit_children in the same files.
* C91: the parsers with two counters (Cost.v), equal to Parser.v by forgetting them. Calls at one position: a chain argument on the acyclic left corners, with a potential that counts the symbols still to be read; copies are bounded by calls times the size of the largest tree.
* C92: the calls as a list; induction on it with the tokens not yet handed out as the invariant.
* C93: the selected length is the largest of the list, and so is the same for a permutation (SpecReorder.v, ReorderProofs.v); then scan by scan.
* C94: two runs side by side, related trees (SpecShapeOnly.v), induction on the fuel.
* C95: every pass commutes with the renaming of the tokens in the tree (RenameProofs.v; the maps keyed by names with kmap), then C84 for arbitrary trees of the renamed grammar, C94 for the parser.
* C96: the symbol pass as a fold over the rules; adding a token and adding a rule touch different parts of the vocabulary and commute, so the fold splits into one over the lexer rules and one over the parser rules (MixedProofs.v). The other passes read one kind of rule only.
* C97: the symbol pass is a fold over the rules, so added rules only extend its state and the vocabulary only grows; the production pass is the same on a vocabulary with more tokens (GrowProofs.v: ext); the analysis reads productions and nonterminals only; the selection loop keeps its choice unless a later rule is strictly longer.
* C98: by C83 the productions of both grammars are the rewriting of the same alternatives under two numberings, hence related by a one-to-one relation of nonterminals that fixes number 0 (the first rule); derivations, nullability, first and follow sets, prediction, LL(1) and the run of the parser are carried over along such a relation (ShuffleProofs.v: iso, both).
* C99: as C98 with a relation into the larger grammar: derivations and hence prediction are carried over in one direction, so every table entry of the smaller grammar has its counterpart in the larger one, and the run of the parser is followed until an entry is missing (MoreProofs.v: kept).
* C100: as C98 with a second relation, between token numbers (the numbers of one name); productions, derivations and prediction are carried over along both relations in both directions, the two lexers are related by C93 (the compiled rules are permuted, TokensProofs.v: lexers_reordered), the tokens by their names, and the runs of the parser step by step (log_alike).
* C101: by induction on matching, an old rule uses old rules only (UnusedProofs.v: matches_old); acceptance is matching by C85, and the trees are compared by C99.
* C102: the two grammars are related construct by construct (SpecNamed.v), matching is carried over in both directions by induction (NamedProofs.v), and acceptance is matching by C85.
* C29, C30 (inner orders): the loops of ll1_table over FIRST and FOLLOW sets in arbitrary orders (Orders.v), same table and the same conflicts up to order.
* C84 (also the lines, SameLines.v): all passes looked at through what they look up in the tree; equal plain forms give equal results by induction on the trees.
* C11, bytes: an inductive UTF-8 relation; offsets as lengths of prefixes.
* C66: recursion at one position follows an acyclic relation on nonterminals (visited-set argument); lexicographic with the position.

## Trusted base

* Coq 8.16.1's kernel, including `vm_compute`.
* `Print Assumptions`: @CLOSED@ of the @TOTAL@ property theorems are closed under the global context (list below); no axiom of
  the standard library or of any other library is used by them.
* The reading of the Rust source recorded in the comments of the model, and of the crates and std contracts listed above.
* The transcriptions made by `tools/mk*.py` (file contents as Coq strings).
