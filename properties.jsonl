{"id": "C01", "title": "Vocabulary names and ids are a bijection", "statement": "After any history of add_terminal / add_named_nonterminal / add_unnamed_nonterminal calls on a new Vocabulary, for terminals and for nonterminals: looking up a name gives id i exactly when looking up id i gives that name; hence no two names share an id and no id has two names.", "quantifier": "every finite sequence of add_* calls with arbitrary ids and names", "why_tests_cant": "the set of call histories is infinite; a stale reverse entry needs a particular overwrite order to show", "anchors": ["src/runtime/vocabulary.rs: Vocabulary::{add_terminal,add_named_nonterminal,add_unnamed_nonterminal,get_terminal_id_by_name,get_terminal_name_by_id,get_nonterminal_id_by_name,get_nonterminal_name_by_id}"]}
{"id": "C02", "title": "A vocabulary insertion is all-or-nothing and exact", "statement": "add_terminal and add_named_nonterminal return true exactly when neither the name nor the id is in use in that namespace; add_unnamed_nonterminal exactly when the id is unused. When they return false every observable lookup is unchanged; when they return true exactly the new binding appears and every other lookup (in both namespaces) is unchanged, so a binding never changes once made.", "quantifier": "every reachable vocabulary and every id/name argument", "why_tests_cant": "requires comparing all lookups before and after every call", "anchors": ["src/runtime/vocabulary.rs: Vocabulary::{add_terminal,add_named_nonterminal,add_unnamed_nonterminal}"]}
{"id": "C03", "title": "_START and _STOP are permanently tokens 0 and 1", "statement": "Whatever calls are made on a vocabulary, terminal 0 is _START and terminal 1 is _STOP, by id and by name.", "quantifier": "every history of calls", "why_tests_cant": "a test sees only some histories", "anchors": ["src/runtime/vocabulary.rs: Vocabulary::new", "src/runtime/vocabulary.rs: Vocabulary::add_terminal"]}
{"id": "C04", "title": "Vocabulary membership and display names", "statement": "is_terminal_id / is_nonterminal_id hold exactly for ids whose insertion returned true. A terminal id always has a name (get_terminal_name does not panic on it, and panics on every other id); a nonterminal has a name exactly when it was inserted as named; get_nonterminal_name_with_default gives that name or else the decimal id.", "quantifier": "every history of calls and every id", "why_tests_cant": "ranges over all histories and all ids", "anchors": ["src/runtime/vocabulary.rs: Vocabulary::{is_terminal_id,is_nonterminal_id,get_terminal_name,get_nonterminal_name_with_default,get_all_terminals,get_all_nonterminals}"]}
{"id": "C05", "title": "Scanning loses no input and token offsets are exact", "statement": "For a (generated) lexer with any list of regexes, the texts of the tokens returned by successive scan calls, concatenated, are exactly the input consumed so far; each token's text is the slice of the input between its char_start_index and char_stop_index, the first token starts at 0 and each token starts where the previous one stopped.", "quantifier": "every input string, every regex list, every number of scan calls", "why_tests_cant": "all inputs and all regexes", "anchors": ["src/tool/v1/syntaxis_lexer.rs: Lexer::scan", "src/tool/templates/target/rust/lexer.tera: scan", "src/tool/syntaxis/syntaxis_lexer.rs: Lexer::scan"]}
{"id": "C06", "title": "Maximal munch with rule priority", "statement": "A token returned by scan (other than _STOP) has the longest length any regex of the lexer matches at the cursor, and its type is the first rule attaining that length; scan reports an error before the end of input exactly when no regex has a non-empty match there.", "quantifier": "every input, cursor and regex list", "why_tests_cant": "all inputs and all competing rules", "anchors": ["src/tool/v1/syntaxis_lexer.rs: Lexer::scan", "src/tool/templates/target/rust/lexer.tera: scan", "src/tool/syntaxis/syntaxis_lexer.rs: Lexer::scan"]}
{"id": "C07", "title": "Scanning makes progress, so scan_all terminates", "statement": "Every non-_STOP token is non-empty even when regexes match the empty string, so scan_all_on_channel_tokens terminates on every input after at most length+2 scans.", "quantifier": "every input and regex list, including regexes matching the empty string", "why_tests_cant": "non-termination cannot be observed by a test", "anchors": ["src/tool/v1/syntaxis_lexer.rs: Lexer::scan_all_on_channel_tokens", "src/tool/templates/target/rust/lexer.tera: scan_all_on_channel_tokens", "src/tool/syntaxis/syntaxis_lexer.rs: Lexer::scan_all_on_channel_tokens"]}
{"id": "C08", "title": "_STOP marks exactly a complete scan", "statement": "scan_all_on_channel_tokens(0) of the generated lexers ends with exactly one _STOP token when the whole input was tokenised and contains no _STOP token otherwise, in which case the unscanned remainder is printed and the tokens before the offending position are returned; after _STOP every further scan is an error.", "quantifier": "every input and regex list", "why_tests_cant": "all inputs, valid and invalid", "anchors": ["src/tool/v1/syntaxis_lexer.rs: Lexer::{scan,scan_all_on_channel_tokens}", "src/tool/templates/target/rust/lexer.tera: scan_all_on_channel_tokens"]}
{"id": "C09", "title": "Token line and column are correct", "statement": "A token's start (stop) line is the number of newlines in the input before its start (stop) offset and its char_position is the number of bytes after the last of those newlines.", "quantifier": "every input and every token", "why_tests_cant": "depends on all possible newline placements across tokens", "anchors": ["src/tool/v1/syntaxis_lexer.rs: Lexer::scan", "src/runtime/token.rs: Position", "src/tool/templates/target/rust/lexer.tera: scan", "src/tool/syntaxis/syntaxis_lexer.rs: Lexer::scan"]}
{"id": "C10", "title": "token_index numbers all tokens, whitespace is the only thing dropped", "statement": "scan_all_on_channel_tokens(c) returns, in order, exactly the scanned tokens that are not whitespace (comments/WS for the hand-written lexer) if c = 0 and nothing otherwise; the k-th scanned token (dropped ones included) has token_index k.", "quantifier": "every input, channel and regex list", "why_tests_cant": "all inputs", "anchors": ["src/tool/v1/syntaxis_lexer.rs: Lexer::scan_all_on_channel_tokens", "src/tool/syntaxis/syntaxis_lexer.rs: Lexer::scan_all_on_channel_tokens", "src/tool/templates/target/rust/lexer.tera: scan_all_on_channel_tokens"]}
{"id": "C11", "title": "The _STOP token's offsets lie in the input", "statement": "Every token a lexer returns, _STOP included, has char_start_index <= char_stop_index <= input length, so its range can be sliced.", "quantifier": "every input", "why_tests_cant": "all inputs", "anchors": ["src/tool/v1/syntaxis_lexer.rs: Lexer::scan", "src/runtime/token.rs: Token"]}
{"id": "C12", "title": "Columns count characters", "statement": "char_position, char_start_index and char_stop_index are character counts, as their names and comments say.", "quantifier": "every input", "why_tests_cant": "only non-ASCII inputs show the difference", "anchors": ["src/runtime/token.rs: Position, Token", "src/tool/v1/syntaxis_lexer.rs: Lexer::scan"]}
{"id": "C13", "title": "Writing tokens separated by blanks and scanning them gives them back", "statement": "For the shipped grammar-language lexer, any sequence of grammar-language tokens with admissible texts, written one after the other with white space between them, is scanned back to exactly those tokens followed by _STOP.", "quantifier": "every sequence of tokens of the grammar language with any admissible texts", "why_tests_cant": "infinitely many token sequences and texts", "anchors": ["src/tool/v1/syntaxis_lexer.rs: SyntaxisLexer::new, scan"]}
{"id": "C14", "title": "The keyword epsilon denotes the EPSILON token", "statement": "Scanning the keyword epsilon of the grammar language yields an EPSILON token.", "quantifier": "every occurrence in every input", "why_tests_cant": "an interaction between two rules at equal length", "anchors": ["src/tool/v1/syntaxis_lexer.rs: SyntaxisLexer::new", "src/tool/syntaxis/syntaxis_lexer.rs: SyntaxisLexer::new"]}
{"id": "C15", "title": "Child accessors return exactly the matching children in order", "statement": "get_terminals / get_errornodes / get_rule_contexts return exactly the direct children of that kind and type, in source order and never from deeper levels; the indexed variants return the i-th of them or None when there are fewer.", "quantifier": "every tree, type and index", "why_tests_cant": "all trees", "anchors": ["src/runtime/ast/rule_context.rs: RuleContext::{get_terminals,get_terminal,get_errornodes,get_errornode,get_rule_contexts,get_rule_context}"]}
{"id": "C16", "title": "get_text of a node is the source text it covers", "statement": "For a tree the parser built from the tokens of an input, get_text(input) of any node is the slice of the input from the start of the node's first token to the end of its last token (empty if it has no token) and does not panic.", "quantifier": "every input, grammar and node", "why_tests_cant": "all inputs, grammars and nodes; only grammars with optional leading or trailing parts show a deviation", "anchors": ["src/runtime/ast/rule_context.rs: RuleContext::{get_text,get_start_token,get_stop_token,get_first_terminal,get_last_terminal}"]}
{"id": "C17", "title": "Walking a tree calls the listener in document order, properly nested", "statement": "SyntaxisWalker::walk calls enter_every_rule+enter on every rule node before, and exit+exit_every_rule after, everything inside it, and enter/exit on every leaf, each node exactly once and in document order; enter/exit dispatch to the handler of the node's rule index and to none for unknown indices.", "quantifier": "every tree and every listener", "why_tests_cant": "all trees and listeners", "anchors": ["src/tool/syntaxis/syntaxis_walker.rs: SyntaxisWalker::walk", "src/tool/syntaxis/syntaxis_listener.rs: SyntaxisListener::{enter,exit}"]}
{"id": "C18", "title": "Visiting children covers every node once and aggregates in order", "statement": "With default overrides SyntaxisVisitor::visit reaches every terminal and error node of the tree exactly once in document order, dispatches each rule node to its own visit function, and visit_children folds the children's results left to right, stopping as soon as should_visit_next_child is false.", "quantifier": "every tree and visitor", "why_tests_cant": "all trees and all override behaviours", "anchors": ["src/tool/syntaxis/syntaxis_visitor.rs: SyntaxisVisitor::{visit,visit_children}"]}
{"id": "C19", "title": "A syntax tree survives the JSON format", "statement": "Loading the JSON description of a tree (rule_index, rule_name, children / token_type, token_name, text) rebuilds exactly that tree, with unknown positions set to zero.", "quantifier": "every tree of rules and terminals", "why_tests_cant": "all trees of any depth and width", "anchors": ["src/tool/serde_ast/mod.rs: from_str, from_reader, parse_rule, parse_terminal"]}
{"id": "C20", "title": "JSON trees are accepted exactly when well-formed", "statement": "from_str on a parsed JSON value succeeds exactly when the root has an array children, a u64 rule_index and a string rule_name, and recursively every child is either such an object or has absent/null children with a u64 token_type and a string token_name (text optional, defaulting to <no text>); otherwise it returns Err, and it never panics.", "quantifier": "every JSON value", "why_tests_cant": "all JSON values", "anchors": ["src/tool/serde_ast/mod.rs: parse_rule, parse_terminal"]}
{"id": "C21", "title": "Escaping for the HTML drawing is lossless", "statement": "Reading back, as a JavaScript template literal, the text ASTDrawer escapes gives the original string, whatever it contains.", "quantifier": "every string", "why_tests_cant": "only particular character sequences break it", "anchors": ["src/tool/gui/ast_drawer.rs: ASTDrawer::escape"]}
{"id": "C22", "title": "The drawn script denotes the tree", "statement": "The JavaScript value dumped for a tree, read as JavaScript, is the object with the tree's names, ids, texts and nesting.", "quantifier": "every tree", "why_tests_cant": "all trees and strings", "anchors": ["src/tool/gui/ast_drawer.rs: ASTDrawer::dump"]}
{"id": "C23", "title": "FIRST computation terminates and does not panic on closed grammars", "statement": "first_set terminates for every grammar and every iteration order of the production set; it panics exactly when some production mentions a nonterminal missing from the vocabulary in a position it inspects, and never when all are defined.", "quantifier": "every grammar and every hash iteration order", "why_tests_cant": "termination over all grammars and hash orders", "anchors": ["src/tool/grammar/mod.rs: Grammar::first_set, get_first_set_for_non_epsilon_rule"]}
{"id": "C24", "title": "FIRST sets are exact", "statement": "For every nonterminal A, first_set reports terminal t iff A derives a sentential form beginning with t, and allows epsilon iff A derives the empty string, independently of the iteration order.", "quantifier": "every grammar, nonterminal, terminal and hash iteration order", "why_tests_cant": "all grammars; fixpoint errors show only on particular recursive grammars and orders", "anchors": ["src/tool/grammar/mod.rs: Grammar::first_set"]}
{"id": "C25", "title": "FIRST sets of productions are exact", "statement": "The per-production result of first_set contains exactly the terminals that begin a sentential form derivable from the production's right-hand side, and its epsilon flag holds iff the right-hand side derives the empty string.", "quantifier": "every grammar and production", "why_tests_cant": "all grammars", "anchors": ["src/tool/grammar/mod.rs: Grammar::first_set, get_first_set_for_non_epsilon_rule, get_first_for_string"]}
{"id": "C26", "title": "FOLLOW computation terminates and is exact", "statement": "follow_set terminates for every grammar whose nonterminals are all defined and include 0, for every iteration order, and reports t for A iff t can stand directly after A in a sentential form derived from some nonterminal, or t is _STOP and A can end a sentential form derived from the start rule 0.", "quantifier": "every grammar and hash iteration order", "why_tests_cant": "all grammars and orders", "anchors": ["src/tool/grammar/mod.rs: Grammar::follow_set, get_first_for_string"]}
{"id": "C27", "title": "FOLLOW is the textbook FOLLOW", "statement": "follow_set reports t for A iff t can follow A in a sentential form derived from the start rule (or A can end one and t is _STOP).", "quantifier": "every grammar", "why_tests_cant": "grammars with unreachable rules are needed to tell the difference", "anchors": ["src/tool/grammar/mod.rs: Grammar::follow_set"]}
{"id": "C28", "title": "The LL(1) table contains exactly the predicted productions", "statement": "ll1_table has an entry for (A,t) iff some production A -> x has t in FIRST(x), or x derives the empty string and t is in FOLLOW(A); the entry is such a production of the grammar.", "quantifier": "every grammar and iteration order", "why_tests_cant": "all grammars", "anchors": ["src/tool/grammar/mod.rs: Grammar::ll1_table"]}
{"id": "C29", "title": "Conflict warnings are printed exactly for non-LL(1) grammars", "statement": "ll1_table prints no conflict line iff the grammar is LL(1), i.e. no two different productions of one nonterminal predict the same token.", "quantifier": "every grammar and iteration order", "why_tests_cant": "both directions over all grammars", "anchors": ["src/tool/grammar/mod.rs: Grammar::ll1_table"]}
{"id": "C30", "title": "The table does not depend on hash iteration order", "statement": "Two runs of the analysis on the same grammar, with different iteration orders of the hash sets, produce the same table.", "quantifier": "every grammar and pair of iteration orders", "why_tests_cant": "hash seeds are random per process; a test sees one", "anchors": ["src/tool/grammar/mod.rs: Grammar::ll1_table"]}
{"id": "C31", "title": "x+ is usable in an LL(1) grammar", "statement": "A grammar written with x+ gives a conflict-free table when the grammar is otherwise LL(1).", "quantifier": "every grammar using +", "why_tests_cant": "all grammars", "anchors": ["src/tool/visitor/grammar_visitor.rs: ProductionVisitor::visit_element (plus)", "src/tool/grammar/mod.rs: Grammar::ll1_table"]}
{"id": "C32", "title": "Whatever the parser returns without complaint is a derivation", "statement": "If parsing rule A from token i returns a tree and cursor j and reports no mismatch, then i<=j, A derives the token types of tokens[i..j] in the grammar the table was built from, and the tree is that derivation with unnamed (generated) nonterminals flattened: named rules nested, leaves the tokens i..j-1 in order.", "quantifier": "every grammar, table over its productions, token list, rule and position", "why_tests_cant": "all grammars and inputs", "anchors": ["src/tool/parser/ll1_parser.rs: LL1Parser::parse_ast", "src/tool/v1/syntaxis_parser.rs: SyntaxisParser::parse_ast"]}
{"id": "C33", "title": "Every sentence of an LL(1) grammar is parsed to its tree", "statement": "If the grammar is LL(1), then for every sentence of the start rule followed by _STOP the parser, run with the table computed from the grammar, returns the sentence's parse tree, consumes exactly the sentence, reports no mismatch and does not panic.", "quantifier": "every LL(1) grammar, every sentence, every hash iteration order", "why_tests_cant": "all grammars and sentences", "anchors": ["src/tool/parser/ll1_parser.rs: LL1Parser::{parse,parse_ast}", "src/tool/v1/syntaxis_parser.rs: SyntaxisParser::{parse,parse_ast}", "src/tool/grammar/mod.rs: Grammar::{first_set,follow_set,ll1_table}"]}
{"id": "C34", "title": "Parsing terminates on every input when the table has no conflict", "statement": "With the table of a grammar for which no conflict was reported, the parser terminates (with a tree or a panic) on every token list, valid or not, starting from any rule and position.", "quantifier": "every conflict-free grammar and every token list", "why_tests_cant": "non-termination on all inputs", "anchors": ["src/tool/parser/ll1_parser.rs: LL1Parser::parse_ast", "src/tool/v1/syntaxis_parser.rs: SyntaxisParser::parse_ast"]}
{"id": "C35", "title": "Parsing always terminates", "statement": "The parser terminates on every grammar and input, also when the table has conflicts.", "quantifier": "every grammar and input", "why_tests_cant": "non-termination is not observable by a test", "anchors": ["src/tool/parser/ll1_parser.rs: LL1Parser::parse_ast", "src/tool/v1/syntaxis_parser.rs: SyntaxisParser::parse_ast"]}
{"id": "C36", "title": "Only sentences are accepted", "statement": "If parse returns a tree then the token list is a sentence of the grammar followed by _STOP.", "quantifier": "every grammar and token list", "why_tests_cant": "all non-sentences", "anchors": ["src/tool/parser/ll1_parser.rs: LL1Parser::{parse,parse_ast}", "src/tool/v1/syntaxis_parser.rs: SyntaxisParser::{parse,parse_ast}"]}
{"id": "C37", "title": "The tree contains the consumed tokens, in order, and only named rules", "statement": "Whether or not a mismatch was reported, the leaves of a returned tree are exactly the tokens from the start cursor to the returned cursor, in order, every inner node is a nonterminal with a name and carries that name, and there is no error node.", "quantifier": "every grammar, table, vocabulary and token list", "why_tests_cant": "all inputs, including erroneous ones", "anchors": ["src/tool/parser/ll1_parser.rs: LL1Parser::parse_ast", "src/tool/v1/syntaxis_parser.rs: SyntaxisParser::parse_ast"]}
{"id": "C38", "title": "An LL(1) grammar gives each sentence one tree", "statement": "If no conflict is reported, every sentence has exactly one parse tree.", "quantifier": "every LL(1) grammar and sentence", "why_tests_cant": "all grammars", "anchors": ["src/tool/grammar/mod.rs: Grammar::ll1_table", "src/tool/parser/ll1_parser.rs: LL1Parser::parse"]}
{"id": "C39", "title": "Generated lexer numbering agrees with the vocabulary", "statement": "After the symbol pass over any tree, the i-th lexer rule has token type first+i, the vocabulary maps its name to that type and back, and names are distinct; hence the type a generated lexer gives to the token of its i-th regex is the vocabulary's id of the rule's name.", "quantifier": "every syntax tree, including duplicate definitions", "why_tests_cant": "all trees", "anchors": ["src/tool/visitor/grammar_visitor.rs: SymbolVisitor::visit_lexer_rule", "src/tool/visitor/lexer_rule_visitor.rs: LexerRuleVisitor::visit_lexer_rule", "src/tool/templates/target/rust/lexer.tera: token constants, regex_list, token_names"]}
{"id": "C40", "title": "Translating EBNF to productions preserves the language", "statement": "For a grammar without string literals whose suffix operators never hit the same numeric id as a token and as a rule, each rule derives in the generated productions exactly the token sequences its EBNF definition matches ( * + ? groups, alternatives, epsilon, repeated definitions).", "quantifier": "every EBNF grammar of any nesting, every rule, every token sequence", "why_tests_cant": "all grammars and sentences", "anchors": ["src/tool/visitor/grammar_visitor.rs: ProductionVisitor::{visit_parser_rule,visit_alternative,visit_element,visit_block}"]}
{"id": "C41", "title": "Translating EBNF to productions preserves the language of every grammar", "statement": "The same without the restriction on numeric ids.", "quantifier": "every EBNF grammar", "why_tests_cant": "needs a token and a rule whose numeric ids coincide under the same suffix", "anchors": ["src/tool/visitor/grammar_visitor.rs: ProductionVisitor::visit_element (star_cache, plus_cache, question_cache)"]}
{"id": "C42", "title": "Building a grammar panics exactly on undefined references or string literals", "statement": "The three passes of load_ast on the tree of a grammar succeed iff every token and rule mentioned in a parser rule is defined by a lexer/parser rule and no parser rule contains a string literal.", "quantifier": "every grammar", "why_tests_cant": "all grammars and reference patterns", "anchors": ["src/main.rs: load_ast", "src/tool/visitor/grammar_visitor.rs: StringLiteralToTokenVisitor, SymbolVisitor, ProductionVisitor"]}
{"id": "C43", "title": "A built grammar is closed", "statement": "In every grammar built by load_ast all production symbols are defined in the vocabulary, rule ids of different names differ, and generated nonterminals are unnamed and distinct from all named ones; hence first_set, ll1_table and Display never panic on it, nor follow_set when it has a rule.", "quantifier": "every tree on which load_ast succeeds", "why_tests_cant": "all trees", "anchors": ["src/main.rs: load_ast", "src/tool/visitor/grammar_visitor.rs: SymbolVisitor, ProductionVisitor", "src/tool/grammar/mod.rs: Grammar"]}
{"id": "C44", "title": "The shipped grammar is LL(1) and its parser accepts the whole grammar language", "statement": "The grammar loaded from syntaxis2.json is closed and LL(1); with it the generated parser returns, for every grammar written in the grammar language (printed with blanks between tokens), the syntax tree of that grammar, for every hash iteration order.", "quantifier": "every grammar text of that form", "why_tests_cant": "all grammars of any size and nesting", "anchors": ["src/tool/syntaxis/syntaxis2.json", "src/main.rs: main, load_ast", "src/tool/v1/syntaxis_parser.rs: SyntaxisParser::parse", "src/tool/v1/syntaxis_lexer.rs: SyntaxisLexer"]}
{"id": "C45", "title": "Trees of the generated parser can be fed to the grammar visitors", "statement": "The tree the generated (v1) parser returns for a grammar text can be processed by the accessors and visitors its context types name, closing the bootstrap loop.", "quantifier": "every grammar text", "why_tests_cant": "all grammar texts", "anchors": ["src/tool/v1/syntaxis_parser.rs: SyntaxisParser::{rule_list,parse}", "src/tool/syntaxis/syntaxis_context.rs: accessors", "src/tool/visitor/grammar_visitor.rs: visitors"]}
{"id": "C46", "title": "A printed grammar determines its productions", "statement": "Display of two grammars over the same vocabulary is equal only if they have the same productions.", "quantifier": "every pair of grammars", "why_tests_cant": "all pairs", "anchors": ["src/tool/grammar/mod.rs: Display for Grammar"]}
{"id": "C47", "title": "Regex literals are unwrapped exactly", "statement": "A lexer rule /r/ contributes the regex ^(r') where r' is r with each \\/ replaced by /, and literals shorter than two bytes are rejected.", "quantifier": "every regular literal", "why_tests_cant": "all literals", "anchors": ["src/tool/visitor/grammar_visitor.rs: SymbolVisitor::visit_lexer_rule", "src/tool/visitor/lexer_rule_visitor.rs: LexerRuleVisitor::visit_lexer_rule"]}
{"id": "C48", "title": "Lexer-rule and string-literal collection number tokens without gaps", "statement": "LexerRuleVisitor and StringLiteralVisitor give the i-th collected entry type start+i, collect each distinct name/literal once, in order of first occurrence, and skip nothing else.", "quantifier": "every tree", "why_tests_cant": "all trees", "anchors": ["src/tool/visitor/lexer_rule_visitor.rs: LexerRuleVisitor, StringLiteralVisitor"]}
{"id": "C49", "title": "Drawn trees stay inside their script element", "statement": "The text of the page's HTML script element is the script ASTDrawer puts into the page followed by the page's own program: whatever the tokens' texts are, they neither end the element early nor keep its end tag from ending it.", "quantifier": "every tree", "why_tests_cant": "all token texts", "anchors": ["src/tool/gui/ast_drawer.rs: ASTDrawer::{draw,dump}", "src/tool/gui/ast.html"]}
{"id": "C50", "title": "The committed lexer is the one generated from the shipped grammar", "statement": "Instantiating the lexer template with the lexer rules load_ast collects from syntaxis2.json gives the constants, regexes and token names of the committed v1 lexer, so both lexers behave alike on every input.", "quantifier": "every input text", "why_tests_cant": "all inputs", "anchors": ["src/tool/syntaxis/syntaxis2.json", "src/tool/templates/target/rust/lexer.tera", "src/tool/v1/syntaxis_lexer.rs: SyntaxisLexer::new", "src/tool/visitor/grammar_visitor.rs: SymbolVisitor"]}
{"id": "C51", "title": "Parsed trees are the trees the grammar text prescribes", "statement": "For a loaded grammar (references defined, no clash of the numeric ids used as cache keys), the parse trees of a rule over the generated productions are exactly the trees its EBNF definition prescribes: one leaf per token reference, one node with the rule's name and id per rule reference, groups and repetitions spliced in place; and whatever table of productions it is given, a tree the parser returns without a mismatch is one of these.", "quantifier": "every grammar, rule, token sequence and tree", "why_tests_cant": "all grammars, nested groups and suffixes, all trees", "anchors": ["src/tool/visitor/grammar_visitor.rs: ProductionVisitor", "src/tool/v1/syntaxis_parser.rs: parse_ast", "src/tool/grammar/mod.rs: Grammar"]}
{"id": "C52", "title": "The parser of a loaded LL(1) grammar accepts exactly the sentences of the written grammar", "statement": "If ll1_table reports no conflict for a loaded grammar, parsing the leaves of a tree of the first rule followed by _STOP returns that very tree without a mismatch; conversely a tree returned without a mismatch is a tree of the written grammar over the first tokens; so that tree is unique.", "quantifier": "every grammar, token list and hash iteration order", "why_tests_cant": "all grammars and inputs", "anchors": ["src/tool/visitor/grammar_visitor.rs: ProductionVisitor", "src/tool/v1/syntaxis_parser.rs: parse_ast, parse", "src/tool/grammar/mod.rs: ll1_table"]}
{"id": "C53", "title": "Every entry point of the generated parser parses a sentence of its own rule", "statement": "Calling SyntaxisParser::{rule_list, parser_rule, block, alternative, epsilon, element, ebnf_suffix, lexer_rule, regular} on the tokens of a sentence of that rule followed by _STOP returns the tree of the sentence.", "quantifier": "every entry point, sentence and continuation", "why_tests_cant": "all sentences of nine rules", "anchors": ["src/tool/v1/syntaxis_parser.rs: rule_list, parser_rule, block, alternative, epsilon, element, ebnf_suffix, lexer_rule, regular", "src/tool/v1/syntaxis_parser.rs: parse_ast"]}
{"id": "C54", "title": "Overrides that call visit_children keep the traversal going", "statement": "A visitor whose rule methods do something, call self.visit_children(ctx), and do something else sees every node and leaf in document order, exactly like a listener under the walker; visitors whose methods only visit nodes below their own terminate.", "quantifier": "every listener, visitor and tree", "why_tests_cant": "all visitors, all trees", "anchors": ["src/tool/syntaxis/syntaxis_visitor.rs: SyntaxisVisitor::{visit,visit_children}", "src/tool/syntaxis/syntaxis_walker.rs: walk", "src/tool/syntaxis/syntaxis_listener.rs: SyntaxisListener"]}
{"id": "C55", "title": "A displayed tree shows its structure", "statement": "If two syntax trees display as the same text, they have the same nesting, the same rule names and the same token names.", "quantifier": "every pair of trees", "why_tests_cant": "all pairs of trees", "anchors": ["src/runtime/ast/rule_context.rs: Display for RuleContext", "src/runtime/ast/ast_context.rs: Display", "src/runtime/ast/terminal_context.rs: Display", "src/runtime/ast/error_context.rs: Display"]}
{"id": "C56", "title": "A displayed token shows all its fields", "statement": "If two tokens display as the same text, they agree in type, name, text, positions and indices (the channel is not displayed).", "quantifier": "every pair of tokens", "why_tests_cant": "all texts and names", "anchors": ["src/runtime/token.rs: Display for Token, Display for Position"]}
{"id": "C57", "title": "The regex of a string literal matches exactly its text", "statement": "The lexer rule StringLiteralVisitor collects for a string literal matches a text exactly when it starts with the text the literal stands for (escapes resolved), and then exactly that prefix.", "quantifier": "every literal and text", "why_tests_cant": "all literals and texts", "anchors": ["src/tool/visitor/lexer_rule_visitor.rs: StringLiteralVisitor::visit_terminal"]}
{"id": "C58", "title": "What main writes does not depend on hashing", "statement": "Whatever the (randomised) iteration order of the hash sets, main writes the same page for the same text, or panics for all; for its own text it writes exactly the committed parser2.html.", "quantifier": "every input text and every hash iteration order", "why_tests_cant": "all texts, all hash seeds", "anchors": ["src/main.rs: main", "parser2.html", "src/tool/gui/ast_drawer.rs: ASTDrawer::draw"]}
{"id": "C59", "title": "A drawn page shows the given name and tree", "statement": "In the page ASTDrawer::draw writes, the title element contains the given name and the module script defines ast as the object of the given tree, followed by a program that depends on neither; for main: the tree of the grammar text.", "quantifier": "every name, tree and grammar text", "why_tests_cant": "all names, trees and texts", "anchors": ["src/tool/gui/ast_drawer.rs: ASTDrawer::draw", "src/tool/templates/gui/ast.html", "src/main.rs: main"]}
{"id": "C60", "title": "Generated lexer source carries exactly the collected tokens", "statement": "For every grammar that loads, the Rust source rendered from lexer.tera is lexically well-formed and contains, apart from parts depending on the lexer's name only, exactly one constant, one Regex::new of a string denoting the regex, and one name per collected token, in order; for the committed grammar it is the committed lexer.rs.", "quantifier": "every lexer name and token list", "why_tests_cant": "all names, regexes and token lists", "anchors": ["src/tool/templates/target/rust/lexer.tera", "tests/lexer_gen.rs: gen_lexer", "tests/lexer_generate/lexer.rs", "src/tool/visitor/lexer_rule_visitor.rs: LexerRuleData"]}
{"id": "C61", "title": "Generated lexer source refers only to constants it declares", "statement": "Every constant the generated source refers to through the lexer's own type is declared in it, so it compiles.", "quantifier": "every lexer name and token list", "why_tests_cant": "all grammars", "anchors": ["src/tool/templates/target/rust/lexer.tera", "tests/lexer_gen.rs: gen_lexer"]}
{"id": "C62", "title": "Exactly the JSON texts of trees are accepted", "statement": "serde_ast::from_str and from_reader return a tree exactly when the text is a JSON document (RFC 8259, nested at most 127 deep) whose value describes the tree, and Err otherwise; they never panic. The committed syntaxis2.json, as a text, gives the grammar the tools work with.", "quantifier": "every text", "why_tests_cant": "all texts", "anchors": ["src/tool/serde_ast/mod.rs: from_str, from_reader", "src/tool/syntaxis/syntaxis2.json"]}
{"id": "C63", "title": "A tree written as JSON text reads back", "statement": "Every tree's JSON description, written as a text in any layout, reads back as the tree (positions aside).", "quantifier": "every tree and layout", "why_tests_cant": "all trees, depths and layouts", "anchors": ["src/tool/serde_ast/mod.rs: from_str, from_reader"]}
{"id": "C64", "title": "accept, enter and exit of the contexts", "statement": "accept of a context's trait runs the visitor method of that trait (so visitor.visit when the node is of that rule), enter and exit are the calls the walker makes for the node; load_ast depends on neither the name nor the rule index of the root it is given.", "quantifier": "every node, visitor and listener", "why_tests_cant": "all trees, visitors and listeners", "anchors": ["src/tool/syntaxis/syntaxis_context.rs: accept, enter, exit", "src/tool/v1/syntaxis_context.rs: accept", "src/main.rs: load_ast"]}
{"id": "C65", "title": "Numbers stay within the sizes of the data", "statement": "Cursors, offsets, indices, lines and columns of scanned tokens are bounded by the bytes of the input (plus 10), token types by the number of regexes, identifiers made by load_ast by the number of nodes of the tree, parser cursors by the number of tokens: usize arithmetic cannot overflow.", "quantifier": "every input, regex list, tree, table and token list", "why_tests_cant": "all inputs, whatever their size", "anchors": ["src/tool/v1/syntaxis_lexer.rs: scan", "src/tool/templates/target/rust/lexer.tera", "src/tool/syntaxis/syntaxis_lexer.rs: scan", "src/tool/visitor/grammar_visitor.rs: SymbolVisitor, ProductionVisitor", "src/tool/parser/ll1_parser.rs: parse_ast"]}
{"id": "C66", "title": "The parser's recursion depth is linear in the input", "statement": "With a conflict-free table, or a grammar without left recursion, parse_ast on n tokens never nests deeper than n times (rules + 1) calls plus one, and the tree it returns is no deeper.", "quantifier": "every closed grammar, iteration order, token list and position", "why_tests_cant": "all grammars and inputs, whatever their size", "anchors": ["src/tool/parser/ll1_parser.rs: parse_ast", "src/tool/grammar/mod.rs: Grammar::ll1_table"]}
{"id": "C67", "title": "Reported mismatches are genuine", "statement": "Each mismatch the parser prints is about a token whose type differs from the expected one; up to the first one the input is the beginning of something the grammar derives and the expected token could stand there; replacing the reported tokens by the expected ones makes the consumed tokens a sentence; a sentence gets no report.", "quantifier": "every closed grammar, iteration order and token list", "why_tests_cant": "all grammars and inputs", "anchors": ["src/tool/parser/ll1_parser.rs: parse_ast", "src/tool/v1/syntaxis_parser.rs: parse_ast"]}
{"id": "C68", "title": "The hand-written lexer reads exactly what is written", "statement": "On every text the hand-written lexer returns exactly the tokens a reader of the text would find, in order, skipping blanks, line comments and block comments, and prints exactly the part from which nothing can be read; a line comment ended by the end of the text is not skipped.", "quantifier": "every text", "why_tests_cant": "all texts", "anchors": ["src/tool/syntaxis/syntaxis_lexer.rs: new, scan, scan_all_on_channel_tokens"]}
{"id": "C69", "title": "The runs recorded in the tests are reproduced", "statement": "For the grammar file syntaxis.json, load_ast gives the productions recorded in the comments of the tests (generated rule numbers included), first_set and follow_set give the recorded sets in every iteration order, and ll1_table prints exactly four conflicts, all between the two productions generated for element+.", "quantifier": "every iteration order of the hash sets", "why_tests_cant": "each run has one of the 30! orders of the productions", "anchors": ["tests/grammar_test.rs", "tests/first_set_test.rs", "tests/follow_set_test.rs", "src/tool/syntaxis/syntaxis.json", "src/tool/grammar/mod.rs: first_set, follow_set, ll1_table", "src/main.rs: load_ast"]}
{"id": "C70", "title": "Reported conflicts are about the grammar as written", "statement": "ll1_table reports nothing for a loaded grammar exactly when, in the grammar as it is written (groups and suffixes, no generated rules), one token of lookahead settles every choice between alternatives and every decision to go on in x* and x?, and the operand of each x+ can begin with no token; a grammar that is LL(1) in the sense of the textbook gets no report once each x+ is written (x x*), and then matches the same.", "quantifier": "every grammar without clashing numbers (C40), every iteration order", "why_tests_cant": "all grammars; the reported productions mention generated rule numbers the user never wrote", "anchors": ["src/tool/grammar/mod.rs: Grammar::ll1_table", "src/tool/visitor/grammar_visitor.rs: ProductionVisitor", "src/main.rs: load_ast"]}
{"id": "C71", "title": "The outline of the drawn page shows what is unfolded", "statement": "In the page the drawer writes, after any sequence of clicks (also during transitions), the outline on the left shows exactly the nodes with no folded node above them, each once, one row per node in document order, indented by depth, with its name, and connected to its parent; clicking a node twice restores the outline; initially everything is shown; once the transitions end nothing else is left in the outline.", "quantifier": "every tree, every sequence of events, every progress of the transitions", "why_tests_cant": "all trees and interleavings of clicks and animations; a browser is needed to run it", "anchors": ["src/tool/templates/gui/ast.html: indentTree, update", "src/tool/gui/ast_drawer.rs: build"]}
{"id": "C72", "title": "The tree pane shows the selected node, folded and laid out as chosen", "statement": "The main pane of the page shows the node whose name was clicked last in the outline (the whole tree at first), in the layout and spacing chosen, with exactly the nodes without folded node above them (folding is forgotten when the tree is drawn anew), links to parents, and a view box that contains all nodes; a rule is labelled with its name, a token with its text; the button names the layout that is not in use.", "quantifier": "every tree, layout function and sequence of events", "why_tests_cant": "all trees, layouts and interleavings", "anchors": ["src/tool/templates/gui/ast.html: collapsibleTree, update, render", "src/tool/gui/ast_drawer.rs: build"]}
{"id": "C73", "title": "Zoom, drag and reset of the page", "statement": "The scale stays between 0.05 and 4 and is changed by the wheel only (and set to 1 by reset and redrawing); while the main button is pressed the tree follows the pointer exactly, whatever happens on the way; after release it stays; reset and redrawing put it back to its origin; the style shown always agrees with the state.", "quantifier": "every tree, rounding of the scale and sequence of events", "why_tests_cant": "all sequences of events", "anchors": ["src/tool/templates/gui/ast.html: bindEvents, reset, render"]}
{"id": "C74", "title": "A regex in a grammar ends at its first slash that is not escaped", "statement": "A text whose author writes regexes between slashes, a backslash escaping the character behind it, is scanned to exactly the tokens written. (False: a regex that ends in an escaped backslash, such as /\\\\/, runs on to a later slash. True exactly when no regex ending in a backslash has a slash in any token behind it.)", "quantifier": "every text, every following text", "why_tests_cant": "all texts; depends on what comes arbitrarily far behind the regex", "anchors": ["src/tool/v1/syntaxis_lexer.rs: SyntaxisLexer::new (REGULAR_LITERAL), scan"]}
{"id": "C75", "title": "Every name is scanned as one token", "statement": "A letter followed by letters, digits and underscores is scanned as one RULE_REF or TOKEN_REF with that text. (False for names of a single letter; true exactly for names of two characters or more; otherwise scanning stops and prints the rest.)", "quantifier": "every name", "why_tests_cant": "all names", "anchors": ["src/tool/v1/syntaxis_lexer.rs: SyntaxisLexer::new (RULE_REF, TOKEN_REF), scan"]}
{"id": "C76", "title": "The example visitor and listener of the tests see every node", "statement": "FooBaseVisitor prints the first number of every expression that has one, in document order and at every depth; FooBaseListener announces exactly the statements and expressions, properly nested, so that two trees get the same announcements exactly when they nest statements and expressions the same way.", "quantifier": "every tree", "why_tests_cant": "all trees", "anchors": ["tests/foo/foo_visitor.rs: FooVisitor, FooBaseVisitor", "tests/foo/foo_listener.rs: FooListener, FooBaseListener", "tests/foo/foo_walker.rs: FooWalker::walk", "tests/foo_test.rs: test_foo"]}
{"id": "C77", "title": "A token carries the name of its type", "statement": "The token_name of every scanned token is the name of the constant with the number token_type. (True of the generated lexer; false of the hand-written one for exactly one token type: the question mark is named QUEStION.)", "quantifier": "every text, every scanned token", "why_tests_cant": "all texts", "anchors": ["src/tool/v1/syntaxis_lexer.rs: token_names", "src/tool/syntaxis/syntaxis_lexer.rs: token_names"]}
{"id": "C78", "title": "A string literal in a grammar is scanned as one token", "statement": "Text between quotes, a backslash escaping the character behind it, is scanned as one STRING_LITERAL token with that text, whatever follows. (False, e.g. for '\\('; true exactly when there are no control characters 7 and 9 to 13 in it and every backslash starts one of the escapes the language knows. Otherwise the scan stops at the opening quote and prints everything from there on.)", "quantifier": "every literal, every following text", "why_tests_cant": "all literals and all continuations", "anchors": ["src/tool/v1/syntaxis_lexer.rs: SyntaxisLexer::new (STRING_LITERAL), scan"]}
{"id": "C79", "title": "The file draw writes is the page", "statement": "When ASTDrawer::draw returns, the named file holds the bytes of the page and no other file has changed; main leaves exactly the committed parser2.html behind (parser_test the same page, gen_lexer the committed lexer.rs), whatever the iteration order of the hash sets. (False where the system takes only part of the bytes: the single write is not repeated and its count is dropped, so draw returns with a file cut short. True exactly when all bytes are taken; a failing write leaves the old file empty.)", "quantifier": "every tree, name, disk and answer of the operating system that obeys the contract of write", "why_tests_cant": "short writes cannot be provoked in a test", "anchors": ["src/tool/gui/ast_drawer.rs: draw", "src/main.rs: main, load_ast", "tests/lexer_gen.rs: gen_lexer", "tests/parser_test.rs: parser_test", "tests/load_ast_and_draw_test.rs: load_ast_and_draw"]}
{"id": "C80", "title": "Reading a tree from bytes", "statement": "serde_ast::from_reader accepts exactly the UTF-8 bytes of the texts from_str accepts, with the same tree, and gives Err for all other bytes (overlong forms, surrogates, cut characters, a byte order mark); it never panics; a file cut short is refused, unless only blanks were cut off.", "quantifier": "every sequence of bytes", "why_tests_cant": "all byte sequences", "anchors": ["src/tool/serde_ast/mod.rs: from_reader, from_str"]}
{"id": "C81", "title": "Loading a grammar reports every duplicate definition", "statement": "Loading prints one line for every token, rule or alternative that is defined a second time (and for a regular literal that is too short), and nothing for a grammar without duplicates; what it prints does not change what it returns. (False of rules: a rule defined twice is never reported, because the name is looked up among the tokens. False under number collisions: X* | c* can be reported as a duplicate. Otherwise exact: the lines printed are the ones read off the grammar as it is written.)", "quantifier": "every tree, every grammar", "why_tests_cant": "all grammars; depends on sharing between groups anywhere in the grammar", "anchors": ["src/tool/visitor/grammar_visitor.rs: SymbolVisitor::visit_lexer_rule, visit_parser_rule, ProductionVisitor::visit_parser_rule, visit_block", "src/tool/visitor/lexer_rule_visitor.rs: LexerRuleVisitor::visit_lexer_rule", "src/main.rs: load_ast"]}
{"id": "C82", "title": "The standard output of main", "statement": "main prints the report on the grammar file, the conflicts, the text the lexer could not read and one line for each mismatch, in this order; two different conflicts are printed differently; with the shipped grammar file, whatever the iteration order of the hash sets, it runs to its end without printing anything exactly on the texts that write a grammar.", "quantifier": "every grammar file, text and iteration order", "why_tests_cant": "all texts and iteration orders", "anchors": ["src/main.rs: main, load_ast", "src/tool/grammar/mod.rs: ll1_table, Production (Debug)", "src/tool/v1/syntaxis_lexer.rs: scan_all_on_channel_tokens", "src/tool/v1/syntaxis_parser.rs: parse"]}
{"id": "C83", "title": "Groups and suffixes are rewritten as documented", "statement": "The productions of a loaded grammar are exactly the ones the comments of the grammar announce: the alternatives of the rules and of the groups, T1 -> T T1 | ε for T*, T2 -> T T2 | T for T+, T3 -> T | ε for T?, with one nameless nonterminal for each group and suffixed operand (lazy marks ignored) and no other nonterminals than these and the rules. (False when a token and a rule or group with the same number both carry a suffix: they share one nonterminal. True otherwise; for all grammars exactly the rewriting in which an operand is replaced by the first one with the same suffix and number.)", "quantifier": "every grammar that loads", "why_tests_cant": "all grammars, nested to any depth, and all ways numbers can clash", "anchors": ["src/tool/visitor/grammar_visitor.rs: ProductionVisitor", "src/tool/syntaxis/syntaxis.g4", "src/main.rs: load_ast"]}
{"id": "C84", "title": "Loading depends on the grammar only", "statement": "Two texts of the same grammar (other blanks, comments, lazy marks, spelling of the colon and of ε) load to the same vocabulary, productions and lexer rules with the same lines printed, or both panic after the same lines; so do two trees of the same grammar.", "quantifier": "every pair of trees or texts of the same grammar", "why_tests_cant": "all pairs", "anchors": ["src/main.rs: load_ast", "src/tool/visitor/grammar_visitor.rs: SymbolVisitor, StringLiteralToTokenVisitor, ProductionVisitor", "src/tool/visitor/lexer_rule_visitor.rs: LexerRuleVisitor, StringLiteralVisitor"]}
{"id": "C85", "title": "The tool chain works for any grammar", "statement": "With the lexer generated for a grammar and the table built from it, main parses texts of that grammar: the text is cut into the longest matches of the lexer rules (the first rule on ties, WHITE_SPACE dropped), and for an LL(1) grammar it is parsed without any report, to a tree of the first rule with exactly the visible tokens as leaves, exactly when the grammar as it is written allows these tokens; a conflict is reported exactly when the grammar is not LL(1), text left over exactly when the lexer rules do not cut all of it.", "quantifier": "every grammar that loads without number collisions, every text, every regex engine, every iteration order", "why_tests_cant": "all grammars and all texts", "anchors": ["src/main.rs: main, load_ast", "src/tool/templates/target/rust/lexer.tera", "src/tool/visitor/grammar_visitor.rs: ProductionVisitor", "src/tool/visitor/lexer_rule_visitor.rs: LexerRuleVisitor", "src/tool/grammar/mod.rs: first_set, follow_set, ll1_table", "src/tool/v1/syntaxis_parser.rs: parse"]}
{"id": "C86", "title": "The first report is at the first token that cannot stand there", "statement": "With a table without conflicts: as long as the tokens read begin some sentence followed by the end of input there is no report about them, and no sentence begins with the tokens up to and including the first reported one; the reported type could stand there instead. Through the whole tool chain: the first report is at the first token that the grammar as it is written does not allow after the ones before it, and the expected type is the one of a token it allows there.", "quantifier": "every LL(1) grammar and token list; every text of every loaded grammar without number collisions", "why_tests_cant": "all token lists and all continuations", "anchors": ["src/tool/parser/ll1_parser.rs: parse_ast", "src/tool/v1/syntaxis_parser.rs: parse_ast", "src/tool/grammar/mod.rs: ll1_table", "src/main.rs: main"]}
{"id": "C87", "title": "Wrong input is noticed at the first wrong token, also when the parser panics", "statement": "With a table without conflicts the parser ends or panics on every token list. The first sign of trouble (a printed line, or the panic if nothing was printed before) is at the first token that no sentence has there: all tokens before it begin a sentence followed by the end of input, with it they do not. Through the whole tool chain the same holds of the grammar as it is written, also for the tokens before text that no lexer rule matches (with number collisions: of the grammar read by numbers); without any sign a beginning of the input is a word of the grammar, and a word of the grammar gives none. For main with the committed grammar: no sign if and only if the input writes a grammar.", "quantifier": "every LL(1) grammar and token list; every text (also one the lexer rules cut only in part) of every grammar that loads; every input of main", "why_tests_cant": "all token lists and all continuations", "anchors": ["src/tool/parser/ll1_parser.rs: parse_ast", "src/tool/v1/syntaxis_parser.rs: parse_ast", "src/tool/grammar/mod.rs: ll1_table", "src/main.rs: main"]}
{"id": "C88", "title": "The whole effect of main, also when it panics", "statement": "With the committed grammar file on the disk and a system without faults, main ends on every input, with the same effect whatever the iteration order of the hash sets: it prints the text the lexer could not read and one line for each mismatch, then either panics leaving the disk as it was, or writes the page of a tree to parser2.html and changes nothing else. It prints nothing and writes the page of the grammar's own tree when the input writes a grammar, and ends normally without a mismatch only then. With another grammar file: loading panics exactly when something is used that is not defined; before that every repeated token has been reported, unless there is a string literal outside of groups, which panics in silence.", "quantifier": "every input, disk and iteration order; every grammar file", "why_tests_cant": "all inputs; runs that panic have effects before the panic", "anchors": ["src/main.rs: main, load_ast", "src/tool/visitor/grammar_visitor.rs: SymbolVisitor, ProductionVisitor", "src/tool/gui/ast_drawer.rs: draw", "src/tool/v1/syntaxis_lexer.rs: scan_all_on_channel_tokens", "src/tool/v1/syntaxis_parser.rs: parse"]}
{"id": "C89", "title": "The typed accessors give back the whole tree", "statement": "In a tree parsed without a reported mismatch every node can be read with the accessors of its rule alone: the ones that return one child find it, the ones that return lists return all, no child is left out or returned twice, and the children stand in the order of the grammar (so the unwraps of a visitor on required children cannot fail). Conversely a tree of which this is true at every node is the tree of some grammar.", "quantifier": "every text main parses without a mismatch, every node; every tree", "why_tests_cant": "all trees", "anchors": ["src/tool/v1/syntaxis_context.rs: all accessors", "src/tool/syntaxis/syntaxis_context.rs: all accessors", "src/tool/v1/syntaxis_parser.rs: parse", "src/main.rs: main"]}
{"id": "C90", "title": "should_visit_next_child can stop the visit because of the result so far", "statement": "A visitor that overrides should_visit_next_child gets the result of the children so far, so it can stop as soon as a result satisfies it. (False of the code: the parameter is the box around the result, a downcast to the type of the result is always None and no such hook ever stops. True of hooks that first downcast to Box<dyn Any>.)", "quantifier": "every visitor, hook, tree", "why_tests_cant": "all hooks and trees", "anchors": ["src/tool/syntaxis/syntaxis_visitor.rs: visit_children, should_visit_next_child", "src/tool/v1/syntaxis_visitor.rs: visit_children, should_visit_next_child"]}
{"id": "C91", "title": "The work of the parser is linear in the length of the input", "statement": "For each grammar on which the parser always ends there is a constant such that the calls of parse_ast and the tree nodes it copies number at most that constant times the number of tokens plus one, whatever the tokens, also in runs that panic. (True of the calls. False of the copies: each level of a repetition clones the children of the level below, n(n+1)/2 copies for n tokens of s: A*; never more than quadratic, none if every nonterminal is named.)", "quantifier": "every grammar without conflicts or without left recursion, every token list", "why_tests_cant": "growth over all lengths of input", "anchors": ["src/tool/parser/ll1_parser.rs: parse_ast", "src/tool/v1/syntaxis_parser.rs: parse_ast", "src/runtime/ast/ast_context.rs: ASTContext (Clone)"]}
{"id": "C92", "title": "A lexer can be used piece by piece", "statement": "Calls of scan and scan_all_on_channel_tokens can be mixed in any order on one lexer: it never panics and hands out the tokens of its input once and in order. scan gives the next token, or an error when none is left; scan_all_on_channel_tokens takes all that are left, returns the visible ones of the channel and prints the text no rule matches, every time it is called.", "quantifier": "every lexer, input and sequence of calls", "why_tests_cant": "all sequences of calls", "anchors": ["src/tool/v1/syntaxis_lexer.rs: scan, scan_all_on_channel_tokens", "src/tool/syntaxis/syntaxis_lexer.rs: scan, scan_all_on_channel_tokens", "src/runtime/lexer.rs: Lexer", "src/tool/templates/target/rust/lexer.tera"]}
{"id": "C93", "title": "The order of the lexer rules decides ties only", "statement": "Putting the rules of a lexer in another order changes neither where the text is cut nor where it stops, panics or fails: every scan gives a token with the same text, positions, indices and channel, and the same next state. If rules with different names never tie for the longest match, the names are the same too, and scan_all_on_channel_tokens returns the same visible tokens (up to the type numbers) and prints the same. With ties the order decides the name.", "quantifier": "every lexer, every order of its rules, every input and state", "why_tests_cant": "all inputs and orders", "anchors": ["src/tool/v1/syntaxis_lexer.rs: scan, scan_all_on_channel_tokens", "src/tool/syntaxis/syntaxis_lexer.rs: scan", "src/tool/templates/target/rust/lexer.tera"]}
{"id": "C94", "title": "The parser looks at nothing but the types of the tokens", "statement": "Two token lists with the same types, whatever texts, names, positions and channels they carry, are parsed alike from every entry point: the same lines printed, a panic at the same place, or trees of the same shape whose leaves are the corresponding tokens. Renaming rules changes only the names in the nodes. So changing tokens without their types before parsing is the same as changing the leaves of the tree.", "quantifier": "every table, pair of token lists and pair of vocabularies that name the same rules", "why_tests_cant": "all token lists and tables", "anchors": ["src/tool/parser/ll1_parser.rs: parse, parse_ast", "src/tool/v1/syntaxis_parser.rs: parse, parse_ast, entry points"]}
{"id": "C95", "title": "Names are only names", "statement": "Renaming the rules and tokens of a grammar (different names staying different, _START and _STOP untouched) changes nothing but names: loading panics as before or gives the same productions, numbers and regexes with the new names; and for every text the tool chain reports the same conflicts, leaves the same text over, prints the same lines about tokens, panics at the same place or builds the same tree with the new names. A token called _STOP, however, is not loaded.", "quantifier": "every tree of a grammar, every injective renaming, every text, regex engine and iteration order", "why_tests_cant": "all grammars and renamings", "anchors": ["src/main.rs: load_ast, main", "src/tool/visitor/grammar_visitor.rs: SymbolVisitor, ProductionVisitor", "src/runtime/vocabulary.rs: Vocabulary", "src/tool/templates/target/rust/lexer.tera", "src/tool/parser/ll1_parser.rs: parse_ast"]}
{"id": "C96", "title": "Lexer rules and parser rules may be mixed in any way", "statement": "Two grammars with the same parser rules in the same order and the same lexer rules in the same order, mixed differently, load to the same vocabulary, productions, numbers and lexer rules, or both panic; so do two texts. (Trees that do not come from a text may give a parser rule the name of a token: such a rule is loaded before the token and not after it.)", "quantifier": "every pair of trees or texts of such grammars", "why_tests_cant": "all pairs", "anchors": ["src/main.rs: load_ast", "src/tool/visitor/grammar_visitor.rs: SymbolVisitor, StringLiteralToTokenVisitor, ProductionVisitor", "src/tool/visitor/lexer_rule_visitor.rs: LexerRuleVisitor, StringLiteralVisitor"]}
{"id": "C97", "title": "Rules added at the end of a grammar leave the old ones as they were", "statement": "Whatever rules are added at the end, every token and named rule keeps its number and the lexer rules their places, so generated constants stay valid. If only tokens are added, the grammar still loads, with the same productions, parsing table and conflicts, the new names numbered on from the last; and every text in which no new rule matches more than an old one goes through the tool chain as before. (A parser rule more renumbers the nameless rules.)", "quantifier": "every tree of a grammar, every list of added rules, every text, regex engine and iteration order", "why_tests_cant": "all grammars, extensions and texts", "anchors": ["src/main.rs: load_ast, main", "src/tool/visitor/grammar_visitor.rs: SymbolVisitor, ProductionVisitor", "src/runtime/vocabulary.rs: Vocabulary", "src/tool/grammar/mod.rs: first_set, follow_set, ll1_table", "src/tool/templates/target/rust/lexer.tera"]}
{"id": "C98", "title": "The order of the parser rules after the first, and of the alternatives, does not matter", "statement": "Take two grammars with the same lexer rules in the same order, the same alternatives under the same rule names and the same first rule name: the alternatives may come in any order, spread over any number of rules of a name, any number of times; so the parser rules may come in any order, the first staying first. One loads iff the other does, with the same lexer rules and token numbers and rules of the same names. If moreover no token has the number of a rule or nameless rule under the same suffix (in either grammar), one is LL(1) iff the other is, with as many productions; and if they are, every text, right or wrong, goes through the tool chain in the same way: no conflicts, the same text left over, the same lines, the same tree but for the rule numbers, or a panic at the same token in a rule of the same name. (With such a collision one order can be LL(1) and another not; and the first rule must stay first.)", "quantifier": "every tree of a grammar, every tree of a grammar with the same alternatives, every text, regex engine and pair of iteration orders", "why_tests_cant": "all grammars, permutations and texts", "anchors": ["src/main.rs: load_ast, main", "src/tool/visitor/grammar_visitor.rs: SymbolVisitor, ProductionVisitor", "src/tool/grammar/mod.rs: first_set, follow_set, ll1_table", "src/tool/templates/target/rust/lexer.tera", "src/tool/parser/ll1_parser.rs: parse_ast"]}
{"id": "C99", "title": "More rules and alternatives leave what was parsed as it was", "statement": "If a grammar gets more parser rules and more alternatives (for old or new names; the lexer rules and the name of the first rule as before, no token sharing a number with a rule or nameless rule under the same suffix) and is LL(1) then, it was LL(1) before, and for every text the larger grammar does what the smaller one did: the same text left over, the same lines, the same tree but for the rule numbers, or the same panic at the end of the input. Only where the smaller grammar panicked for want of a table entry may the larger one go on, and the lines printed up to there are the same. (If the larger grammar is not LL(1), a text that had a tree may panic.)", "quantifier": "every pair of trees or texts of such grammars, every input, regex engine and pair of iteration orders", "why_tests_cant": "all grammars, extensions and texts", "anchors": ["src/main.rs: load_ast, main", "src/tool/visitor/grammar_visitor.rs: SymbolVisitor, ProductionVisitor", "src/tool/grammar/mod.rs: first_set, follow_set, ll1_table", "src/tool/templates/target/rust/lexer.tera", "src/tool/parser/ll1_parser.rs: parse_ast"]}
{"id": "C100", "title": "The order of the lexer rules matters only in ties, through the whole tool chain", "statement": "Take two grammars with the same lexer rules in another order (no two of a name), the same alternatives under the same rule names and the same first rule name. One loads iff the other does. If no token shares a number with a rule or nameless rule under the same suffix (in either grammar), one is LL(1) iff the other is; and if they are and no two lexer rules tie for the longest match, every text, right or wrong, goes through both generated lexers and parsers in the same way although tokens and rules have other numbers: no conflicts, the same text left over, lines about the same tokens that name the same expected token, the same tree but for the numbers, or a panic at the same token in a rule of the same name. Rules none of whose words begin with the same character do not tie. (With a tie, the order can turn a text with a tree into one that panics.)", "quantifier": "every pair of trees or texts of such grammars, every input, regex engine without ties and pair of iteration orders", "why_tests_cant": "all grammars, permutations and texts", "anchors": ["src/main.rs: load_ast, main", "src/tool/visitor/grammar_visitor.rs: SymbolVisitor, ProductionVisitor", "src/tool/grammar/mod.rs: first_set, follow_set, ll1_table", "src/tool/templates/target/rust/lexer.tera", "src/tool/v1/syntaxis_lexer.rs: scan, scan_all_on_channel_tokens", "src/tool/parser/ll1_parser.rs: parse_ast"]}
{"id": "C101", "title": "Rules under new names do not change what is accepted", "statement": "If a grammar gets more parser rules, none under a name it has already (the lexer rules and the name of the first rule as before), each of its rules matches the token sequences it matched before. If moreover no token shares a number with a rule or nameless rule under the same suffix and the larger grammar is LL(1), the generated lexers and parsers accept the same texts without any report, with all visible tokens in the tree, and the trees are the same but for the rule numbers. (On texts that are not accepted they may differ, although nothing refers to the new rules: a panic can become a tree with a printed line, since the new rules add to the FOLLOW sets.)", "quantifier": "every pair of trees or texts of such grammars, every input that is cut into tokens, regex engine and pair of iteration orders", "why_tests_cant": "all grammars, extensions and texts", "anchors": ["src/main.rs: load_ast, main", "src/tool/visitor/grammar_visitor.rs: SymbolVisitor, ProductionVisitor", "src/tool/grammar/mod.rs: first_set, follow_set, ll1_table", "src/tool/templates/target/rust/lexer.tera", "src/tool/parser/ll1_parser.rs: parse, parse_ast"]}
{"id": "C102", "title": "Giving a group a name does not change what is accepted", "statement": "If a group is made a rule with a new name and replaced by that name at some or all of its places (behind an operator or not, at any depth), every other rule matches the token sequences it matched before. If both grammars are LL(1) (with the same lexer rules and first rule name, no token sharing a number with a rule or nameless rule under the same suffix), their generated lexers and parsers accept the same texts without any report, with the same leaves; the trees differ by the nodes of the new name. More generally this holds for any two such grammars whose first rules match the same token sequences.", "quantifier": "every pair of trees or texts of such grammars, every input that is cut into tokens, regex engine and pair of iteration orders", "why_tests_cant": "all grammars, groups and texts", "anchors": ["src/main.rs: load_ast, main", "src/tool/visitor/grammar_visitor.rs: ProductionVisitor (visit_element, visit_block)", "src/tool/grammar/mod.rs: first_set, follow_set, ll1_table", "src/tool/templates/target/rust/lexer.tera", "src/tool/parser/ll1_parser.rs: parse, parse_ast"]}
