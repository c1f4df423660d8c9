NOTES['C23'] = 'Uniform fuel bound for all iteration orders; panic characterised exactly.'
NOTES['C27'] = 'False of the code: refuted by a grammar with an unreachable rule (S: a; U: S b gives b in FOLLOW(S)). Proved when every rule is reachable from rule 0; in general FOLLOW contains the textbook FOLLOW and the rest stems from unreachable rules.'
NOTES['C30'] = 'False of the code for conflicting grammars (refuted by s: A | A B); proved equivalent to the grammar being LL(1); in general the last predicted production in iteration order wins.'
NOTES['C35'] = 'False of the code: left recursion s: s A | B diverges for every recursion depth on a sentence of the grammar. Proved: a table makes the parser terminate iff it has no cycle of left corners at one lookahead; without left recursion it terminates whatever the conflicts; every directly left-recursive rule diverges for some order.'
NOTES['C36'] = 'False of the code: trailing tokens are ignored and mismatches are only printed (two refutations). Proved: without mismatch a prefix of the tokens is a sentence; the sentences are exactly the inputs whose tree has all tokens and no mismatch.'
NOTES['C38'] = 'For rules with nonempty FOLLOW, in particular the start rule.'
NOTES['C11'] = 'False of the code: the _STOP token carries offsets length+10 (refuted, and proved for every lexer). Proved for all other tokens.'
NOTES['C12'] = 'False of the code: all counts are bytes (refuted with a two-byte character). Proved for ASCII input, and that they are character counts exactly when the text counted is ASCII.'
NOTES['C05'] = 'For every regex list whose matches end at char boundaries.'
NOTES['C16'] = 'False of the code: a node whose first or last child chain ends in an empty rule has text "" (refuted with a conflict-free grammar and no mismatch), and get_text panics when a mismatch put _STOP into the tree (refuted). Proved: exact text whenever both edges are tokens, empty text otherwise, no panic after a parse without mismatch.'
NOTES['C18'] = 'Overrides that call back into visit are the subject of C54.'
NOTES['C21'] = 'False of the code for strings with a dollar-brace or a carriage return (refuted); an exact characterisation of the strings that survive is proved.'
NOTES['C22'] = 'False for labels with a dollar-brace or a carriage return (refuted); proved that it holds for exactly the other trees, and what the script denotes for every tree.'
NOTES['C46'] = 'False of the code: no separator before nonterminals (refuted). Proved when nonterminals only occur first in right-hand sides and names are words; panics characterised exactly. The layout is characterised for all inputs.'
NOTES['C49'] = 'False (refuted twice: a text can end the script element, and a text with <!--<script> keeps it from being ended). Proved exactly, with the script data states of the HTML standard, what the element contains for every tree.'
NOTES['C39'] = 'For every tree on which the passes succeed; the generated lexer is the template instantiated, for every behaviour of its regexes.'
NOTES['C43'] = 'For every tree on which load_ast succeeds and every iteration order.'
NOTES['C47'] = 'Both visitors; panics characterised exactly.'
NOTES['C48'] = 'Both visitors and load_ast, for every tree.'
NOTES['C31'] = 'False of the code: refuted, and proved to fail for every use of + on an operand that matches a token.'
NOTES['C40'] = 'Full simulation of the production pass; the hypothesis no_collision is the restriction on numeric ids in the property.'
NOTES['C41'] = 'False of the code (cache keys confuse token and rule numbers): refuted. Proved: the exact language of every grammar that loads (an operand stands for the first operand of the same operator with the same number), and that nothing changes if no operator is applied both to a token and to something else; see also C40.'
NOTES['C42'] = 'Both directions, for every tree of every grammar.'
NOTES['C13'] = 'Stronger than stated: an exact characterisation of the accepted texts, blanks only needed where tokens would run together. Regex semantics is modelled (leftmost-first on the constructs used); \\d outside ASCII is arbitrary.'
NOTES['C14'] = 'False of the code: RULE_REF comes first and matches the same word (refuted; proved for every occurrence in both lexers). Only the Greek letter yields EPSILON.'
NOTES['C44'] = 'Stronger than stated: an exact characterisation, main parses without mismatch exactly the texts that write a grammar, for every iteration order; and it terminates on every text.'
NOTES['C45'] = 'False of the code: the v1 parser returns token types the hand-written accessors do not use, so the visitors panic on every tree with a rule (refuted, and proved in general). Proved: the v1 accessors agree with the hand-written ones up to renumbering, and the renumbered tree loads iff all references are defined.'
NOTES['C50'] = 'The regexes and names are compared as texts, so the equality holds for every input and every meaning of \\d.'
NOTES['C51'] = 'Equivalence between parses (over the productions) and the forests of SpecForest.v; strengthens C40 from token sequences to trees.'
NOTES['C52'] = 'Both directions, for every rule as entry point; composition of C51 with the parser theorems C32, C33, C38.'
NOTES['C53'] = 'False of the code: block always panics (a continuation is looked up with _STOP, which is only in the FOLLOW of rule_list) (refuted). Exact: rule_list, parser_rule, lexer_rule, epsilon and regular work; alternative only for epsilon; element and ebnf_suffix only with a lazy suffix.'
NOTES['C54'] = 'Visitors are functions of self.visit and self.visit_children; recursion bounded by fuel, and shown to finish for methods that descend.'
NOTES['C55'] = 'False for arbitrary names (refuted); proved for names without blank and parentheses, which the names of a grammar text are. The layout is characterised for all inputs.'
NOTES['C56'] = 'False for names with a quote (refuted); proved for all other names and every text. The layout is characterised for all inputs.'
NOTES['C57'] = 'False of the code: dots, parentheses and other metacharacters are not escaped and backslashes are lost (refuted); proved for every literal whose text avoids them (+ and * are escaped correctly).'
NOTES['C58'] = 'Proved for all texts and orders; the committed parser2.html is reproduced by the model character by character, for every hash order and every meaning of \\\\d.'
NOTES['C59'] = 'False of the code: the name is not escaped (refuted; see also C22, C49 for the tree). Proved exactly for which names and trees the page reads back (HTML input preprocessing, end tags, script data states, U+0000, JavaScript literals), and for main on every harmless text.'
NOTES['C60'] = 'False when a regex has a quote followed by four hashes (refuted); proved for all other regexes and identifier names, with the exact condition (no quote followed by four hashes, no carriage return). The committed lexer.rs is reproduced character by character.'
NOTES['C61'] = 'False for grammars without WHITE_SPACE (refuted); proved equivalent to having WHITE_SPACE. The declared constants are characterised exactly.'
NOTES['C62'] = 'The JSON reader of serde_json is modelled from its documentation (JsonText.v); which numbers overflow f64 is arbitrary.'
NOTES['C63'] = 'False for 64 and more nested rules, because of the recursion limit of serde_json (refuted, and proved for every such tree); proved for all others.'
NOTES['C64'] = 'The traits of the rewrite and of v1; a context trait implemented by a user is not modelled.'
NOTES['C65'] = 'Justifies natural numbers for usize in the model: every counter is bounded by the size of data held in memory.'
NOTES['C66'] = 'Depth of calls and of the tree; the size of a stack frame is not modelled.'
NOTES['C69'] = 'About one input, all iteration orders; it ties the model to outputs of the real program. That the comments were made from syntaxis.json (and not syntaxis2.json, which the tests read now) is inferred from the productions. The recorded lines have a blank in front of rule names that Display no longer prints (C46), so the layout is the recorded one.'
NOTES['C68'] = 'Exact for every text, including what is left unread. Regex semantics as in C13; \\\\d outside ASCII is arbitrary.'
NOTES['C70'] = 'Exact; the condition on x+ is the exact form of C31. no_collision is the restriction of C40. As in follow_set, places not reachable from the first rule count.'
NOTES['C71'] = 'd3 (hierarchy, traversals, keyed join, transitions) and the browser are modelled from their documentation; see View.v.'
NOTES['C72'] = 'False for the labels: a rule without children is drawn without label (refuted, with the page main writes for the empty text); proved for all other nodes. Everything else is exact, for an arbitrary layout function.'
NOTES['C73'] = 'Coordinates are integers, the product of the zoom factor is an arbitrary function.'
NOTES['C74'] = 'False (refuted with a two-rule text); exact condition proved. Generated (v1) lexer; the hand-written lexer has the same regex, its behaviour is C68.'
NOTES['C75'] = 'False for one-letter names (refuted); exact condition proved, for a name followed by anything that does not continue it.'
NOTES['C76'] = 'Fixture code of the tests. The printed lines are modelled, not the unit results.'
NOTES['C77'] = 'Found by a wrong-program experiment (names of the hand-written lexer exchanged) that no theorem noticed.'
NOTES['C78'] = 'False (refuted); exact condition proved, including where the scan stops.'
NOTES['C79'] = 'False where write takes only part of the bytes (refuted); exact description of the disk after draw proved.'
NOTES['C80'] = 'Strict UTF-8 decoding in front of the JSON reader of C62.'
NOTES['C81'] = 'False for rules defined twice and under number collisions (both refuted). For every grammar that loads the exact list of lines is proved: alternatives count as the same where the same symbols stand for them (C83); without collisions that is where they are written alike. Lines printed before a panic are not kept.'
NOTES['C82'] = 'Lines printed before a panic are not kept: the statements speak about runs that return.'
NOTES['C83'] = 'False under clashing numbers (refuted with C41); proved in full without them, and for every grammar the exact rewriting (first operand with the same suffix and number).'
NOTES['C85'] = 'The engine is a parameter that only finds beginnings of the text; the model of the regex crate is one (example). C85_accepts_every drops the condition on collisions (operands read as in C41), an example shows it is needed in C85_accepts. Tokens behind a complete sentence: C36.'
NOTES['C86'] = 'Reports on token lists where the parser returns; for runs that panic see C87. The expected token needs every rule to match something.'
NOTES['C87'] = 'Crash.v keeps the lines printed before a panic and the place of the panic; C87_same_run relates it to Parser.v. That the tokens before the trouble begin a sentence needs every nonterminal to derive something (every rule to match something, with number collisions: every rule to be readable by numbers).'
NOTES['C88'] = 'Which alternatives are reported before a panic is left open beyond their kind; for grammars that load see C81.'
NOTES['C84'] = 'Equality of results, panics included; for texts through the trees of main with token types renumbered (C45).'
NOTES['C89'] = 'For the generated accessors on parsed trees, and as an equivalence for both sets of accessors. An empty alternative node counts as described (the trees main builds have none, by C44).'
NOTES['C90'] = 'False of the code: the hook is given the box, not its content, so every downcast to a result type fails (refuted; proved for every hook that asks for other types than Box<dyn Any>). Proved: opening the box first gives the intended behaviour.'
NOTES['C91'] = 'False of the code for the copies: clone of the children of a nameless rule at every level of a repetition (refuted with a loaded grammar; exact count). Proved: calls linear, copies at most quadratic, no copies where all nonterminals are named. Counted are calls and cloned nodes of children, not the work inside HashMap or Vec.'
NOTES['C92'] = 'For every regex engine whose matches end at char boundaries. The public fields of the lexer are not written between the calls.'
NOTES['C93'] = 'For every regex engine. The rules are permuted together with their names; type numbers change accordingly.'
NOTES['C95'] = 'The number of WHITE_SPACE is kept; the template refers to it by name, so a grammar that renames WHITE_SPACE itself gets no compiling lexer (C61).'
NOTES['C96'] = 'The order of the lines printed while loading is not part of the claim: the passes print in the order of the text.'
NOTES['C98'] = 'Grammars that are not LL(1) are not covered by C98_chain: which of two conflicting productions wins depends on the iteration order of a hash set anyway (C30).'
NOTES['C100'] = 'Grammars that are not LL(1) are not covered by C100_chain, as in C98.'
NOTES['C101'] = 'C101_chain speaks about texts that the lexer rules cut completely; texts that are not accepted are covered by C99 only, see C101_errors_change.'
NOTES['C102'] = 'That both grammars are LL(1) is a hypothesis, it is not derived for one from the other; the tree with the nodes of the new name taken out is not compared, only its leaves.'
