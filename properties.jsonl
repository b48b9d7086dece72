{"id": "C01", "title": "Every match is a real derivation that consumes every token", "statement": "Every path returned by Search::search(node, tokens) is a sequence of terminal rules that the loaded grammar derives from section `node` by replacing section references left to right, and the concatenation of those rules' input classes has exactly one class per token, in order, each class being one of that token's possible classes.", "quantifier": "all grammars (including recursive ones), all start sections, all token sequences", "why_tests_cant": "A test fixes one grammar and one phrase; grammars are user data and may be recursive, ambiguous or contain empty rules.", "anchors": ["src/search.cpp: Search::search, Search::match, Search::matchNext, Search::matchRule", "src/token.cpp: Token::enumerate"]}
{"id": "C02", "title": "Search finds every derivation within its documented expansion budget", "statement": "For every derivation of the grammar from `node` whose input classes spell some choice of one class per token and which expands at most |tokens|+2 meta sections, the derivation's rule sequence is among the paths returned by Search::search(node, tokens).", "quantifier": "all grammars, start sections, token sequences and derivations; phrases with at most 2^32 class combinations", "why_tests_cant": "The set of derivations is unbounded over grammars; a missing branch in a backtracking search shows only on particular ambiguous grammars.", "anchors": ["src/search.cpp: Search::search, Search::match, Search::matchNext"]}
{"id": "C03", "title": "An address the grammar can derive is matched", "statement": "If the grammar derives the token sequence from ADDRESS at all, Search::search returns at least one path (no hidden limit on how many meta sections a derivation may pass through).", "quantifier": "all grammars, all token sequences", "why_tests_cant": "The limit depends on the phrase length and the nesting of the user's grammar; only shallow grammars are in the test suite.", "anchors": ["src/search.cpp: Search::search (recursion_limit_), Search::match"]}
{"id": "C04", "title": "Search terminates on every grammar", "statement": "Search::search returns after finitely many nested calls for every loaded grammar and token sequence, including left-recursive and mutually recursive grammars and grammars with rules that consume nothing; the nesting depth is bounded by a function of the phrase length and the longest meta rule.", "quantifier": "all grammars, start sections and token sequences", "why_tests_cant": "Non-termination cannot be observed by a finite test, and recursive grammars are not in the test suite.", "anchors": ["src/search.cpp: Search::match, Search::matchNext"]}
{"id": "C05", "title": "Reclassification succeeds and is faithful", "statement": "Applying Search::reclassTokens to the tokens and any path that search returned for them succeeds; afterwards every token keeps its text, standardized text, attachment and in-lexicon flag, its input class is exactly the single class the path matched it with (one it already had), and its output class is the one the rule assigns at that position.", "quantifier": "all grammars of valid rules, all token sequences, all returned paths", "why_tests_cant": "Requires agreement between four functions on all grammars; tests check one path.", "anchors": ["src/search.cpp: Search::reclassTokens, Search::searchAndReclassBest", "src/rule.cpp: Rule::isValid"]}
{"id": "C06", "title": "The chosen match has the highest average score, first on ties", "statement": "Search::searchAndReclassBest(phrase) reports the single-precision average of the rule scores of one of the returned paths; no path returned for that phrase has a larger single-precision average, and among the paths whose average equals the reported one the first returned is chosen (scores positive and not NaN).", "quantifier": "all grammars with positive finite scores, all phrases with at least one match", "why_tests_cant": "Floating-point comparison over arbitrarily many ambiguous matches; tests use a single match.", "anchors": ["src/search.cpp: Search::searchAndReclassBest(phrase)"]}
{"id": "C07", "title": "Across alternative tokenizations the first best-scoring one wins", "statement": "searchAndReclassBest(phrases) returns the result of the first phrase whose score is not exceeded by any other phrase's score; the reported score, pattern, rule count and tokens all come from that same phrase; if no phrase matches, the result is empty with score -1.", "quantifier": "all grammars, all lists of phrases", "why_tests_cant": "Ranges over all combinations of scores across alternatives.", "anchors": ["src/search.cpp: Search::searchAndReclassBest(phrases)"]}
{"id": "C08", "title": "No standardized fields if and only if nothing matches", "statement": "as_standardize produces field values (the standardizer reports a score >= 0) exactly when some tokenization of the address has a match in the grammar; otherwise all columns are NULL.", "quantifier": "all grammars with valid rules, all tokenizations", "why_tests_cant": "Needs the sentinel scores -1 and -2 to be excluded for every matching phrase, including scores that round to 0.", "anchors": ["src/search.cpp: Search::searchAndReclassBest", "src/as_wrapper.cpp: standardize_addr, std_standardize_ptrs"]}
{"id": "C09", "title": "Token::enumerate is the exact Cartesian product", "statement": "Token::enumerate(phrase) lists every way of choosing one class per token exactly once, in lexicographic order with the first token most significant, whenever the number of combinations squared fits in 64 bits; a token with no class yields no pattern and an empty phrase yields the single empty pattern. If every token has one, two, four, ... classes it does so nearly up to 2^64 combinations. Not true without such a condition: for 32 tokens with 3*2^31 combinations one pattern is listed twice and another one never.", "quantifier": "all token sequences whose number of class combinations is at most 2^32; for class counts that are powers of two, at most 2^64 divided by the largest class count", "why_tests_cant": "Index arithmetic i*num/cnt % size must be right for every mixed radix; tests try a couple of radices.", "anchors": ["src/token.cpp: Token::enumerate"]}
{"id": "C10", "title": "Ambiguous phrases always produce patterns", "statement": "If every token has at least one class, Token::enumerate(phrase) contains at least one pattern, whatever the number of tokens and classes.", "quantifier": "all token sequences with non-empty class sets", "why_tests_cant": "The combination count is a 64-bit product that wraps only for long ambiguous phrases no test contains.", "anchors": ["src/token.cpp: Token::enumerate"]}
{"id": "C11", "title": "as_match lists exactly the matches, best first", "statement": "Search::searchAndReclassAll returns one row per path found by search over all phrases, in phrase order, each with that path's pattern string, its double-precision average score and its number of rules, and no row reports a reclassification failure; if there is no path at all it returns exactly one row 'Failed to match to grammar!' with score -1. match_addr returns a permutation of these rows with non-increasing scores.", "quantifier": "all grammars of valid rules, all phrase lists, all permissible behaviours of the sorting routine", "why_tests_cant": "Ranges over all result sets and all unstable sort outcomes.", "anchors": ["src/search.cpp: Search::searchAndReclassAll", "src/as_wrapper.cpp: match_addr"]}
{"id": "C12", "title": "Each way of matching is listed once", "statement": "If a phrase has exactly k different (pattern, derivation) matches in the grammar then search returns k paths (as_match prints a duplicate row only for genuinely different derivations).", "quantifier": "all grammars and phrases", "why_tests_cant": "Duplicates multiply with the number of alternatives of earlier sections; the tests only count matches of a one-alternative grammar.", "anchors": ["src/search.cpp: Search::matchNext"]}
{"id": "C13", "title": "The pattern string determines the classification", "statement": "The pattern reported for a match consists of one input class name per token, then '->', then one output class name per token, separated by single blanks; the two class sequences can be recovered from it, so two matches with the same pattern classify the tokens identically.", "quantifier": "all matches of all grammars", "why_tests_cant": "Injectivity over all class sequences.", "anchors": ["src/search.cpp: Search::toString", "src/inclass.cpp: InClass::asString", "src/outclass.cpp: OutClass::asString"]}
{"id": "C14", "title": "Every token lands in exactly one output field, in order", "statement": "When as_standardize succeeds, each of the sixteen address columns is the standardized texts of exactly those tokens whose output class maps to that column, in address order joined by single blanks; tokens classed IGNORE appear nowhere, BOXH/BOXT share `box`, UNITH/UNITT share `unit`, STOP/EXTRA/BADTOKEN go to `extra`; a column is NULL exactly when its text is empty.", "quantifier": "all reclassified token sequences", "why_tests_cant": "All sequences of output classes and texts, including empty texts.", "anchors": ["src/as_wrapper.cpp: standardize_addr"]}
{"id": "C15", "title": "The filter removes exactly the filtered tokens", "statement": "Tokenizer::getTokens with a filter returns the unfiltered token sequence with exactly those tokens removed that have at least one class in the filter, preserving order; applying it twice changes nothing; adding/removing/replacing filter classes in any order depends only on the resulting set.", "quantifier": "all token sequences, all filter sets, all histories of filter edits", "why_tests_cant": "All token sequences and sets; order-dependence of edits.", "anchors": ["src/tokenizer.cpp: Tokenizer::applyFilter, addFilter, removeFilter, getTokens"]}
{"id": "C16", "title": "Filtered classes never reach the matcher", "statement": "No token sequence matched against the grammar by as_standardize/as_match (the tokenization or any alternative) contains a token with a filtered class.", "quantifier": "all addresses, lexicons and filters", "why_tests_cant": "Only multi-word lexicon entries containing separators expose it.", "anchors": ["src/tokenizer.cpp: Tokenizer::getAltTokens, applyFilter", "src/as_wrapper.cpp: standardize_addr, parse_addr, match_addr"]}
{"id": "C17", "title": "Alternatives are exactly the non-empty choices of phrases to split", "statement": "getAltTokens(tokens) yields, for k multi-word tokens (k < 31), exactly 2^k - 1 alternatives, one for every non-empty subset of the multi-word tokens, in which the tokens of the subset are replaced by their words (freshly classified) and all other tokens are unchanged and in place.", "quantifier": "all token sequences with fewer than 31 multi-word tokens", "why_tests_cant": "Exponential family of subsets; tests do not call it.", "anchors": ["src/tokenizer.cpp: Tokenizer::getAltTokens"]}
{"id": "C18", "title": "Alternatives contain no phantom tokens", "statement": "Splitting multi-word tokens never creates a token with empty text.", "quantifier": "all token sequences returned by getTokens", "why_tests_cant": "Only occurs with unfiltered separator tokens or entries with outer blanks.", "anchors": ["src/tokenizer.cpp: Tokenizer::getAltTokens"]}
{"id": "C19", "title": "Classification is total and lexicon-first", "statement": "After Lexicon::classify the token has at least one class. If the lexicon has an entry with a class for the token's text, its classes are exactly the union of those entries' classes (plus those it already had) and it is marked as in the lexicon; otherwise its classes depend only on the shape of its text and the default class, and it is not marked.", "quantifier": "all lexicons, texts, default classes and Unicode character tables", "why_tests_cant": "All lexicon contents and all texts.", "anchors": ["src/lexicon.cpp: Lexicon::classify"]}
{"id": "C20", "title": "A single letter is classified SINGLE, two letters DOUBLE", "statement": "A word of one letter that is not in the lexicon gets class SINGLE and a word of two letters gets DOUBLE, for letters of any script (InClass documentation: 'A single letter', 'A sequence of two letters').", "quantifier": "all letters", "why_tests_cant": "The library advertises UTF-8 support but tests classify ASCII words.", "anchors": ["src/lexicon.cpp: Lexicon::classify", "docs/inclass.md"]}
{"id": "C21", "title": "Standardized text comes from the matching lexicon entry", "statement": "Lexicon::standardize gives a token the standard word of the first entry for its text whose classes include the token's matched class, provided that word is non-empty; otherwise the token's own text (if it had no standard word before).", "quantifier": "all lexicons and singly-classified tokens", "why_tests_cant": "All lexicon contents incl. several entries per word.", "anchors": ["src/lexicon.cpp: Lexicon::standardize"]}
{"id": "C22", "title": "Tokenization reads left to right without gaps", "statement": "The pieces the tokenizer's scan produces (skipped blanks, token, separator) concatenate, in order, to a prefix of the normalized, upper-cased address; whatever is left over starts at a position where no token followed by a separator or the end of the address can be read.", "quantifier": "all addresses, lexicons, Unicode tables", "why_tests_cant": "All strings; tests use clean ASCII addresses.", "anchors": ["src/tokenizer.cpp: Tokenizer::getTokens"]}
{"id": "C23", "title": "No part of the address is silently dropped", "statement": "Every non-blank, non-separator character of the address appears in some token.", "quantifier": "all addresses and lexicons", "why_tests_cant": "Depends on characters outside the token regular expression; tests use plain addresses.", "anchors": ["src/tokenizer.cpp: Tokenizer::getTokens"]}
{"id": "C24", "title": "Tokenization terminates", "statement": "Every iteration of the tokenizer's scan consumes at least one character or stops, for every address and lexicon (including the empty lexicon), so getTokens returns.", "quantifier": "all addresses, lexicons, Unicode tables", "why_tests_cant": "An empty regex match would loop forever; a finite test cannot exclude it.", "anchors": ["src/tokenizer.cpp: Tokenizer::getTokens", "src/lexicon.cpp: Lexicon::regex"]}
{"id": "C25", "title": "The longest lexicon phrase wins", "statement": "At a scan position, if some lexicon word is a prefix of the remaining text and is followed by a separator or the end, the token read is the longest such word, compared without regard to case, provided no letter of the text occurs in both cases in the listed words (no pattern characters). With words listed in both cases a shorter one can be taken.", "quantifier": "all lexicons, all texts", "why_tests_cant": "Greedy/backtracking interaction of a generated regex; documented only informally.", "anchors": ["src/tokenizer.cpp: Tokenizer::getTokens", "src/trieutf8.cpp: TrieUtf8::getRegexp"]}
{"id": "C26", "title": "Splitting attached words preserves the text", "statement": "When the tokenizer splits a token (digits+letters, attached prefix and/or suffix), the texts of the pieces concatenate to the original text unless the prefix and suffix overlap, and every piece is classified.", "quantifier": "all texts and lexicons", "why_tests_cant": "Five interacting cases over all texts.", "anchors": ["src/tokenizer.cpp: Tokenizer::splitToken"]}
{"id": "C27", "title": "The lexicon behaves as a map from words to distinct entries", "statement": "After any sequence of insert and remove, find(word) returns exactly the entries inserted and not since removed for that word, each once, in first-insertion order; other words are unaffected.", "quantifier": "all histories of insert/remove/find", "why_tests_cant": "All operation histories.", "anchors": ["src/lexicon.cpp: Lexicon::insert, Lexicon::remove, Lexicon::find"]}
{"id": "C28", "title": "Cached lexicon patterns are never stale", "statement": "At any point of any history of insert, remove, regex(), regexPrefixAtt() and regexSuffixAtt() calls, the pattern returned equals the pattern a freshly built lexicon with the same entries would return.", "quantifier": "all histories of lexicon operations", "why_tests_cant": "Staleness needs particular interleavings.", "anchors": ["src/lexicon.cpp: Lexicon::regex, regexPrefixAtt, regexSuffixAtt, insert, remove"]}
{"id": "C29", "title": "Lexicon entries survive printing and re-reading", "statement": "Reading the printed form of a lexicon entry gives an equal entry, for all words and standard words without tab characters and all class and attachment sets.", "quantifier": "all entries with tab-free words", "why_tests_cant": "All strings and all sets of classes.", "anchors": ["src/lexentry.cpp: LexEntry::LexEntry, operator<<", "src/inclass.cpp: InClass::asType, asString, asAttachType"]}
{"id": "C30", "title": "A lexicon survives printing and re-loading", "statement": "Loading the printed form of a lexicon (words already normalized and upper case, single blanks, no tabs or line breaks, valid classes) yields the same language, locale and the same entries for every word.", "quantifier": "all such lexicons", "why_tests_cant": "All lexicon contents.", "anchors": ["src/lexicon.cpp: Lexicon::initialize, operator<<"]}
{"id": "C31", "title": "A missing final newline does not change a lexicon", "statement": "Loading a lexicon text gives the same result (same error or same contents) whether or not its last line ends with a newline.", "quantifier": "all lexicon texts", "why_tests_cant": "Depends on iostream end-of-file subtleties for particular last lines.", "anchors": ["src/lexicon.cpp: Lexicon::initialize"]}
{"id": "C32", "title": "Lexicon files may use CRLF line ends", "statement": "A lexicon file whose lines end in CR LF loads the same entries as the file with LF line ends (docs/lexicon.md: 'the lines end with <CR><LF> or <LF>').", "quantifier": "all lexicon texts", "why_tests_cant": "The last column decides; no CRLF file is tested.", "anchors": ["src/lexicon.cpp: Lexicon::initialize", "src/lexentry.cpp: LexEntry::LexEntry", "docs/lexicon.md"]}
{"id": "C33", "title": "A leading byte-order mark is ignored", "statement": "A grammar or lexicon text preceded by the UTF-8 byte order mark loads like the same text without it.", "quantifier": "all grammar and lexicon texts", "why_tests_cant": "Off-by-one shows only on files with the mark.", "anchors": ["src/grammar.cpp: Grammar::initialize", "src/lexicon.cpp: Lexicon::initialize"]}
{"id": "C34", "title": "Class names round-trip", "statement": "For every input class, output class, attachment set and language code, converting to its name and back gives the same value; for every set of input classes, printing as a comma separated list and reading gives the same set; every string that is not a class name reads as BADTOKEN / UNKNOWN.", "quantifier": "all sets of classes, all strings", "why_tests_cant": "2^37 sets and all strings.", "anchors": ["src/inclass.cpp: InClass::asString, asType, asOneType, asLang, asAttachType", "src/outclass.cpp: OutClass::asString, asType"]}
{"id": "C35", "title": "Blanks around the commas of a class list are harmless", "statement": "Inserting blanks before or after any name of a comma separated class list, or a blank after the last comma, does not change the set of classes read.", "quantifier": "all class lists", "why_tests_cant": "All-blank pieces are a corner case of the trimming code.", "anchors": ["src/inclass.cpp: trimboth, InClass::asType"]}
{"id": "C36", "title": "A loaded grammar is closed and well formed", "statement": "If loading a grammar text succeeds then: there is an ADDRESS section; section names are unique; every reference in every meta rule names an existing section, and following it yields that section; no section mixes meta rules and terminal rules; every terminal rule has equally many input and output classes; a section without a reference is reported as a warning, otherwise status is OK.", "quantifier": "all grammar texts", "why_tests_cant": "All texts and reference graphs.", "anchors": ["src/grammar.cpp: Grammar::initialize, Grammar::updatePointers", "src/search.cpp: Search::stringToSectionPtr"]}
{"id": "C37", "title": "Defective grammars are rejected with a diagnosis", "statement": "If some reference names no section, or there is no ADDRESS section, or a section name is repeated, or a rule has unequal class counts or a score that is not positive, loading throws; conversely loading throws only for a listed reason.", "quantifier": "all grammar texts", "why_tests_cant": "All texts.", "anchors": ["src/grammar.cpp: Grammar::initialize, Grammar::updatePointers"]}
{"id": "C38", "title": "Every grammar line takes effect or is rejected", "statement": "If loading succeeds, every line that is not blank, a comment or a section header contributes exactly one rule to its section.", "quantifier": "all grammar texts", "why_tests_cant": "Malformed lines are silently skipped only for particular shapes.", "anchors": ["src/grammar.cpp: Grammar::initialize"]}
{"id": "C39", "title": "A missing final newline does not change a grammar", "statement": "Loading a grammar text gives the same grammar whether or not its last line ends with a newline.", "quantifier": "all grammar texts", "why_tests_cant": "Depends on iostream end-of-file subtleties.", "anchors": ["src/grammar.cpp: Grammar::initialize"]}
{"id": "C40", "title": "Misspelled class names in rules are rejected", "statement": "If loading a grammar succeeds, every class name written in its terminal rules is a known input (output) class name.", "quantifier": "all grammar texts", "why_tests_cant": "All strings.", "anchors": ["src/rule.cpp: Rule::Rule, Rule::isValid", "src/grammar.cpp: Grammar::updatePointers"]}
{"id": "C41", "title": "Rules always have as many outputs as inputs and a positive score", "statement": "Any Rule object obtained by reading a rule line, concatenating or clearing has equally many input and output classes, and a rule read from a grammar has a score greater than zero.", "quantifier": "all rule lines and all sequences of rule operations", "why_tests_cant": "All texts and histories; NaN compares false with everything.", "anchors": ["src/rule.cpp: Rule::Rule, Rule::concat, Rule::isValid"]}
{"id": "C42", "title": "UTF-8 iteration inverts UTF-8 encoding", "statement": "Encoding any sequence of code points below 0x110000 with CodePointToUtf8 and iterating with Utf8Iterator yields the same sequence, forwards and backwards, never reading outside the string; encoding a larger value throws.", "quantifier": "all code point sequences", "why_tests_cant": "1.1 million code points and all sequences.", "anchors": ["src/utf8iterator.cpp: Utf8Iterator::operator++, operator--, operator*, CodePointToUtf8"]}
{"id": "C43", "title": "The trie stores exactly the words added", "statement": "After any sequence of addWord calls, isWord(w) holds exactly for the non-empty words added, isPrefix(p) exactly for prefixes of added words, getWords lists each added word exactly once, and getWordsStartingWith(p) lists exactly those starting with p.", "quantifier": "all sequences of words over all code points", "why_tests_cant": "All histories and words.", "anchors": ["src/trieutf8.cpp: TrieUtf8::addWord, isWord, isPrefix, getWords, getWordsStartingWith"]}
{"id": "C44", "title": "The generated pattern matches exactly the words", "statement": "The regular expression produced by TrieUtf8::getRegexp for a non-empty set of words without the characters ^ { } matches a string exactly when it is one of the words.", "quantifier": "all non-empty word sets (words non-empty, without ^ { }), all strings", "why_tests_cant": "All word sets: nesting of alternatives, classes and optional groups.", "anchors": ["src/trieutf8.cpp: TrieUtf8::getRegexp, quoteMeta"]}
{"id": "C45", "title": "Special characters in lexicon words are matched literally", "statement": "The statement of C44 holds for words containing any characters.", "quantifier": "all word sets", "why_tests_cant": "Only rare characters break quoting.", "anchors": ["src/trieutf8.cpp: TrieUtf8::quoteMeta"]}
{"id": "C46", "title": "Digest does not depend on how the data is fed", "statement": "Feeding a byte string to MD5 in any sequence of update calls gives the same 32-character lower-case hexadecimal digest as feeding it at once, and calling finalize again changes nothing.", "quantifier": "all byte strings shorter than 2^32-64 bytes and all ways to cut them", "why_tests_cant": "All lengths and cut positions around block boundaries.", "anchors": ["src/md5.cpp: MD5::update, MD5::finalize, MD5::hexdigest, md5"]}
{"id": "C47", "title": "The digest is MD5", "statement": "md5(text) equals the RFC 1321 message digest of text.", "quantifier": "all byte strings", "why_tests_cant": "A test vector would reveal it, but none exists; as a universal claim it needs a specification.", "anchors": ["src/md5.cpp: MD5::F, MD5::G, MD5::H, MD5::I, MD5::transform"]}
{"id": "C48", "title": "The standardizer cache never returns the wrong standardizer", "statement": "In any sequence of as_standardize calls within a query, the standardizer used for a call was built from a lexicon text and a grammar text having the same digests as the call's arguments (hence, without digest collisions among the texts used, from exactly those texts), whether it came from the cache or was newly built.", "quantifier": "all histories of calls with arbitrary (lexicon, grammar) texts", "why_tests_cant": "All call histories including evictions.", "anchors": ["src/std_pg_hash.c: IsInStdPortalCache, GetStdFromPortalCache, AddToStdPortalCache, GetStdUsingFCInfo"]}
{"id": "C49", "title": "Cache memory safety", "statement": "At every point of every history the cache holds at most four standardizers, for pairwise different keys; every standardizer built is freed exactly once, either on eviction or at the end of the query; no freed standardizer is used.", "quantifier": "all histories of calls ending with the end of the query", "why_tests_cant": "All histories; leaks and double frees are invisible to functional tests.", "anchors": ["src/std_pg_hash.c: AddToStdPortalCache, DeleteNextSlotFromStdCache, StdCacheDelete, PJ hash functions"]}
{"id": "C50", "title": "Up to four configurations are built once", "statement": "If the calls of a query use at most four different (lexicon, grammar) pairs, each standardizer is built exactly once; with more, the one inserted longest ago is evicted.", "quantifier": "all histories over at most four keys", "why_tests_cant": "All interleavings.", "anchors": ["src/std_pg_hash.c: AddToStdPortalCache, GetStdUsingFCInfo"]}
{"id": "C51", "title": "A malformed lexicon or grammar raises an SQL error", "statement": "as_standardize called with a lexicon or grammar that fails to load reports an error and never has undefined behaviour.", "quantifier": "all argument texts", "why_tests_cant": "The error path is not exercised by tests; undefined behaviour is not observable reliably.", "anchors": ["src/std_pg_hash.c: CreateStd", "src/as_wrapper.cpp: getLexiconPtr, getGrammarPtr"]}
{"id": "C52", "title": "as_parse lists every token of every tokenization", "statement": "as_parse returns one row per token of the tokenization and of each alternative, in order, with the pattern number of its tokenization, the token text, its classes and its attachments; (pat, seq) never repeats and seq increases strictly along the result.", "quantifier": "all tokenizations", "why_tests_cant": "All numbers and lengths of alternatives.", "anchors": ["src/as_wrapper.cpp: parse_addr", "src/address_standardizer.c: as_parse"]}
{"id": "C53", "title": "seq is the position of the token within its pattern", "statement": "In the rows of as_parse with the same pattern number, seq counts 1, 2, 3, ... from the first token.", "quantifier": "all tokenizations", "why_tests_cant": "Only addresses with multi-word tokens have a second pattern.", "anchors": ["src/as_wrapper.cpp: parse_addr"]}
{"id": "C54", "title": "Tokens survive printing and re-reading", "statement": "Constructing a Token from the printed form of a token whose text and standard word contain no tab gives a token with the same text, standard word, classes and attachments.", "quantifier": "all tokens with tab-free texts", "why_tests_cant": "All strings and sets.", "anchors": ["src/token.cpp: Token::Token(std::string), operator<<"]}
{"id": "C55", "title": "Token text is the text that was scanned", "statement": "Each token (before splitting) carries exactly the scanned text and each separator token the trimmed separator text, for every address.", "quantifier": "all addresses", "why_tests_cant": "Only addresses containing tabs are affected.", "anchors": ["src/token.cpp: Token::Token(std::string)", "src/tokenizer.cpp: Tokenizer::getTokens"]}
{"id": "C56", "title": "A compiled lexicon is equivalent to its source", "statement": "Loading the compiled form of a lexicon gives a lexicon with the same name, language, locale, entries, cached patterns and digest as the compiled one, and an archive written by an older format version is rejected with 'Re-compile-lexicon'. What is written is exactly the signature, the version of the library and the fields of the lexicon in order (numbers of the headers, strings with their lengths, containers with their sizes), each class being announced only where it occurs first.", "quantifier": "all lexicons, all archive versions", "why_tests_cant": "All contents.", "anchors": ["src/lexicon.h: Lexicon::serialize", "src/as_wrapper.cpp: serialize_lexicon, getLexiconPtr"]}
{"id": "C57", "title": "Event counters count", "statement": "Utils::getCount(name) is the number of Utils::count(name) calls since the last clear of that name (or of all names), independently of other names.", "quantifier": "all histories of count/clear/getCount", "why_tests_cant": "All histories.", "anchors": ["src/utils.cpp: Utils::count, clear, getCount"]}
{"id": "C58", "title": "as_standardize picks a top row of as_match", "statement": "The pattern as_standardize reports has, among the rows as_match lists for the same arguments, the highest score.", "quantifier": "all grammars and addresses", "why_tests_cant": "as_standardize averages in single and as_match in double precision; disagreement needs particular score combinations.", "anchors": ["src/search.cpp: Search::searchAndReclassBest, searchAndReclassAll"]}
{"id": "C59", "title": "A rule matches exactly the sequences starting with its inputs", "statement": "Search::matchRule accepts a pattern exactly when the rule's input classes are a prefix of it, and then leaves exactly the rest; Rule::match agrees.", "quantifier": "all rules and patterns", "why_tests_cant": "All sequences.", "anchors": ["src/search.cpp: Search::matchRule", "src/rule.cpp: Rule::match"]}
{"id": "C60", "title": "A grammar survives printing and re-loading", "statement": "Loading the printed form of a loaded grammar yields the same sections with the same rules in the same order (up to the decimal rendering of scores).", "quantifier": "all loaded grammars", "why_tests_cant": "All grammars.", "anchors": ["src/grammar.cpp: operator<<, Grammar::initialize", "src/rule.cpp: operator<<", "src/metarule.cpp: operator<<"]}
{"id": "C61", "title": "The returned address is a best-scoring reading of the text", "statement": "When as_standardize returns an address, there are a tokenization of the text (the plain one or an alternative), a class for each of its tokens and a derivation of these classes from ADDRESS in the grammar such that the columns hold the standard words under the output classes of the derivation's rules, the pattern column spells the input and output classes, and no derivation of any tokenization within the expansion limit has a higher single-precision average score.", "quantifier": "all grammars that load (no NaN scores), all lexicons, all addresses", "why_tests_cant": "All grammars, lexicons and addresses together; tests fix all three.", "anchors": ["src/as_wrapper.cpp: standardize_addr", "src/search.cpp: searchAndReclassBest", "src/tokenizer.cpp: getTokens, getAltTokens", "src/lexicon.cpp: standardize"]}
{"id": "C62", "title": "as_standardize always comes to an answer", "statement": "For every loaded grammar without NaN scores, every lexicon that can occur whose words contain no caret or brace, and every address with at most 31 multi-word tokens, standardize_addr terminates without exception and without undefined behaviour; it returns an address if some tokenization can be derived, and returns none only if no tokenization can be derived within the expansion limit.", "quantifier": "all addresses", "why_tests_cant": "All addresses and grammars, including recursive grammars.", "anchors": ["src/as_wrapper.cpp: standardize_addr", "src/search.cpp", "src/tokenizer.cpp"]}
{"id": "C63", "title": "Earlier addresses do not influence later results", "statement": "The result of standardizing, parsing or matching an address with a lexicon does not depend on which patterns the lexicon has stored while earlier addresses were handled.", "quantifier": "all histories of pattern requests before the call", "why_tests_cant": "All histories.", "anchors": ["src/lexicon.cpp: regex, regexPrefixAtt, regexSuffixAtt", "src/as_wrapper.cpp"]}
{"id": "C64", "title": "The pattern column tells whether the address was standardized", "statement": "The row of as_standardize has seventeen columns; the pattern is NULL exactly when no address was returned (no match, or an exception), and then all other columns are NULL too.", "quantifier": "all calls", "why_tests_cant": "All outcomes including exceptions.", "anchors": ["src/address_standardizer.c: as_standardize"]}
{"id": "C65", "title": "as_match lists all readings, best first", "statement": "as_match returns at least one row; its rows are one per match of the plain tokenization and of every alternative, each with its pattern, double-precision average score and number of rules, in order of descending score; with no match there is the single row 'Failed to match to grammar!' with scores -1.", "quantifier": "all grammars that load, all lexicons, all addresses", "why_tests_cant": "All grammars and addresses.", "anchors": ["src/as_wrapper.cpp: match_addr", "src/search.cpp: searchAndReclassAll", "src/address_standardizer.c: as_match"]}
{"id": "C66", "title": "The cache does not change results", "statement": "In any session (calls at any call sites, interleaved with the ends of call sites) without digest collisions among the texts used, the rows returned by as_standardize are, call by call, the rows of the function std_standardize that loads the call's own lexicon and grammar texts anew.", "quantifier": "all sessions, all texts, all addresses", "why_tests_cant": "All histories: evictions, reuse of a standardizer whose lexicon has stored patterns, several call sites.", "anchors": ["src/std_pg_hash.c: GetStdUsingFCInfo", "src/address_standardizer.c: as_standardize", "src/as_wrapper.cpp: std_standardize"]}
{"id": "C67", "title": "A lexicon text is accepted exactly when well formed and gives exactly its entries", "statement": "Loading a lexicon text succeeds exactly when it has a header and every line after it that is not blank or a comment has the required columns, known class and attachment names; the words then listed are exactly those of the lines, with the standard form, classes and attachments written there.", "quantifier": "all newline-terminated lexicon texts", "why_tests_cant": "All texts and lines.", "anchors": ["src/lexicon.cpp: Lexicon::initialize", "src/lexentry.cpp: LexEntry::LexEntry"]}
{"id": "C68", "title": "Words are split exactly at attachable words, or between digits and a letter", "statement": "A word listed in the lexicon is one token. Any other word: if it is of class MIXED, it is split exactly when it is digits followed by one letter, or one letter followed by digits; otherwise it is split after the longest attachable prefix word of the lexicon (cut inside the word) and before the shortest attachable suffix word, into two or three parts; if the two overlap, only the suffix is split off; if neither is found, it stays whole. Each part is one token. A separator is one token: its text is what stands before the first tab, without white space at the ends, its standard form what stands between the first tab and the second, and it counts as a listed token of class BADTOKEN if anything but commas stands between the second tab and the third. The description determines the tokens up to the order of their classes.", "quantifier": "all lexicons whose words have no carets, braces and tabs, all texts", "why_tests_cant": "All lexicons and words; backtracking of patterns built from all listed words.", "anchors": ["src/tokenizer.cpp: Tokenizer::splitToken", "src/tokenizer.cpp: Tokenizer::getTokens", "src/lexicon.cpp: Lexicon::regexPrefixAtt", "src/lexicon.cpp: Lexicon::regexSuffixAtt"]}
{"id": "C69", "title": "Concatenating rules concatenates their classes", "statement": "Rule::concat of two rules has the inputs of the first followed by those of the second, likewise the outputs; it matches exactly the sequences that start with both; every input and output keeps its position relative to its rule when the first rule is balanced; the score does not depend on the order of the two rules and is the average of theirs up to rounding.", "quantifier": "all rules, all sequences, all positions", "why_tests_cant": "All rules and positions.", "anchors": ["src/rule.cpp: Rule::concat", "src/rule.cpp: Rule::match", "src/rule.cpp: Rule::in", "src/rule.cpp: Rule::out"]}
{"id": "C70", "title": "Adding a class to a token adds just that class", "statement": "Adding an input class to a token makes its classes exactly the old ones and the new one, keeps them a set, and changes nothing else; asking whether a token has a class, or any class of a set, answers exactly that; the number of classes reported is the number of distinct classes.", "quantifier": "all tokens, classes and sets of classes", "why_tests_cant": "All tokens and sets.", "anchors": ["src/token.h: Token::inclass", "src/token.cpp: Token::isInClass"]}
{"id": "C71", "title": "Positions in sections and rules are checked", "statement": "The i-th rule of a section is returned exactly when the section has more than i rules, otherwise the range error is thrown; the i-th input or output class of a rule is returned if there is one and BADTOKEN otherwise.", "quantifier": "all sections, rules and positions", "why_tests_cant": "All positions.", "anchors": ["src/metasection.cpp: MetaSection::rule", "src/rulesection.cpp: RuleSection::rule", "src/rule.cpp: Rule::in", "src/rule.cpp: Rule::out"]}
{"id": "C72", "title": "Reported scores are accurate averages", "statement": "For a match with n rules (at most 2^20) whose scores lie between 2^-100 and 2^100, the average that decides the best match is the exact average up to n roundings to 24 bits, and the average reported by as_match up to n roundings to 53 bits; so the relative error is at most 2n/2^24 and 2n/2^53. (Naive claim, refuted: the average of equal scores is that score; three rules of score 0.9 average below 0.9.)", "quantifier": "all matches, all scores in the range", "why_tests_cant": "Rounding behaviour of all sequences of scores.", "anchors": ["src/search.cpp: Search::searchAndReclassBest", "src/search.cpp: Search::searchAndReclassAll"]}
{"id": "C73", "title": "The row of as_standardize comes from the match with the highest average", "statement": "Refuted in exact arithmetic: with scores 0.4, 0.2, 0.1 against 0.3, 0.2, 0.2 (sums that differ only by the rounding of the numerals) the match with the smaller exact average wins. Proved: no other match of any tokenization has an exact average that is higher by more than the rounding errors, (1-2^-24)^n' A' <= (1+2^-24)^n A.", "quantifier": "all addresses, lexicons, loaded grammars with usual scores", "why_tests_cant": "All matches of all grammars; rounding.", "anchors": ["src/search.cpp: Search::searchAndReclassBest", "src/as_wrapper.cpp: standardize_addr"]}
{"id": "C74", "title": "The SQL functions use no freed, missing or NULL block", "statement": "Run on a C heap where a double free, a read through NULL or of a freed block, and an overflow of int are undefined, as_standardize (a whole session over the cache), as_parse, as_match and as_compile_lexicon answer what the functions without a heap answer: the same log and rows, the first k rows after k calls of the server, done exactly when k exceeds the number of rows. as_parse needs at most 2^31-1 tokens and tokenizations, as_match at most 2^31-1 rows; beyond that they are undefined.", "quantifier": "all inputs, heaps, numbers of calls; calloc(0) NULL or not", "why_tests_cant": "Memory errors show up only on paths that a test takes, and often not even then; all numbers of rows and calls.", "anchors": ["src/as_wrapper.cpp: std_standardize", "src/as_wrapper.cpp: std_parse_address", "src/as_wrapper.cpp: std_match_address", "src/address_standardizer.c: as_parse", "src/address_standardizer.c: as_match", "src/address_standardizer.c: as_standardize", "src/address_standardizer.c: as_compile_lexicon"]}
{"id": "C75", "title": "Every block of the C heap is freed when the function is done", "statement": "Refuted: a session whose lexicon pattern is malformed leaves the text of the exception of every call; as_parse without tokens leaves an array of no bytes (or the text Out of memory!); as_parse under LIMIT 1 leaves all of its blocks. Proved, what stays exactly: the messages of the calls of as_standardize that threw and nothing else; for as_parse read to the end the message or the empty array, and read partially 3n+1 blocks for n rows; for as_match the message, or n+1 blocks; for as_compile_lexicon the message of the exception.", "quantifier": "all inputs, heaps, numbers of calls", "why_tests_cant": "Leaks do not change results.", "anchors": ["src/as_wrapper.cpp: std_standardize", "src/address_standardizer.c: as_parse", "src/address_standardizer.c: as_match", "src/address_standardizer.c: as_compile_lexicon", "src/address_standardizer.c: tokens_free", "src/address_standardizer.c: stdaddr_free"]}
{"id": "C76", "title": "An address is read exactly as described, round by round", "statement": "The rounds getTokens reads from a text (what is skipped, the word, the separator) are exactly those of a description without patterns: at the beginning of a line or after a separator the longest listed word in any case, else a number with a sign, else a run of letters and digits, followed by a separator or the end; everything else up to the next line is skipped. In both directions, so the description determines the answer.", "quantifier": "all lexicons without carets and braces in words, all texts whose line ends are blanks and no character of which occurs in two cases in the listed words", "why_tests_cant": "All texts and lexicons; priorities among alternatives of the generated pattern.", "anchors": ["src/tokenizer.cpp: Tokenizer::getTokens", "src/lexicon.cpp: Lexicon::regex"]}
{"id": "C77", "title": "The tokenizations of an address, from the text of the address", "statement": "The list of tokenizations all three SQL functions work on is exactly: the address normalized and upper-cased with the given locale, then again with that of the lexicon, scanned, split and classified, without the tokens having a class named in the filter; then, numbered in binary with the first phrase as lowest digit, the alternatives in which phrases are split at blanks; at most 31 phrases. In both directions.", "quantifier": "all lexicons (words without carets, braces and tabs), filters, locales and addresses as in C76", "why_tests_cant": "All addresses, lexicons and filters; exponentially many alternatives.", "anchors": ["src/tokenizer.cpp: Tokenizer::getTokens", "src/tokenizer.cpp: Tokenizer::getAltTokens", "src/as_wrapper.cpp: standardize_addr", "src/inclass.cpp: InClass::asType"]}
{"id": "C78", "title": "The order in which matches are listed, and how often each", "statement": "The search lists the matches of a tokenization ordered by the classes chosen for the tokens (first token most significant, enum order) and then by the positions of the alternatives used, in the order of replacement; a match is listed again only after its first place, and the number of times is exactly the product, over its rules except those with nothing left to replace after them, of the number of rules of the section that fit there.", "quantifier": "all loaded grammars, all start sections, all phrases with at most 2^32 class combinations", "why_tests_cant": "All grammars and phrases; order and multiplicities for unboundedly many derivations.", "anchors": ["src/search.cpp: Search::search", "src/search.cpp: Search::matchNext", "src/search.cpp: Search::match"]}
{"id": "C79", "title": "Among equally good matches the first one is chosen", "statement": "searchAndReclassBest over all tokenizations returns the tokens, classes, score and pattern of the match such that no match of any tokenization has a larger float average and every match before it (in an earlier tokenization, or earlier in the order of C78 in the same one) has a strictly smaller one. There is exactly one such match if there is any; without any, score and rule count are -1.", "quantifier": "all loaded grammars without NaN scores, all lists of phrases", "why_tests_cant": "Ties can arise between any two of unboundedly many derivations.", "anchors": ["src/search.cpp: Search::searchAndReclassBest"]}
{"id": "C80", "title": "The answers of the three functions are determined by text, lexicon and grammar", "statement": "For an address read as in C77: standardize_addr returns a row exactly if it is that of the first best match (columns collect the standard words by output class, pattern lists classes and outputs), and no row exactly if nothing matches; the rows of as_parse are exactly the tokens of all tokenizations, numbered; the rows of as_match are exactly all matches with their multiplicities, sorted by descending average.", "quantifier": "all loaded grammars, lexicons, locales, filters and addresses as in C77, at most 2^32 class combinations", "why_tests_cant": "An equivalence over all addresses, lexicons and grammars.", "anchors": ["src/as_wrapper.cpp: standardize_addr", "src/as_wrapper.cpp: parse_addr", "src/as_wrapper.cpp: match_addr"]}
{"id": "C81", "title": "When the limit on replacements loses nothing", "statement": "If every section can be given a number such that no meta rule's references add up to more than its section's number minus one, no terminal rule reads fewer classes than minus its section's number, and the start section's number is at most two, then the limit of (tokens + 2) replacements never hides a match: the rule sequences found are exactly the derivable ones whose inputs fit the tokens.", "quantifier": "all loaded grammars with such numbers, recursive ones included; all phrases with at most 2^32 class combinations", "why_tests_cant": "Derivations of unbounded length; a test sees only the addresses it tries.", "anchors": ["src/search.cpp: Search::matchNext", "src/search.cpp: Search::search"]}
{"id": "C82", "title": "The shipped grammars load and lose no match", "statement": "Each of the 25 grammars in data/sample loads without issue, has no NaN score and at most five references per meta rule, and for every tokenization the search returns exactly the rule sequences derivable from [ADDRESS] that fit it: the limit on replacements is never in the way.", "quantifier": "all grammars of data/sample, all phrases with at most 2^32 class combinations", "why_tests_cant": "All phrases of any length, for each grammar.", "anchors": ["data/sample/*.gmr", "src/search.cpp: Search::matchNext", "src/grammar.cpp: Grammar::initialize"]}
{"id": "C83", "title": "The shipped grammars use only existing class names", "statement": "Refuted: twelve of them have a rule with the output name UNIT (or SINGLE in Belgium's), which is none; the word it is for goes to the column extra instead of unit, e.g. B of 'Hauptstrasse 12 Wohnung B 1010 Wien Austria' with the grammar and lexicon of Austria. Proved: all input names exist and the only unknown output names are those of the two rules UNITH WORD and UNITH NUMBER SINGLE.", "quantifier": "all rules of all grammars of data/sample", "why_tests_cant": "A misspelled class is accepted silently and shows only for addresses that need that rule.", "anchors": ["data/sample/austria.gmr:57", "data/sample/belgium.gmr:54", "src/rule.cpp: Rule::Rule", "src/outclass.cpp: OutClass::asType"]}
{"id": "C84", "title": "The message about a rejected grammar names the first fault", "statement": "Loading a grammar text throws message m exactly when one of these holds: the text starts with a byte order mark that cannot be removed (m from the C++ library); the lines up to some line can be read and that line is data before any header, a header repeating a section with data, a reference list among rules or a rule among reference lists, or not a rule (m is the message for that fault, the last with the line's text); or all lines can be read but a reference names no section or there is no ADDRESS section (m lists, in order, one line per dangling reference, the missing ADDRESS, and each unreferenced section). An accepted text has exactly the sections it means and warns exactly of the unreferenced ones. The messages about an empty section, an inconsistent index and an invalid rule at a position are never given.", "quantifier": "all grammar texts, all messages", "why_tests_cant": "All texts and all orders of several faults; dead messages cannot be shown dead by tests.", "anchors": ["src/grammar.cpp: Grammar::initialize", "src/grammar.cpp: Grammar::updatePointers", "src/rule.cpp: Rule::Rule"]}
{"id": "C85", "title": "What any lexicon text is loaded as", "statement": "Loading a lexicon text yields lexicon x exactly when the text means x: after lines that are neither header nor entry (the first line without the four bytes of a byte order mark) comes a header whose first column is LEXICON:, giving language and locale; every following line is empty or an entry without an unknown class; a last line without line feed is read a second time as the buffer then holds it. x has the given name, that language and locale, per word the entries of the text in order of first occurrence without repetitions, unset pattern caches, and the digest of the lines read. Loading never has undefined behaviour.", "quantifier": "all lexicon texts, with or without byte order mark and final line feed, all normalizations and case mappings", "why_tests_cant": "All texts and all library behaviours; exactness in both directions.", "anchors": ["src/lexicon.cpp: Lexicon::initialize", "src/lexentry.cpp: LexEntry::LexEntry", "src/lexicon.cpp: Lexicon::insert"]}
{"id": "C86", "title": "The message about a rejected lexicon names its first fault", "statement": "Loading a lexicon text throws message m exactly when one of these holds: the first line is only a byte order mark (message of the C++ library); no line is a header; an entry comes before the header; the header's first column is more than LEXICON:; the lines up to some line of the body are accepted and that line is refused, or the last, unfinished line is refused when read a second time, or the header is the last, unfinished line (m shows a number and the line as read). The number shown is the number of the refused line.", "quantifier": "all lexicon texts, all messages", "why_tests_cant": "All texts and all orders of several faults. The last sentence is false: the number is one too high.", "anchors": ["src/lexicon.cpp: Lexicon::initialize"]}
{"id": "C87", "title": "The SQL functions from their text arguments to the rows", "statement": "For a grammar text, a lexicon (its source, or what as_compile_lexicon returns for the source), a locale, a filter and an address: as_standardize returns the columns of the first of the best matches of the grammar the text means, over the tokenizations of the address with the lexicon the source means; it returns nulls if nothing matches or if an argument is refused. as_parse returns exactly the tokens of these tokenizations and as_match all matches sorted by score; both return no rows when an argument is refused. The behaviour is undefined exactly when both arguments are accepted and the address has more than 31 tokens with blanks. An exception is the message about the grammar if the grammar is refused, otherwise the message about the lexicon.", "quantifier": "all grammar texts, lexicon texts, locales, filters and addresses (words without carets and braces, address text without characters listed in two cases, no NaN score, at most 2^32 class combinations)", "why_tests_cant": "It fixes the complete answer for every combination of texts; tests compare a few.", "anchors": ["src/as_wrapper.cpp: std_standardize, std_parse_address, std_match_address, getLexiconPtr, getGrammarPtr", "src/address_standardizer.c: as_standardize", "src/address_standardizer.c: as_parse", "src/address_standardizer.c: as_match"]}
{"id": "C88", "title": "A lexicon entry is read from its columns and answers what they say", "statement": "The entry made from a line has the word, standard word, classes and attachments of the columns of the line (a first column LEXENTRY: is skipped unless it stands alone), and the entry made from four texts those of the texts. isPrefix, isSuffix, isAttached, isDetached, isPrefixAttached, isSuffixAttached and isInClass answer membership of the corresponding attachments and classes; an entry without attachments is detached, and every entry is attached or detached. set replaces word, standard word and classes and keeps the attachments; adding a class keeps the others. Entries are equal when all four parts are.", "quantifier": "all entries, all lines, all column texts", "why_tests_cant": "All lines and all sets of attachments; the unit test of the project looks at two entries.", "anchors": ["src/lexentry.cpp: LexEntry::LexEntry, isPrefix, isSuffix, isAttached, isDetached, isInClass, set", "src/lexentry.h: operator=="]}
{"id": "C89", "title": "Words are ordered by their UTF-8 bytes, which is the order of their code points", "statement": "The order in which maps and sets keep words compares the first difference, a beginning coming before the whole; comparing the UTF-8 bytes of two texts as unsigned characters gives the same order as comparing their code points; the order is strict and total.", "quantifier": "all pairs of texts", "why_tests_cant": "All pairs of texts, of all four encoded lengths.", "anchors": ["src/lexicon.h: lex_ (std::map)", "src/trieutf8.h: std::set of words", "src/utf8iterator.cpp: CodePointToUtf8"]}
{"id": "C90", "title": "A larger grammar never loses an answer", "statement": "If every rule of a grammar also stands in another grammar under the same section name, in any order, then every match of the first is a match of the second with the same rules, the score of the chosen match does not fall, an address that is standardized stays so, and every row of as_match stays. Two grammars with the same rules in different orders agree on the best score and on whether an address is standardized.", "quantifier": "all pairs of accepted grammars, one containing the other, all addresses and lexicons (no NaN score, at most 2^32 class combinations)", "why_tests_cant": "It relates all pairs of grammars; a test compares two.", "anchors": ["src/search.cpp: Search::search, Search::match, Search::searchAndReclassBest", "src/as_wrapper.cpp: std_standardize, std_match_address"]}
{"id": "C91", "title": "Blanks around an address and the case of its letters change nothing", "statement": "If SPACE is filtered and no listed word begins or ends with white space, as_standardize, as_parse and as_match answer the same for an address with and without blanks before and after it. Addresses with the same normal form in upper case have the same answers. A second blank inside the address, a listed word that ends with a blank (as in data/sample/france.lex), a filter without SPACE or, after two tabs, a blank at the end (C95) do make a difference.", "quantifier": "all addresses, numbers of blanks, grammars, lexicons and filters (words without carets and braces, text without tabs and without characters listed in two cases)", "why_tests_cant": "All pairs of addresses that differ in blanks; a test compares a few.", "anchors": ["src/tokenizer.cpp: Tokenizer::getTokens", "src/as_wrapper.cpp: std_standardize, std_parse_address, std_match_address"]}
{"id": "C92", "title": "Only the words that occur in an address matter", "statement": "Two lexicons with the same locale and the same entries for every word that occurs in the address (in any case, perhaps with full stops for commas, and the single blank) give the same answers of as_standardize, as_parse and as_match, provided both list some word or neither does. Inserting an entry whose word does not occur changes nothing. The first word of a lexicon does matter for every address, because a lexicon without words lets an address begin with a separator.", "quantifier": "all pairs of lexicon texts, addresses, grammars and filters (words without carets and braces, text without characters listed in two cases)", "why_tests_cant": "All pairs of lexicons; the words are compiled into one regular expression, in which any word might disturb any other.", "anchors": ["src/lexicon.cpp: Lexicon::regex, regexPrefixAtt, regexSuffixAtt, classify, standardize", "src/trieutf8.cpp: TrieUtf8::getRegexp", "src/tokenizer.cpp: Tokenizer::getTokens", "src/as_wrapper.cpp: std_standardize, std_parse_address, std_match_address"]}
{"id": "C93", "title": "The order of lexicon lines matters only among the lines of one word", "statement": "Two lexicon texts with the same locale whose entries for every word are the same in the same order of first occurrences give the same answers for every address; repeated lines do not matter. Of two lines of one word with the same class the first decides.", "quantifier": "all pairs of accepted lexicon texts, all addresses, grammars and filters", "why_tests_cant": "All orders of all lexicons.", "anchors": ["src/lexicon.cpp: Lexicon::insert", "src/lexicon.cpp: Lexicon::standardize", "src/as_wrapper.cpp: std_standardize, std_parse_address, std_match_address"]}
{"id": "C94", "title": "The trie over bytes", "statement": "A byte trie filled with words answers isWord for exactly the non-empty words added and isPrefix for exactly their beginnings; size counts every addition of a non-empty word; getWords and getWordsStartingWith list the distinct words in byte order. For words in UTF-8 all of these agree with TrieUtf8 on the code points. getRegexp has undefined behaviour exactly when some word contains one of the characters -.+*~$()[]\\|? (quoteChar adds the character to the address of a two-byte literal); for other ASCII words it is the pattern of TrieUtf8 and matches exactly the words. For UTF-8 words the pattern need not be UTF-8. Both tries print their first characters in the order of the key type: signed for bytes.", "quantifier": "all lists of byte strings, all prefixes and subjects", "why_tests_cant": "Infinitely many word lists; no part of the project or its tests uses the class, and the quoting of special characters reads outside a literal, which may go unnoticed.", "anchors": ["src/trie.cpp: Trie::addWord, isPrefix, isWord, getWords, getWordsStartingWith, quoteChar, getRegexp, operator<<", "src/trie.h: Trie", "src/trieutf8.cpp: operator<<"]}
{"id": "C95", "title": "White space between words is not all the same", "statement": "A separator of white space gives one token of class SPACE whose text is a blank, but if it begins with a tab the text is empty and the class is PUNCT, and if anything stands between its second tab and its third the class is BADTOKEN, which no filter for white space drops. So an address with two tabs and a blank between two words has no match where the same address with one blank, one tab or two tabs has one; with a filter that names only SPACE one tab is enough; and a blank after an address that ends with two tabs changes the answer.", "quantifier": "all separators of white space, all lexicons that list neither the empty word nor the blank", "why_tests_cant": "All runs of white space; tests use single blanks.", "anchors": ["src/token.cpp: Token::Token(std::string)", "src/tokenizer.cpp: Tokenizer::getTokens", "src/lexicon.cpp: Lexicon::classify"]}
{"id": "C96", "title": "Separators between words can be exchanged", "statement": "If an address is changed by replacing whole separators that stand between words, each of them neither at the beginning, nor after a long dash, nor a single slash, comma or full stop, without line ends, and each giving a token with a class that the filter names, then standardize, parse and match give the same results, provided that none of these separators begins within a listed word that occurs in the address. In particular the number of blanks between words does not matter when SPACE is in the filter and no listed word in the address contains a blank. A comma between digits cannot be exchanged: 3,5 is one token, 3, 5 is two.", "quantifier": "all addresses, lexicons, grammars, filters, sets of separators and tables that satisfy the stated conditions", "why_tests_cant": "Infinitely many pairs of addresses; tests write each address in one way.", "anchors": ["src/tokenizer.cpp: Tokenizer::getTokens", "src/lexicon.cpp: Lexicon::regex, Lexicon::classify", "src/as_wrapper.cpp: std_standardize, std_parse_address, std_match_address"]}
{"id": "C97", "title": "A copied grammar depends on the one first read", "statement": "Grammar objects are read, copied (Search derives from Grammar and is always made by copying one) and deleted in any order. As long as the Grammar that was first read still exists, searching any section of any object copied from it, directly or through other copies, finds the same rules in the same order as the grammar itself prescribes, whichever other objects were made, copied or deleted. The references inside a copy point into the sections of the Grammar first read: once that one is deleted the search is undefined exactly when the section searched (ADDRESS in the wrappers) is a section of references with at least one alternative and the phrase has at least one pattern of classes (their number is computed modulo 2^64); otherwise it is still right. It is false that a copy is independent of its original. Making, copying and deleting itself is defined exactly when only existing objects are copied and deleted.", "quantifier": "all sequences of making, copying and deleting grammar objects, all grammar texts accepted by the loader, all phrases, all tables", "why_tests_cant": "Use after delete often gives the right result by chance; tests keep the Grammar alive, as the wrappers do.", "anchors": ["src/grammar.cpp: Grammar::updatePointers", "src/search.h: Search::Search", "src/search.cpp: Search::search, Search::match, Search::matchNext, Search::stringToSectionPtr", "src/as_wrapper.cpp: standardize_addr, match_addr, freeGrammarPtr"]}
{"id": "C98", "title": "Only what a grammar says counts, not how it is written", "statement": "If two grammar texts correspond section by section, starting from ADDRESS, with the same alternatives and rules in the same order within corresponding sections, then standardize and match give the same results for every address, lexicon and filter. So the order of sections, their names, and sections not reached from ADDRESS do not matter. For a particular address moreover rules that need a class no token of it has, and alternatives one of whose sections can only be read with such a class, may be added or left out anywhere. The order of lines within a section does matter: of two rules with equal scores the first one is chosen.", "quantifier": "all pairs of accepted grammar texts and correspondences, all addresses, lexicons, filters and tables", "why_tests_cant": "Pairs of programs over all addresses; the search uses pointers, positions and an index by name, any of which could depend on the layout of the text.", "anchors": ["src/grammar.cpp: Grammar::initialize, Grammar::updatePointers", "src/search.cpp: Search::search, Search::match, Search::matchNext, Search::matchRule", "src/as_wrapper.cpp: std_standardize, std_match_address"]}
{"id": "C99", "title": "Results contain no invented characters and are not cut on the way to the caller", "statement": "Every character of a column returned by as_standardize occurs in the text that is searched (the normalized, upper-cased address) or in a standard word of the lexicon, or is the blank between two words or the full stop put for the comma of a number. More generally, any set of characters that contains ASCII without NUL and is closed under normalization and upper-casing contains all characters of all results (columns, patterns, parsed words, classes, compiled lexicons, error messages) if it contains those of the arguments; archives of lexicons are included. Since this applies to the set of all characters other than NUL, nothing is lost where results are handed over as C strings; of the arguments exactly the part before the first NUL counts, and cutting bytes is the same as cutting characters.", "quantifier": "all addresses, grammars, lexicons (texts and archives), locales, filters, all sets of characters, all tables and normalizers closed on the set", "why_tests_cant": "A statement about every character of every result including the messages of all exceptions; captures of regular expressions, substrings computed by lengths in bytes, patterns generated from tries and strings read from archives by their lengths are all places where a foreign or cut character could enter.", "anchors": ["src/as_wrapper.cpp: std_standardize, std_parse_address, std_match_address, serialize_lexicon", "src/tokenizer.cpp: Tokenizer::getTokens, Tokenizer::splitToken", "src/lexicon.cpp: Lexicon::initialize, Lexicon::standardize, Lexicon::classify", "src/grammar.cpp: Grammar::initialize, Grammar::updatePointers", "src/trieutf8.cpp: TrieUtf8::getRegexp", "src/utf8iterator.cpp: CodePointToUtf8"]}
{"id": "C100", "title": "The lines of grammars and lexicons are recognized by the regular expressions of the source", "statement": "The expressions with which grammars and lexicons are read do what the rest of the properties assumes of them: the expression for comments matches exactly the blank lines and the lines whose first character other than white space is '#'; the expression for sections matches exactly the lines '[name]' with white space around them and its group is the whole name (which may contain brackets); the expression for meta rules matches exactly the lines that consist of references '@name', and the loop of searches collects exactly these names in their order; the replacement leaves one blank of every run of blanks; the expression for the long dash matches that one character. None of them throws or loops on any line, and a grammar or lexicon read with them is the grammar or lexicon of the hand-written readers used in the other properties.", "quantifier": "all lines, all texts of grammars and lexicons, all character tables in which brackets, '#' and '@' are not white space and name characters are not white space", "why_tests_cant": "Backtracking explores many ways to match; that the group of the section expression and the greedy runs are the intended ones holds for all lines only by an argument about all ways.", "anchors": ["src/grammar.cpp: Grammar::initialize (re_comment, re_section, re_ismeta)", "src/metarule.cpp: MetaRule::MetaRule(const std::string &)", "src/lexicon.cpp: Lexicon::initialize, Lexicon::classify (emdash_exp)"]}
{"id": "C101", "title": "Words as bytes: UTF-8 that is not valid", "statement": "Utf8Iterator reads any bytes by their leading bytes alone: the bytes of a string are cut into groups of one to four by the size class of the leading byte (a continuation byte in that place counts as a leading one), of the other bytes the last six bits are used whatever the others are, and a string that ends within a group is read beyond its end; nothing is ever reported. TrieUtf8 stores, finds and lists words through these numbers: adding is undefined exactly for the words that end within a group, looking up a word that ends within a group is undefined exactly if the characters before it lead to a node and false otherwise, a word is found exactly if it is read as the same numbers as a word added, lists and patterns give the valid UTF-8 of the numbers, and throw exactly if a number is beyond the code points. For valid words the bytes given are the bytes found and listed, and the pattern is that of the code points. Not true: that bytes which are not UTF-8 are noticed, that words not added are not found, that what is listed was added, that a word accepted gives a pattern, that iterating backwards gives the same characters.", "quantifier": "all byte strings and all lists of byte strings", "why_tests_cant": "Test words are valid UTF-8; the lexicon is a file and may hold any bytes.", "anchors": ["src/utf8iterator.cpp: Utf8Iterator::operator++, Utf8Iterator::operator--, Utf8Iterator::CalculateCurrentCodePoint, CodePointToUtf8", "src/trieutf8.cpp: TrieUtf8::addWord, TrieUtf8::isWord, TrieUtf8::isPrefix, TrieUtf8::getWords, TrieUtf8::getWordsStartingWith, TrieUtf8::getRegexp, operator<<"]}
{"id": "C102", "title": "What the digests kept with grammars and lexicons cover", "statement": "The digest that a grammar keeps of its text (getMd5) is the digest of its lines run together without line feeds, with the byte order mark, followed by the rest behind the last line feed a second time (a last line without line feed is read twice); a text is accepted or rejected regardless of it. Hence texts that differ only in where their lines end have the same digest. Not true: that grammars, or lexicons, with the same digest are the same (no collision of the digest function is needed: '@house' and '@street' on two lines are two rules, '@house@street' on one line is one).", "quantifier": "all grammar texts, all character tables and number readers", "why_tests_cant": "A test compares the digests of some texts; that texts of different meaning share a digest shows only when one looks for them.", "anchors": ["src/grammar.cpp: Grammar::initialize (grammar_in, md5_)", "src/grammar.h: getMd5", "src/lexicon.cpp: Lexicon::initialize (lexicon_in, md5_)"]}
{"id": "C103", "title": "The columns that SQL callers see", "statement": "as_standardize returns the seventeen columns it is declared with; the column of each name holds the words of the best match whose output class belongs to that column (house_num: HOUSE, name: STREET, box: BOXH and BOXT, ...), and all are NULL when nothing matches or an argument is refused. as_parse returns pat, seq, word, inclass and attached of every token, as_match tokens and score of every match. Building the rows reads no value that is not there and none of another type. With a NULL argument the result is NULL or no rows. Not true: that as_match reports the number of rules of a match (the C function stores it as a third value, but the function is declared with two columns).", "quantifier": "all arguments, including NULL, all character tables, number readers and sorts", "why_tests_cant": "The declaration, the C code and the C++ code agree on the order and the types of columns only by position; a test shows it for the columns that are filled in its examples.", "anchors": ["src/address_standardizer2--2.0.sql.in", "src/address_standardizer.c: as_standardize, as_parse, as_match (values, heap_form_tuple)", "src/as_wrapper.cpp: standardize_addr"]}
{"id": "C104", "title": "Compiled lexicons that are cut short, broken or followed by something", "statement": "A compiled lexicon of which more than the last 34 characters are missing is refused with Lexicon-Invalid-File-Format. One that lacks at most 34 characters is read with all its words (only the digest is damaged), and every answer is that of the whole archive. Text behind a compiled lexicon is ignored. A text that does not begin as an archive does (blanks, perhaps a plus, the number 22, a character, the signature) is read as a source and nothing else. When an archive is broken, what was read of it stays: if a source follows, the lexicon has the header and digest of the source, and for every word the entries of the archive followed by those of the source that are not among them. Not true: that every cut is noticed; that a text which is no readable archive gives the lexicon of its source.", "quantifier": "all lexicon sources, all places of the cut, all following texts, all broken archives; for the refusal, normalizing and upper-casing that make no line feeds", "why_tests_cant": "A test cuts an archive at a few places; the effect depends on which of the numbers and strings is cut, and what is left in the object after an exception is visible only when a second reading succeeds.", "anchors": ["src/as_wrapper.cpp: getLexiconPtr, std_standardize, std_parse_address, std_match_address (try ia >> lexicon, catch, initialize)", "src/lexicon.h: load", "src/lexicon.cpp: initialize"]}
{"id": "C105", "title": "A line added to a grammar text", "statement": "Inserting a line that is not a section header before any line of a grammar text gives, if the new text is accepted, a grammar that contains all rules of the old one: an address that was standardized still is, and the rows of as_match stay. A rule line inserted behind a rule line is accepted and becomes the next rule of that section; a line of references to existing sections inserted behind such a line becomes the next line of that section; nothing else changes. A comment or blank line changes no answer. Not true: that a further header takes no answer away.", "quantifier": "all grammar texts without byte order mark, all positions, all lines, addresses and lexicons (at most 2^32 combinations of classes, no NaN scores for the claim about as_standardize)", "why_tests_cant": "Editing a grammar is how users extend the program; a test shows the effect of one edit at one place.", "anchors": ["src/grammar.cpp: initialize, updatePointers", "src/search.cpp: search, matchNext", "src/as_wrapper.cpp: std_standardize, std_match_address"]}
{"id": "C106", "title": "Bounds and loops of the message digest", "statement": "Fed with fewer than 2^32-64 bytes (exactly: fewer than the greatest number below 2^32 that completes the waiting bytes to whole blocks), MD5::update accesses its buffer, its input and the decoded words only within their bounds, its loops end, and it computes what C46 and C47 are about; so do finalize, with its padding and count, and hexdigest, with its character buffer. md5() of a text digests as many bytes as the length modulo 2^32 says. Not true: that every text has a digest (the counter of the loop wraps around); that all bytes of a text are digested (the length is cut to 32 bits).", "quantifier": "all texts, all contents of the uninitialized arrays, all states of the object", "why_tests_cant": "The wrap-around needs inputs of four gigabytes, and an access one element outside of an array usually goes unnoticed.", "anchors": ["src/md5.cpp: update, finalize, transform, decode, encode, hexdigest, MD5(const std::string &), md5", "src/md5.h: size_type, buffer, digest"]}
{"id": "C107", "title": "Memory of the nodes of a trie", "statement": "Adding words to a new trie accesses no node that is not allocated and leaves all other memory as it was. There is then exactly one node for each different prefix of the words (the empty one included), reached by no other path, and no other new node. isWord and isPrefix never meet a null pointer and answer whether the word was added, or is the beginning of one; the functions that visit all nodes see the tree that C43 is about. Destroying the trie frees each of its nodes once and nothing else. Not true: that a copy of a trie can be destroyed too (the class has a destructor but the copy constructor of the compiler, so the nodes are freed twice, for every trie with a word).", "quantifier": "all lists of words, all contents of the memory before, all choices of addresses by new that are not in use", "why_tests_cant": "Leaks, double frees and reads of freed nodes usually go unnoticed, and depend on the allocator.", "anchors": ["src/trieutf8.h: TrieUtf8, ~TrieUtf8", "src/trieutf8.cpp: addWord, isPrefix, isWord, getWords, getRegexp", "src/trie.h: Trie, ~Trie", "src/trie.cpp: addWord"]}
{"id": "C108", "title": "The order that as_match sorts by is one", "statement": "std::sort may only be given a strict weak order; otherwise its behaviour is undefined. The comparison of as_match (greater score first) is one on given rows exactly if no score is NaN or no row has a greater score than another. For every grammar whose scores are numbers it is one on the rows of all matches. Not true: that it is one for every grammar that loads; a rule with the score nan passes the checks of the grammar, and three matches with the scores 0.5, nan and 0.9 break the order. The choice of the best match (C06, C07, C08, C61, C62) has a meaning for such grammars too: a match whose average is not a number counts as one with the score zero.", "quantifier": "all lists of rows; all loaded grammars and phrases", "why_tests_cant": "Sorting a few rows with a broken order usually goes well; larger lists can be read out of bounds.", "anchors": ["src/as_wrapper.cpp: sortByScoresDesc, match_addr", "src/search.cpp: searchAndReclassAll, searchAndReclassBest", "src/rule.cpp: Rule, parse"]}
{"id": "C109", "title": "Files are read as their texts, and a missing one is never an object", "statement": "Grammar(std::string) and Lexicon(name, file) open a file without looking at the result. Each name stands for one text: the contents of the file with that name up to its first NUL, or the empty text if nothing can be opened or read there. Both constructors give exactly what the text gives; where nothing can be read they throw, with a message about the contents and not about the file. A char pointer is not a file name but the text itself: a file name written as a literal never gives a grammar, whatever the file contains, unless the name has a left bracket in it (so Grammar G( \"good.grammar\" ) in grammar-test.cpp always throws, and the tests that expect an exception pass without looking at their files). The program compile-lexicon writes what as_compile_lexicon returns except for the stored name, so all SQL functions answer alike, and it fails on the same texts with the same messages.", "quantifier": "all file systems, names and texts; all calls", "why_tests_cant": "The tests of the repository call the other constructor by mistake and cannot tell; unreadable and missing files are rarely tried.", "anchors": ["src/grammar.cpp: Grammar::Grammar (three), initialize", "src/grammar.h: constructors", "src/lexicon.cpp: Lexicon::Lexicon (three), initialize", "src/tester/compile-lexicon.cpp: main", "src/test/grammar-test.cpp: Grammar_Good"]}
{"id": "C110", "title": "The shipped lexicons can be used", "statement": "Each of the 25 lexicons in data/sample is valid UTF-8 text, is accepted as a lexicon (under any name, every line of it being an entry whose classes all exist), is not mistaken for a compiled one, has one of 24 locales, and lists no word with a caret or a brace, so the pattern made from it is a regular expression. With it and any of the 25 shipped grammars every address is tokenized, and standardized if at most 31 tokens contain blanks: no exception and no undefined behaviour.", "quantifier": "all 25 lexicons byte by byte, all 25 grammars, all addresses, locales and filters, all Unicode tables that upper-case Latin letters one by one", "why_tests_cant": "The tests of the repository use a few lexicons and addresses; a single line with an unknown class makes every call fail.", "anchors": ["data/sample/*.lex", "src/lexicon.cpp: initialize", "src/lexentry.cpp: LexEntry(std::string)", "src/tokenizer.cpp: getTokens", "src/as_wrapper.cpp: std_standardize"]}
{"id": "C111", "title": "What the shipped lexicons say takes effect", "statement": "Expected: every attachment named in a shipped lexicon is documented (DETACH and DETACHED standing for none), and every word is found where it stands in an address. Not true: the lines of germany.lex end in CR LF, so what stands last on a line is lost (UFER is listed with ATT_SUF but loaded without it: ELBUFER 5 stays one word, with the carriage returns removed it is ELB UFER 5); andorra.lex has DETATCH, which is ignored as DETACH is; belgium.lex lists SUITE with a blank behind it, so SUITE 5 has a plain word in it and only SUITE with two blanks behind it is a unit. True: no other shipped lexicon has a carriage return, and outside germany.lex every name in the attachment column is documented, but for DETATCH.", "quantifier": "all 25 lexicons, all their lines and fields", "why_tests_cant": "Unknown names and invisible characters raise no error; only some addresses of some countries come out differently.", "anchors": ["data/sample/germany.lex", "data/sample/belgium.lex", "data/sample/*.lex", "src/lexentry.cpp: LexEntry(std::string)", "src/inclass.cpp: asAttachType"]}
{"id": "C112", "title": "Grammar files that follow the documented syntax load", "statement": "Every file written by the documented syntax (comments and empty lines anywhere; groups with a name in brackets, each with at least one line, all of its lines being either references with an at sign or rules with as many input as output classes and a number; words separated by blanks or tabs) in which ADDRESS is there, no name is used twice and every reference leads to a group is accepted, provided no number is zero; the grammar has exactly the written groups, lines, references, classes and scores in the written order, and nothing is reported unless a group other than ADDRESS is not referred to. A score of 0.0, which the syntax allows, makes the whole file fail.", "quantifier": "all files of the documented syntax, all Unicode tables with the ASCII letters, digits and the tab as usual, all conversions of numbers", "why_tests_cant": "The syntax describes infinitely many files; the tests load a few.", "anchors": ["DOCUMENTATION.md: Grammar File Format", "docs/grammar.md", "src/grammar.cpp: initialize, check", "src/rule.cpp: Rule(std::string)", "src/metarule.cpp: MetaRule"]}
{"id": "C113", "title": "What the documents say of lexicons, classes and tokens", "statement": "True: the tables of input and output classes list exactly the names of the classes except STOP, the comma and IGNORE; the attachments of an entry are exactly those named between the commas, and DETACHED, DETACH and blanks stand for none; name and language in the header of a lexicon have no effect on any result; in a text without tabs the standard word, the output class and the attachments of every token are empty before matching. Not true: that the locale in the header is not used (a lexicon of Turkish words answers differently), that the header must be the first line, that lines may end in CR LF (an entry without the last column is then rejected), that articles can be listed as IGNORE (the lexicon is rejected), that stop words combine with words into one token, that a token has the attachments of its entries (it has none), that the standard word is only set after matching (a tab between two punctuation marks sets it), and that PCT is digit, letter, digit (1AB is one).", "quantifier": "all columns of attachments, all lexicons and headers, all addresses, filters and locales, all Unicode tables with a plain blank", "why_tests_cant": "The documents speak of all files and addresses; no test compares them with the program.", "anchors": ["docs/inclass.md", "docs/outclass.md", "docs/lexicon.md", "docs/token.md", "data/README.md", "src/lexicon.cpp: initialize", "src/inclass.cpp: asAttachType", "src/tokenizer.cpp: getTokens", "src/token.cpp: Token(std::string)"]}
{"id": "C114", "title": "Tuning the scores", "statement": "Changing scores never changes which sequences of rules match, only which of them is chosen. Lowering the scores of rules which the answer does not use leaves the answer of as_standardize as it is. If only scores of rules are changed which the answer does not use, and the answer changes, then the new answer uses one of the changed rules. With all scores at most one, raising to 2^25 the score of a rule that one match alone uses makes that match the answer. Not true as the advice of data/README.md suggests: no score up to one, the range of a probability, need be enough; and raising the score of a rule of the right answer can replace it by another answer.", "quantifier": "all pairs of loaded grammars that differ in scores only, all lists of tokenizations, all binary32 scores (subnormal numbers and infinity included)", "why_tests_cant": "The statement compares two grammars on every address; it rests on the monotony of rounded sums and quotients, which tests only sample.", "anchors": ["data/README.md:54-59", "src/search.cpp: searchAndReclassBest", "src/rule.cpp: Rule(std::string)"]}
{"id": "C115", "title": "How many matches there are", "statement": "If no section of a grammar has more than a lines and no line more than w references, a search of n tokens lists at most c*(a+1)^(2*((n+2)*w+1)) matches, c being the number of class combinations. No polynomial in n is enough: with a grammar of six lines, n words have 2^n readings, and the search lists, and as_match returns, 2^(2n-1) rows, because matchNext follows the whole list once for each of its members.", "quantifier": "all loaded grammars, all sections, all phrases; for the grammar of six lines all phrases of words of any length", "why_tests_cant": "The growth is a statement about phrases of every length; tests of ordinary length finish before it shows.", "anchors": ["src/search.cpp: matchNext", "src/search.cpp: match", "src/search.cpp: searchAndReclassAll"]}
{"id": "C116", "title": "Standard words are standard", "statement": "Reading the standard form of a word again in the same class gives the same form, however often, exactly when the forms of the lexicon are settled; it is enough that the standard word of each entry is either not listed in the classes of the entry or listed there as itself. The loader does not require this: two entries that name each other load and are never settled, and in the Portuguese lexicon \u00c9VORA becomes EVORA but EVORA becomes EVORA with a blank. Even with a settled lexicon the answer of a call, read as an address, may match nothing.", "quantifier": "all lexicons, words, classes and numbers of readings; the refutations by loaded lexicons and a whole call", "why_tests_cant": "Idempotence is a statement about every entry of every lexicon a caller may load; a test compares a few words with expected forms.", "anchors": ["src/lexicon.cpp: standardize", "src/lexicon.cpp: initialize", "src/as_wrapper.cpp: std_standardize", "data/sample/portugal.lex"]}
{"id": "C117", "title": "The sample data reach the database as they are in the files", "statement": "The SQL script that tools/load-lex-gmr-files writes (src/Makefile.pg builds the extension's sample data with it) has, for every lexicon with a grammar beside it, one insert whose values are the country code, the country, the data set, the text of the lexicon and the text of the grammar, whatever quotes and semicolons are in the two texts, provided the country and the data set have no quote; the statements around the rows are the fixed ones. A country with an apostrophe breaks the script. The codes of the shipped lexicons are computed; they are not distinct: vatican.lex has the locale it_IT and thus the code of Italy, so that the documented join on countrycode returns two rows for an Italian address.", "quantifier": "all lists of files, all texts, all data set names; the codes for all shipped lexicons", "why_tests_cant": "Quoting has to be right for every text; a test sees the sample files only, and would not compare the codes of two countries.", "anchors": ["tools/load-lex-gmr-files: loadFile", "tools/load-lex-gmr-files: createTable", "data/sample/vatican.lex", "DOCUMENTATION.md:485-515"]}
{"id": "C118", "title": "compare-lexicon reports the missing entries", "statement": "tools/compare-lexicon is to report all entries of the second lexicon that the first one lacks. It reports all entries of the second if the first has none, and otherwise nothing, because the hash is indexed with the constant key instead of the word.", "quantifier": "all pairs of lexicon texts with a header", "why_tests_cant": "No test runs the scripts; equal lexicons give the expected empty output.", "anchors": ["tools/compare-lexicon:33", "tools/compare-lexicon:60"]}
{"id": "C119", "title": "More classes for a listed word lose no match", "statement": "If the words of a lexicon that have classes get further ones, none of them a filtered class and without new attachments, then the tokens of every address stay the same with at least their classes, every match is still found, the score of the chosen match does not fall, every row of as_match stays and an address that was standardized stays so. The pattern of a trie depends only on the set of its words. With a filtered class the word disappears and the address may become unmatched; the chosen answer may become another one.", "quantifier": "all built lexicons, grammars, addresses, locales and filters with at most 2^32 class combinations per phrase", "why_tests_cant": "Each lexicon line and each address is another case; the tests use fixed lexicons.", "anchors": ["src/trieutf8.cpp:143", "src/lexicon.cpp:201", "src/tokenizer.cpp:164", "src/tokenizer.cpp:260", "src/search.cpp:19", "src/as_wrapper.cpp:101"]}
{"id": "C120", "title": "Converted PAGC rules make a grammar that loads", "statement": "tools/convert-pagc-rules reads files of PAGC rules (input codes, -1, output codes, -1, section, score, apart by white space) and writes a grammar. Lines that do not begin with a digit and rules with unequal numbers of codes or an unknown section count for nothing. If the codes are in range, each of the five sections has a rule and the scores are above 0, the grammar loads without a complaint; its ADDRESS section has the four fixed lines, and each section has exactly its rules, longest first and otherwise in the order of the files, the codes as the classes with these numbers in the library (5 as TYPE) and the twentieth of the score. Without a rule in some section, or with a score of 0, the grammar written is rejected. A malformed line with three -1 in a row is not refused but read as a rule with class UNITT.", "quantifier": "all lists of files of such lines, all white space, codes, sections and scores, all number readers and Unicode tables that treat ASCII as usual", "why_tests_cant": "The tool has no test; the files are unbounded and the sort, the separators and the tables matter for each line.", "anchors": ["tools/convert-pagc-rules:11", "tools/convert-pagc-rules:36", "tools/convert-pagc-rules:66", "src/grammar.cpp:64"]}
{"id": "C121", "title": "Converted PAGC words make a lexicon that loads", "statement": "tools/convert-pagc-lex-gaz reads tables of words (four columns apart by tabs: number, word, class, standard form) and writes a lexicon; lines with another number of columns, empty ones at the end not counted, mean nothing. If the classes are numbers of known classes other than 4 and 5, the words survive the normalization of the loader and each standard form matches itself as a pattern, the script ends and the lexicon loads: for each word it has exactly one entry per standard form, with all the classes of the rows with both, in the order of the standard forms, and the locale en_US. A row with class 5, which the rule converter writes as TYPE, makes a lexicon that is rejected. A word given twice with a standard form that does not match itself as a pattern stops the script.", "quantifier": "all lists of files of such lines, all words, classes and standard forms, all regular expression matchers and environments that keep the words", "why_tests_cant": "The tool has no test; tables are unbounded, and merging, order and normalization depend on all the rows.", "anchors": ["tools/convert-pagc-lex-gaz:6", "tools/convert-pagc-lex-gaz:27", "tools/convert-pagc-lex-gaz:56", "src/lexicon.cpp:67"]}
{"id": "C122", "title": "The license script changes nothing but the header of source files", "statement": "tools/add-lic-to-source changes only files ending in .h, .cpp or .c that are not excluded by name and not below a directory archive. A chosen file that begins with the header stays as it is; one without marks gets the header in front; one with an old header (at most 20 lines from an opening to a closing mark, other marks only behind a header that does not start in the first line) has it replaced; one with only half of a header stays as it is. In no case is anything else removed than at most 20 lines from a line with an opening mark to one with a closing mark. A second run changes nothing, if the last line of the header file is ended. False: that an old header is always replaced (not if longer than 20 lines, nor if a second one follows, since index 0 counts as not found), and that code is never lost (a closing mark further down takes the code before it along).", "quantifier": "all header texts, lists of exclusions and sets of files", "why_tests_cant": "There is no test of the script; it rewrites every source file it finds, whatever is in it.", "anchors": ["tools/add-lic-to-source:61", "tools/add-lic-to-source:73", "tools/add-lic-to-source:101", "tools/add-lic-to-source:117"]}
{"id": "C123", "title": "An address made of two parts has the tokens of its parts", "statement": "Let an address, as it is read, consist of a line a that is read to its end and ends with neither a separator nor a dash, a whole separator g that is no single slash, comma or full stop, and a further text b that does not begin with a separator, and let no listed word that begins in a reach beyond it. Then the tokens are those of a, the token of g and those of b; if the filter drops the token of g, they are the tokens of a followed by those of b, and the rows of as_parse for the first tokenization are those of a followed by those of b; the tokenizations of the whole are all pairs of a tokenization of a and one of b, those of a varying faster. The same holds for any number of parts. The conditions hold for a line of letters, digits and separators that begins and ends with a word, if the first sign of the separator is in no listed word. False without the conditions: a listed word across the separator, or a sign between two numbers, changes the tokens.", "quantifier": "all addresses, lexicons with at least one word, filters, locales and Unicode tables in which letters and digits are no separators", "why_tests_cant": "A regular expression made from the whole lexicon is matched against the whole rest of the text in every round; that what follows a separator never influences the tokens before it is a statement about all continuations.", "anchors": ["src/tokenizer.cpp:164", "src/tokenizer.cpp:201", "src/tokenizer.cpp:215", "src/tokenizer.cpp:257", "src/tokenizer.cpp:271", "src/as_wrapper.cpp:302"]}
{"id": "C124", "title": "An address that cannot be read at its beginning has no tokens", "statement": "Let an address be one line and the lexicon list at least one word. It has no tokens exactly if no token, that is no listed word, pair of numbers or run of letters and digits followed by a separator or the end, can be read at its beginning after blanks. So it is, whatever follows, if the first character after the blanks is neither a letter, a digit nor a blank and no listed word begins with it or with one of the blanks: '#12 Main st' and '(PO Box 7)' have no tokens. as_parse then returns no rows, and all addresses of that kind have the same answers from all three functions; if every rule of the grammar has an input class, as_standardize returns nulls and as_match only the row that says so. False with a rule that has no classes, which standardizes such addresses to an empty row; and if a listed word begins with the sign, or if a line break follows it.", "quantifier": "all one-line addresses, lexicons with at least one word, grammars, filters, locales and Unicode tables in which letters and digits are no separators", "why_tests_cant": "That nothing after the first sign can ever produce a token is a statement about all continuations of the text and all lexicons; a test shows single addresses.", "anchors": ["src/tokenizer.cpp:164", "src/tokenizer.cpp:203", "src/tokenizer.cpp:215", "src/as_wrapper.cpp:302", "src/as_wrapper.cpp:52"]}
{"id": "C125", "title": "What stands behind a place that cannot be read is lost", "statement": "Let an address, as it is read, be a line a that is read to its end, a separator g, under the conditions of C123, and a further line b at whose beginning no token can be read (C124: it begins with a sign such as $, + or =). Then its tokens are those of a and the token of g, whatever b is; if the filter drops the token of g, as_standardize, as_parse and as_match answer exactly as for a alone: '12 Main st,  $5 PO Box 7' is answered as '12 Main st', without an error. False if b has a line break: reading goes on after it.", "quantifier": "all addresses of that form, lexicons with at least one word, grammars, filters, locales and Unicode tables in which letters and digits are no separators", "why_tests_cant": "A statement about all continuations of an address, all lexicons and all grammars; the answer for the shortened address looks like any good answer.", "anchors": ["src/tokenizer.cpp:203", "src/tokenizer.cpp:215", "src/as_wrapper.cpp:52", "src/as_wrapper.cpp:302", "src/as_wrapper.cpp:414"]}
{"id": "C126", "title": "Only the classes that a filter names and tokens have matter", "statement": "Two filter texts that name the same classes give the same answers of all three functions for every address, grammar and lexicon argument: order, repetitions and blanks around names do not count. Nor do classes that no token of the address has. A name that is no class stands for BADTOKEN; no token of an address without tabs has that class, so a misspelled name added to a filter changes no answer for such addresses and is not reported. False for addresses with tabs, where it drops separators.", "quantifier": "all addresses, filter texts, lexicons, grammars and locales", "why_tests_cant": "Equality of answers for all pairs of filter texts and all inputs; a test compares single pairs.", "anchors": ["src/inclass.cpp:119", "src/tokenizer.cpp:260", "src/as_wrapper.cpp:110", "src/as_wrapper.cpp:356", "src/lexicon.cpp:136"]}
{"id": "C127", "title": "as_parse shows the classes that can be matched", "statement": "For every address, lexicon, grammar, locale and filter: if as_parse returns rows, then the input classes in the pattern of each row of as_match (other than the failure row) are taken from the rows of as_parse with one pattern number, one class from the class list of each row, in order; the pattern has as many output classes. The same holds for the pattern of as_standardize. That the number is 1 is false.", "quantifier": "all addresses, lexicon arguments, grammars, locales and filters", "why_tests_cant": "It relates the answers of two functions for all grammars and lexicons; tests compare single calls.", "anchors": ["src/as_wrapper.cpp:52", "src/as_wrapper.cpp:414", "src/as_wrapper.cpp:347", "src/search.cpp:97", "src/search.cpp:140"]}
{"id": "C128", "title": "For the search only the classes of the tokens count, not the words", "statement": "If as_parse gives the same pattern numbers and classes for two addresses, whatever their words, lexicons, locales and filters, then as_match gives the same rows with the same scores for every grammar, and as_standardize gives the same pattern, or both give no match. The other fields can differ. For the rows that SQL callers see this holds if there are rows; without rows it is false, because a wrong lexicon gives no rows either.", "quantifier": "all pairs of addresses, lexicon arguments, locales and filters, all grammars", "why_tests_cant": "Equality of answers over all pairs of inputs and all grammars; a test compares single pairs.", "anchors": ["src/as_wrapper.cpp:52", "src/as_wrapper.cpp:347", "src/as_wrapper.cpp:414", "src/search.cpp:64", "src/search.cpp:274", "src/token.cpp:95"]}
{"id": "C129", "title": "as_parse shows all that as_standardize uses", "statement": "For one lexicon: if as_parse gives the same pattern numbers, words and classes for two addresses without tabs, whatever their separators, locales and filters, then as_standardize gives the same row for every grammar. For the rows that SQL callers see this holds if as_parse has rows. False for addresses with tabs: a separator such as tab and # brings a standard text that as_parse does not show and as_standardize returns.", "quantifier": "all pairs of addresses, locales and filters, all lexicon arguments and grammars", "why_tests_cant": "Equality of answers over all pairs of inputs and all grammars; a test compares single pairs.", "anchors": ["src/as_wrapper.cpp:101", "src/as_wrapper.cpp:347", "src/search.cpp:140", "src/token.cpp:28", "src/lexicon.cpp:181"]}
{"id": "C130", "title": "A token whose classes the grammar does not use stops the match", "statement": "If as_parse has rows and for each pattern number some row has only classes that are no input class of any rule of the grammar, then as_match returns just the row that tells the failure and as_standardize returns no address, whatever the rest of the address. That this already holds if the first pattern number has such a row is false.", "quantifier": "all addresses, lexicon arguments, grammars that load, locales and filters", "why_tests_cant": "It excludes a match for all grammars and addresses of this kind; a test tries single ones.", "anchors": ["src/as_wrapper.cpp:347", "src/as_wrapper.cpp:414", "src/search.cpp:140", "src/search.cpp:167", "src/search.cpp:274"]}
{"id": "C131", "title": "The rows of as_match follow from those of as_parse and the grammar", "statement": "If as_parse has rows and the rows of each pattern number offer at most 2^32 choices of one class each, then as_match returns a row for each derivation from ADDRESS, with at most two replacements more than rows, of such a choice, with its pattern, average score and number of rules, and no other rows except the failure row if there is no derivation. as_standardize has an answer exactly if there is such a derivation. Without rows this is false: a rule without classes takes an address without tokens.", "quantifier": "all addresses, lexicon arguments, grammars that load, locales and filters within the bound on choices", "why_tests_cant": "Completeness over all derivations of all grammars cannot be tested.", "anchors": ["src/as_wrapper.cpp:347", "src/as_wrapper.cpp:414", "src/as_wrapper.cpp:52", "src/search.cpp:140", "src/search.cpp:167", "src/search.cpp:274"]}
{"id": "C132", "title": "The row of as_standardize follows from the rows of as_parse, the grammar and the lexicon", "statement": "If as_parse has rows, the rows of each pattern number offer at most 2^32 choices of one class each, and as_standardize has an answer, then there is a pattern number and a derivation from ADDRESS, with at most two replacements more than rows, of a choice of one class from each row with that number, such that no derivation of a choice for any number has a larger single-precision average (one that is not above zero counts as zero), and the pattern of the answer is that of the derivation. For addresses without tabs the fields are the standard words for the words of these rows, placed by the output classes of the derivation. For addresses with tabs this is false for the fields. A derivation whose average is above that of all those with another pattern decides the pattern.", "quantifier": "all addresses, lexicon arguments, grammars that load, locales and filters within the bound on choices", "why_tests_cant": "That no derivation is better cannot be tested for all grammars; tabs in separators are rare in test addresses.", "anchors": ["src/as_wrapper.cpp:52", "src/as_wrapper.cpp:101", "src/as_wrapper.cpp:347", "src/search.cpp:97", "src/search.cpp:140", "src/search.cpp:274", "src/lexicon.cpp:181"]}
{"id": "C133", "title": "Rules with classes that an address does not have change nothing", "statement": "If the rows of as_parse show some class of a rule in none of their class lists, the rule can be left out of the grammar or added to it: as_match gives the same rows in the same order with the same scores, and as_standardize the same row. So it is for such a rule line added to a grammar text behind another rule line. So it is too for a line of references added behind another line of references, if it names a section whose rules are all like that. For rules with a class that no row of the first tokenization shows this is false, because the other tokenizations are matched too.", "quantifier": "all addresses, lexicon arguments, locales, filters and pairs of loaded grammars that differ in such rules only", "why_tests_cant": "Tests compare a few grammars; this is for every grammar and every set of such rules.", "anchors": ["src/search.cpp:274", "src/search.cpp:411", "src/search.cpp:97", "src/search.cpp:167", "src/as_wrapper.cpp:347"]}
{"id": "C134", "title": "A line added to a lexicon text", "statement": "If a well-formed entry line is added to an accepted lexicon text right behind the header or a line that begins with LEXENTRY:, the text is still accepted with the same language and locale. Words other than that of the line keep their entries in the same order. The word of the line has the entry of the line and the entries it had; if it did not have that entry, the entry is put among the others, which keep their order. An added empty line changes no answer of the three functions, and neither does an entry line written a second time behind itself, nor the line of a word that the address does not contain. After a line with further classes of a listed word, none of them in the filter and without a new attachment, an address that was standardized still is. In front of the header a line that begins with LEXENTRY: makes the text rejected, and behind it a comment can.", "quantifier": "all lexicon texts, lines, places, addresses, grammars, locales and filters", "why_tests_cant": "Tests load a few files; this is for every text, every line and every place behind the header.", "anchors": ["src/lexicon.cpp:67", "src/lexicon.cpp:83", "src/lexicon.cpp:115", "src/lexicon.cpp:137", "src/lexicon.cpp:151"]}
