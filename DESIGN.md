# Design of the formal model of address-standardizer

Language: Rocq/Coq 8.16.1, logical name `Verif`, sources in `rocq/theories/`.
The code under study is `/repo/src` (C++/C).  Nothing in `/repo` is built or changed.

## 1. Conventions

* `X_model.v`   – Gallina transcription of the code, function by function; every definition cites
  file and lines and states simplifications.  No proofs.
* `X_spec.v`    – the independent specification (inductive relations, simple set/list
  descriptions).  Does not use the model's helper functions beyond the data types.
* `X_proofs.v`  – lemmas.
* `X_props.v`   – only the property theorems (each closed by `exact lemma`), the `Example`s showing a
  concrete, non-trivial case meeting the hypotheses, and `Print Assumptions` for every theorem.
* `_partial` suffix: proved for a restricted case, the full statement is in `properties.jsonl`.
* `_refuted` suffix: the property is false of the model; a concrete witness is evaluated.

Data representation
* Text is `list N` of Unicode code points (`text`).  Input is assumed to be well-formed UTF-8 (boost's
  u32regex throws otherwise; ICU only produces well-formed UTF-8); byte lengths are computed from the
  code points where the code uses `std::string::length()`.  The UTF-8 codec itself (`Utf8Iterator`,
  `CodePointToUtf8`) is modelled at byte level and its round trip is a property (C42); C101 is about bytes that are not UTF-8.
* Fixed-width arithmetic is written with explicit `mod 2^32` / `mod 2^64` where a property concerns it
  (MD5, `Token::enumerate`).
* `float`/`double` scores are IEEE binary32/binary64 values of the standard library's `SpecFloat`
  (round to nearest even); no axioms, no primitive floats.
* Undefined behaviour is a constructor of the result type (`UB`), exceptions another (`Throw`).
* Recursion that is not structural takes fuel, with a distinct out-of-fuel result which a theorem excludes.

External code that is not modelled enters as parameters (record `env` of oracles: Unicode character
predicates, ICU normalization and upper-casing, `atof`) or as explicit hypotheses on a function argument (sorting
routine).  They are universally quantified in the theorems; every hypothesis on them is satisfied by a
concrete instance exhibited in an `Example`.

## 2. Which code is modelled

| component | modelled | not modelled |
|---|---|---|
| inclass/outclass | enums, asString/asType/asOneType, sets, Lang, AttachType, trimboth | operator<< on streams |
| token | constructors from text, printing, isInClass, enumerate, trim | serialization |
| rule, metarule, sections | parsing, validity, concat, match, indexing | boost serialization |
| grammar | initialize (getline semantics, BOM, comment/section/meta regexes by hand and, in LineRegex_model, as patterns of the matcher), updatePointers, printing, the constructors from files and char pointers (File_model) | a file whose reading fails halfway; a SectionPtr is the resolved section index, except in Pointer_model (C97) where it is a section of a particular object |
| search | everything | tracing, std::cerr output |
| lexentry, lexicon | parsing, initialize, find/insert/remove, classify, standardize, regex caches, printing, boost text archive (fields as text), what a broken archive leaves behind, the constructors from files and char pointers and compile-lexicon (File_model) | a file whose reading fails halfway |
| trie, trieutf8, utf8iterator | everything, with the nodes in memory (TrieHeap_model) | copies of the keys inside std::map |
| tokenizer | filter, splitToken, getTokens, getAltTokens; boost regexes as a backtracking (Perl-priority) matcher over code points | boost's complexity exception |
| md5 | update/finalize/hexdigest/transform at 32-bit word level; once more with arrays, bounds and 32-bit loop counters (Md5Mem_model) | layout of the arrays in memory |
| as_wrapper | standardize_addr, parse_addr, match_addr field/row building; C strings ending at NUL (CString_model); the blocks of the C heap (strdup, calloc, free) under the SQL functions of address_standardizer.c | malloc failure, PostgreSQL's palloc |
| address_standardizer2--2.0.sql.in | OUT columns with types, STRICT (Sql_model) | STABLE, the argument types (the server checks them) |
| std_pg_hash | the cache as a state machine with object identities | PostgreSQL memory context internals (delete callback fires once per context) |
| data/sample | all grammars and lexicons as they are (Shipped_model, ShippedLex_model) | - |
| tools | load-lex-gmr-files, compare-lexicon (Tools_model), convert-pagc-rules (Pagc_model), convert-pagc-lex-gaz (Gaz_model), add-lic-to-source (Lic_model) | shell scripts; shell characters in file names |
| utils | counters | ICU calls (oracles), timers |

## 3. Properties: plan

* C01, C02 search characterization: spec = inductive leftmost derivation `derives g names k rules`
  (k meta expansions) over a grammar as data; proof by induction on the depth budget and on the
  pending-section list; result: membership in `search` <-> derivation with k <= |tokens|+2 and class choice.
* C03 refuted (unit chain longer than |tokens|+2) + `_partial`: complete when every meta rule has at
  least two references and every rule consumes a token; a weaker condition, met by all shipped grammars, in C81.
* C04 fuel-indexed literal transcription of match/matchNext returns a value for an explicit fuel bound for
  all grammars; equals the structural version.
* C05 reclassTokens on search results, from C01 and rule validity.
* C06, C07 max/first-of-ties over `SpecFloat` comparison (total order lemma on non-NaN values).
* C08 from C05 and the sign of the reported score.
* C09 mixed-radix arithmetic over N with explicit wrap; beyond 2^32 combinations proved for powers of two, refuted with a witness otherwise (EnumWrap_props: two indices with one pattern, then counting); C10 refuted (64 two-class tokens: product = 0), proved below the wrap.
* C11 list equation + any sort function satisfying permutation/sortedness.
* C12 refuted by a two-alternative grammar; exact order and numbers in C78.
* C13 parser for pattern strings, left inverse.
* C14 spec: filter/map/intercalate; proof over the sixteen accumulators.
* C15 filter; histories of edits as a list of operations.  C16 refuted.
* C17 mask enumeration vs. subset spec.  C18 refuted (SPACE token); exact: when an alternative has an empty token (Lost_props).
* C19 classify; C20 refuted for 'É' (+ ASCII `_partial`).  C21 standardize.
* C22, C23 (refuted; exact: what is in no token, Lost_props), C24, C25, C26: regex matcher model.
* C27, C28: history refinement.  C29, C30 print/parse.  C31 refuted for header-only text; exact otherwise.
  C32 refuted.  C33 refuted; exact for what is dropped behind the mark (Exact_props).
* C34, C35 (refuted for a blank last piece; exact by pieces).
* C36, C37: invariant of the loader loop + updatePointers.  C38 refuted.  C39 refuted; exact: the last line counts twice.  C40 refuted; partial: misspelled rules take no part in rows.
* C41: invariants; positive-score part refuted for NaN.
* C42 UTF-8; C43 trie as set of words; C44 language of the generated regex incl. printing and
  re-parsing of the pattern string; C45 refuted, with what a word with carets does match (Caret_spec).
* C46 MD5 streaming; C47 refuted against an RFC 1321 specification (which is tested on the RFC vectors).
* C48-C50, C66 cache state machine, sessions over several call sites; C51 refuted (write through NULL).
* C52, C53 (refuted) as_parse rows; C54 token round trip; C55 refuted for tabs + partial.
* C56 archive as a field sequence; C57 counters; C58 refuted by a score combination; C59 prefix; C60 print/load, exact with empty sections (Reload_props).
* C67 lexicon texts: acceptance and entries from a grammar of lines (LexFile_spec).
* C68 splitting: longest attachable prefix / shortest attachable suffix (Split_spec), unique; from the languages of the generated patterns and
  the order in which the matcher tries them.
* C69-C71 operations on rules, tokens and sections (Parts_spec).
* C72, C73 (refuted + partial) accuracy of averages: values of floats as rationals, one relative error of 2^-prec per SpecFloat operation
  (FloatRound_proofs), products of error factors; then C61.
* C74, C75 (refuted + exact) the functions again as commands on a heap of blocks (Heap_model): what they do to the blocks is computed step by
  step (Heap_proofs, HeapStd_proofs, HeapSrf_proofs) and compared with the functions without a heap.
* C76, C77 reading an address as a relation between texts and rounds, tokens, tokenizations (Read_spec, Address_spec); each description is shown
  to leave no choice, which gives the equivalences.
* C78-C80 derivations that carry the positions of the alternatives used and the number of times they are listed (Order_spec); the recursion of
  the search is followed once more with lists (Order_proofs), then the first of the best (Answer_proofs) and, with C77, the rows themselves.
* C81-C83 the limit and the shipped grammars: a number per section bounds replacements minus classes read (Excess_spec); a procedure finds the
  numbers, and is run on all grammars of data/sample, which are in Shipped_model as they are (C83: refuted + exact).
* C84 which message a rejected grammar gives: the first line that cannot be read after lines that can, or the report over all sections
  (Diagnosis_spec); the sections and warnings of an accepted one.
* C85, C86 any lexicon text: its meaning and the loaded lexicon (LexDiag_spec), or its first fault and the message; one equivalence each.
  The number shown for a refused line is one too high (`C86_line_number_refuted`), because the header is counted twice.
* C87 whole calls: from the five text arguments to the rows, the undefined behaviour and the messages (End_spec composes the meanings of C77, C80, C84-C86).
* C88 lexicon entries as values: both constructors, all predicates, mutators, equality.
* C89 the order of words: by code points and by bytes alike; the orders claimed by C43, C56, C85 are this one (TextOrder_spec).
* C90 a grammar that contains another: no match is lost, the best score does not fall; the order of rules matters for ties only (Growth_spec).
* C91 blanks around an address and the case of its letters change no answer; witnesses where the conditions are missing, among them listed words that end with a blank, as in data/sample/france.lex:337 and belgium.lex:705 (Edges_spec).
* C92 only words that occur in an address matter; witness: the first word of a lexicon matters everywhere (Local_spec).
* C93 the order of lexicon lines matters only among the lines of one word.
* C94 the byte trie (trie.cpp): words, prefixes, listings, agreement with TrieUtf8 on UTF-8, when getRegexp is undefined, printing of both tries.
* C95 (refuted + exact) which token a run of white space gives when it contains tabs (Blank_spec; the cells of a separator in Split_spec).
* C96 whole separators between words, dropped by the filter, can be exchanged; witness for a comma between digits (Gap_spec).  Both readings of the texts are
  followed side by side (Gap_proofs).
* C97 grammar objects made, copied and deleted in any order (Pointer_model): the references of a copy point into the object first read, so a copy is right while
  that one exists and exactly determined afterwards (Pointer_spec).  A deleted object is never reused, so every use of it is undefined behaviour.
* C98 a correspondence of sections (a bisimulation, Alike_spec) gives equal search results; consequences for whole calls: order, names and unused sections,
  unusable rules and alternatives.
* C99 no character of a result comes from anywhere but the arguments and ASCII (CString_spec); hence results pass unchanged through C strings (CString_model).
* C100 the regular expressions with which grammars and lexicons are read (LineRegex_model), run by the matcher of Regex_model, against the kinds of lines of Grammar_spec and LexFile_spec; the hand-written readers of Grammar_model and Lexicon_model give the same.
* C101 the iterator and TrieUtf8 on arbitrary bytes (TrieBytes_model), against grouping by leading bytes (TrieBytes_spec); on valid UTF-8 the tries of Trie_model.
* C102 the digest of a grammar (Digest_model: the loader with `grammar_in`), against the text without line feeds (Digest_spec); two witnesses of texts with one digest.
* C103 the SQL declarations and the forming of tuples (Sql_model), against rows by column names (Sql_spec); refuted for the number of rules. C103_tuple says from which values a tuple is formed.
* C104 the members of a lexicon as an archive leaves them when it is broken (Archive_model: `archive_left`, `load_onto`), against cuts by length (Broken_spec); refuted for late cuts and for broken archives followed by a source.
* C105 lines inserted into a grammar text (Insert_spec: one line more, one list element behind another), from C36/C37 and C90; refuted for headers.
* C106 the arrays and loop counters of the digest (Md5Mem_spec: sizes of the arrays, the first length that is too long); refuted for texts of 2^32-64 bytes and more.
* C107 the nodes of a trie in memory (TrieHeap_spec: fresh addresses, memory before and after, going down by keys); refuted for copies of a trie.
* C108 the comparison given to std::sort (Score_model), against strict weak orders (Score_spec); refuted for a grammar with the score nan. C06, C07, C08, C61 and C62 without conditions on the scores (Score_props).
* C109 files (File_model: a map from names to contents) against the text that is under a name (File_spec); char pointers; compile-lexicon against as_compile_lexicon.
* C110, C111 the lexicons of data/sample byte by byte (ShippedLex_model): a procedure that checks them line by line, shown right for all tables
  that upper-case Latin letters one by one (ShippedLex_spec), then C67; calls with the lexicons of Germany and Belgium (C111: refuted + partial).
* C112 the documented syntax of grammar files as an inductive relation between groups and lines (Docs_spec), shown to load line by line.
* C113 the documented tables of classes and attachments; two lexicons that differ in name and language; refutations of what docs/*.md and
  data/README.md say otherwise (DocsLex_spec, DocsEx_proofs; refuted + partial).
* C114 scores: two grammars that differ in scores only (Tune_spec.rescored), compared through the declarative first best match of C79. FloatMono_proofs
  shows that rounding to nearest even keeps the order, for sums, quotients and averages, over the whole range of the format.
* C115 the number of matches: a bound from the lines and references of a grammar, and a grammar whose count is computed exactly (Count_spec); both from the list of C78.
* C116 standard words read again: the condition on the entries under which nothing changes, and lexicons and a call for which something does (Settled_spec).
* C117, C118 the scripts of tools/ that read lexicons: the SQL script of the sample data read back with a small SQL reader (Tools_spec), and compare-lexicon; refuted where a name is not quoted, two countries share a code, and a hash is indexed with a constant.
* C120 convert-pagc-rules: the lines of PAGC rules as a relation (Pagc_spec), the grammar written loads by C112 with exactly these rules; refuted for a section without rules and a score of 0; a malformed line is not refused.
* C121 convert-pagc-lex-gaz: the tables of words as a relation (Gaz_spec); the lexicon written loads by C117 with one entry per word and standard form. The Perl match of a standard form with itself is an oracle. Refuted for class 5 and for standard forms that are no patterns of themselves.
* C122 add-lic-to-source: lines, header blocks and chosen paths as relations (Lic_spec); what becomes of each file, what can be removed at all, a second run. Refuted: old headers always go, code always stays.
* C123 addresses in two parts: the conditions on line, separator and rest as one relation (Join_spec); tokens, filtered tokens and the first rows of as_parse are put together from the parts; the tokenizations are all pairs, in a fixed order; lines of letters, digits and separators meet the conditions. Refuted: words across the separator, signs between numbers.
* C124 addresses that cannot be read: no tokens exactly if no token can be read at the beginning of the line (Unread_spec has the condition for whole calls and the sign in front); as_parse returns no rows, all such addresses have the same answers, which are no matches if all rules have input classes. Refuted: rules without classes, listed words that begin with the sign, line breaks.
* C125 text lost behind a place that cannot be read: Behind_spec puts C123 and C124 together; the three functions answer as for the line before. Refuted: line breaks in what follows.
* C126 filter texts: answers depend only on the classes named (in_list of Address_spec) that a token of the address has (Filter_spec); misspelled names have no effect on addresses without tabs. Refuted: addresses with tabs.
* C127 as_parse against as_match and as_standardize: the input classes of a pattern are taken from the class lists of the rows of one pattern number (taken_from in Tells_spec). Refuted: that the number is 1.
* C128 the search sees classes only: the number and class columns of as_parse determine as_match and the pattern of as_standardize (same_columns in Words_spec). Refuted: without rows, and for the other fields.
* C129 the number, word and class columns of as_parse determine as_standardize for one lexicon and addresses without tabs (same_words in Explain_spec). Refuted: tabs in separators.
* C130 tokens that no rule can take: a row of as_parse with unused classes only in each tokenization (stopped in Stop_spec) means no match. Refuted: such a row in the first tokenization only.
* C131 as_match and as_standardize from the rows of as_parse: a row for each derivation of a choice of classes (explains in PMatch_spec), and an answer exactly if there is one. Refuted: without rows.
* C132 the row of as_standardize from the rows of as_parse: the pattern of a derivation (explains_at in Derived_spec) that is unbeaten, and for addresses without tabs the fields from the words of those rows and the lexicon (texts_for). A derivation better than all with other patterns decides the pattern (C132_clear). Refuted: the fields with tabs.
* C133 rules with a class that no row of as_parse shows (idle in Idle_spec) can be left out of the sections of a grammar: as_match and as_standardize give the same; C133_line is the same for a rule line added to a grammar text. C133_references is the same for a line of references that names a section of such rules only (idle_section). Refuted: for the rows of the first tokenization.
* C134 a line added to a lexicon text behind the header or an entry line (with_line_behind of Insert_spec): C134_line its place in the meaning of the text (lexicon_means of LexDiag_spec), C134_entry what the loaded lexicon finds, C134_blank, C134_twice and C134_unrelated the answers of the three functions. C134_more: further classes of a listed word (C119 for texts). Refuted: lines in front of the header, comments.
* C119 words that get further classes: the pattern of a trie is a function of the set of words, the tokens stay with at least their classes, so no match, row or standardized address is lost; refuted for filtered classes.

## 4. Checks of the reading of the code

* `UnitTest_proofs.v`: the project's own unit tests (src/test) as examples; the few that disagree are listed there, all expect what an older
  version of the code did.
* `Documented_proofs.v`: the tables of as_parse in DOCUMENTATION.md, and the addresses of data/test-usa-patterns with the grammar of the USA.
* `Shipped_props.v`: calls of as_standardize with the grammars and lexicons of Austria and Denmark.
* `seeded/LOG.jsonl`: wrong programs and the theorems that reject them.

## 5. Trusted base

Coq kernel and `vm_compute`; standard library.  `Print Assumptions` of each theorem: see section 6.
The reading of the C++ code and of the library functions listed as oracles; the semantics of
`std::getline` / `operator>>` on exhausted streams (string left unchanged when the sentry fails).

## 6. Assumptions reported by Coq

Every property theorem is followed by `Print Assumptions` in its `_props.v` file; each one reports
"Closed under the global context".  No axioms, of the standard library or otherwise, are used.
`coqchk -o` additionally names the seven constants of `Coq.ssr.ssrunder.Under_rel` (fields of a standard-library
module type, loaded with other standard-library files); no theorem here depends on them.
