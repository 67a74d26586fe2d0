{"id": "C01", "title": "Edit distance is the true minimum", "statement": "The distance computed between two strings (used to rank JSON candidates) equals the minimum number of single-character insertions, deletions and substitutions turning one into the other, with characters compared case-insensitively when requested. Consequently it is 0 exactly for equal strings, symmetric, and satisfies the triangle inequality.", "quantifier": "every pair (triple) of byte strings, both case modes", "why_tests_cant": "a table-filling bug shows up only on particular interleavings of edits; no finite set of pairs exhausts the recurrence", "anchors": ["source/utils/h2_diff.cpp:h2_similarity::levenshtein"]}
{"id": "C02", "title": "Similarity score is at most 1 and equals 1 exactly on a match", "statement": "The similarity score of two strings is one minus twice the least number of single-character edits divided by the total length, never exceeds 1, and is 1 exactly when the strings are equal in the chosen case mode. (The source comment also promises that the score never drops below 0; that part is false and is refuted.)", "quantifier": "every pair of byte strings, both case modes", "why_tests_cant": "the bound has to hold for all lengths; the documented lower bound is violated only by unbalanced lengths", "anchors": ["source/utils/h2_diff.cpp:h2_similarity::estimate"]}
{"id": "C03", "title": "String diff highlights a longest common subsequence", "statement": "When a string comparison fails, the characters shown as 'common' in the expected text and in the actual text are the same number, match pairwise in order, and no longer common subsequence of the two texts exists.", "quantifier": "every pair of character sequences, both case modes", "why_tests_cant": "optimality is a statement about all other common subsequences of the pair", "anchors": ["source/utils/h2_diff.cpp:h2_LCS"]}
{"id": "C04", "title": "Wildcard patterns mean glob", "statement": "The built-in wildcard matcher (Windows/Cygwin build) terminates and answers true exactly when the subject can be obtained from the pattern by replacing each ? by one character and each * by any string, all other characters matching literally (case-insensitively when requested).", "quantifier": "every pattern and every subject string, both case modes", "why_tests_cant": "the matcher is a backtracking loop; a wrong backtrack point only fails for patterns with several stars and near-matching subjects", "anchors": ["source/utils/h2_pattern.cpp:h2_pattern::wildcard_match"]}
{"id": "C05", "title": "Intrusive list operations behave as sequence operations", "statement": "Starting from well-formed disjoint lists, push / push_back / insertion before or after an element, removal of an element and pop change the traversed sequence exactly as the corresponding sequence operation, keep the forward and backward links consistent, and leave every other list untouched. The first and the last element of a list, and whether an element is the first or the last, are those of the sequence; popping hands out the first element, and nothing from an empty list.", "quantifier": "every list length, every position, every heap containing other lists", "why_tests_cant": "pointer surgery has to be right for every aliasing case (empty list, single element, first, last)", "anchors": ["source/utils/h2_list.hpp", "source/utils/h2_list.cpp"]}
{"id": "C06", "title": "List sorting is a stable sort", "statement": "Sorting a list (used for shuffling suites and cases) yields a permutation of the elements, ordered by the comparator, with elements that compare equal kept in their original relative order.", "quantifier": "every list and every comparator that is a total preorder", "why_tests_cant": "stability and permutation must hold for all inputs and all comparators", "anchors": ["source/utils/h2_list.cpp:h2_list::sort", "source/core/h2_runner.cpp:shuffle"]}
{"id": "C07", "title": "Private allocator never hands out overlapping memory", "statement": "For any history of allocations of fewer than 2^64-25 bytes and frees of live pointers, every live chunk lies inside memory obtained from the system, is at least as large as requested, is 8-byte aligned, and overlaps neither another live chunk, nor the free list, nor any bookkeeping header.", "quantifier": "every sequence of allocate/free operations and every placement of the mapped regions", "why_tests_cant": "overlap depends on long histories of splitting, joining and freeing in different orders", "anchors": ["source/utils/h2_libc.cpp"]}
{"id": "C08", "title": "Private allocator conserves memory", "statement": "For any history, the bytes in free chunks plus the bytes in live chunks plus headers equal the bytes obtained from the system; freeing everything restores the full amount for reuse.", "quantifier": "every sequence of allocate/free operations", "why_tests_cant": "a lost fragment appears only after particular split/merge sequences", "anchors": ["source/utils/h2_libc.cpp:block::malloc", "source/utils/h2_libc.cpp:block::free"]}
{"id": "C09", "title": "Private allocator succeeds when the system can provide memory", "statement": "A request that the system can back with fresh mappings returns a non-null pointer, unless its rounded size falls within the header overhead below a multiple of 4 MiB; for sizes in that window the allocator returns null although memory is available (refuted for that window).", "quantifier": "every request size and allocator state", "why_tests_cant": "the failing sizes are a 40-byte window every 4 MiB", "anchors": ["source/utils/h2_libc.cpp:batch", "source/utils/h2_libc.cpp:malloc"]}
{"id": "C10", "title": "Shared ownership destroys exactly once", "statement": "With any history of creating, copying, assigning and dropping shared handles, the managed object is destroyed exactly once, precisely when its last handle disappears, and never while a handle to it exists.", "quantifier": "every sequence of handle operations over any number of handles and objects", "why_tests_cant": "double destruction or leaks appear only for particular copy/assign interleavings, including self-assignment", "anchors": ["source/utils/h2_shared_ptr.hpp"]}
{"id": "C11", "title": "Checked allocation placement", "statement": "Each checked allocation returns a pointer such that the user range lies entirely in the accessible pages directly before the protected guard page, and the pointer is congruent to the requested alignment modulo its power-of-two ceiling (at least 8). For power-of-two alignments from 8 up to the page size the pointer is aligned and leaves the fewest possible bytes between the range and the guard page. (Larger or non-power-of-two alignments are not honoured: refuted.)", "quantifier": "every size, every alignment, every page size that is a power of two, every page-aligned mapping address", "why_tests_cant": "off-by-one placement only shows for specific size/alignment residues", "anchors": ["source/memory/h2_piece.cpp:h2_piece"]}
{"id": "C12", "title": "Overflow and underflow writes are detected", "statement": "When a piece is checked, an out-of-bounds report is produced exactly when at least one byte of the slack before or after the user range inside its pages differs from the canary value written at allocation.", "quantifier": "every piece geometry and every content of the pages", "why_tests_cant": "a scan that misses one byte position is invisible unless exactly that byte is hit", "anchors": ["source/memory/h2_piece.cpp:mark_snowfield", "source/memory/h2_piece.cpp:check_snowfield"]}
{"id": "C13", "title": "Every double free and every mismatched release is reported, and nothing else", "statement": "Releasing a checked allocation produces a double-free report exactly when the history released it before, a mismatch report exactly when it was not released before, the releasing function does not correspond to the allocating function (C allocators with free, any new with any delete) and the allocation is not exempted; otherwise at most an overflow report (C12). A pointer the heap does not know is ignored.", "quantifier": "every history of allocations and releases in any nest of blocks", "why_tests_cant": "detection depends on per-piece state carried through arbitrary histories", "anchors": ["source/memory/h2_piece.cpp:check_double_free", "source/memory/h2_piece.cpp:check_asymmetric_free"]}
{"id": "C14", "title": "Leak report is exact", "statement": "At the end of a block a leak is reported exactly when leak checking is enabled for it, no access violation was recorded in it, and some allocation attributed to it was not released; there is one group per call stack, and its sizes, counts and total (modulo 2^64) are exactly those of the unreleased allocations. With recorded violations exactly those are listed instead.", "quantifier": "every allocation/release history in any nest of blocks", "why_tests_cant": "attribution to nested blocks and grouping by call stack must be right for every history", "anchors": ["source/memory/h2_block.cpp:check", "source/memory/h2_leaky.cpp", "source/memory/h2_stack.cpp"]}
{"id": "C15", "title": "Memory limit is enforced", "statement": "In a block with a limit below 2^63, as long as no allocation is released twice, the total size of live allocations attributed to the block never exceeds the limit, and an allocation (below 2^52 bytes) is refused exactly when granting it would exceed the limit, so releasing gives the room back. (After a double release, or for requests near SIZE_MAX, the limit is not enforced: refuted.)", "quantifier": "every allocation/release history and every limit", "why_tests_cant": "counter drift only shows after particular histories", "anchors": ["source/memory/h2_block.cpp:new_piece", "source/memory/h2_block.cpp:rel_piece"]}
{"id": "C16", "title": "Reallocation preserves contents", "statement": "A successful reallocation to a non-zero size returns memory whose first min(old,new) bytes equal the old contents, counts as an allocation followed by a release of the old pointer, and leaves all other tracked memory unchanged. (If the reallocation fails because of a limit the old memory should stay valid; it is released: refuted.)", "quantifier": "every old size, new size, content and limit", "why_tests_cant": "content preservation is over all sizes and bytes; the failure path needs fault injection", "anchors": ["source/memory/h2_override.cpp:realloc"]}
{"id": "C17", "title": "Jump patch reaches the substitute", "statement": "After patching a function with the generated jump, executing the patched bytes transfers control to the substitute, for near and far substitutes alike, bytes beyond the saved prefix are never modified, and writing the saved bytes back restores the code exactly (x86-64; the arm64 patch also reaches its substitute).", "quantifier": "every pair of 64-bit code addresses and every prior code content", "why_tests_cant": "encoding errors depend on the distance and sign of the displacement", "anchors": ["source/stub/h2_e9.cpp"]}
{"id": "C18", "title": "Stubs are fully undone", "statement": "After every stub placed on a function has been removed - in whatever order, from whatever scopes and under whatever alias addresses - the function's code bytes are exactly the original ones; code of functions that carry no stub is original at all times. Functions stubbed at the same time must start at least twelve bytes apart (closer ones can be corrupted; see the refutation).", "quantifier": "every history of adding, replacing, removing and bulk-clearing stubs in any number of scopes", "why_tests_cant": "restoration order and reference counting interact over arbitrary histories", "anchors": ["source/stub/h2_source.cpp", "source/stub/h2_stubs.cpp"]}
{"id": "C19", "title": "The newest stub wins and inner scopes restore outer ones", "statement": "A function behaves as the substitute installed most recently among those still in force, and ending an inner scope (case) restores exactly the substitutes in force in the outer scope (suite, run). An address means the function stubbed there, or else the function that the jump found there leads to, and a new stub takes effect on it at once. Within one scope a function must not be stubbed under two different addresses, and scopes must end in nested order (both needed; see the refutations).", "quantifier": "every properly nested history of stub scopes", "why_tests_cant": "nesting depth and aliasing are unbounded", "anchors": ["source/stub/h2_stubs.cpp", "source/core/h2_runner.cpp:stub"]}
{"id": "C20", "title": "Mock expectation verdict is exact", "statement": "At the end of a case a mock passes exactly when each of its expectations received a number of calls within its declared bounds (lower bound not above the upper one; a reversed range is accepted and misjudged, see the refutation).", "quantifier": "every list of expectations and every sequence of calls", "why_tests_cant": "the verdict aggregates arbitrary call histories", "anchors": ["source/mock/h2_checkin.cpp", "source/mock/h2_mocker.hpp:matches"]}
{"id": "C21", "title": "Mock calls are charged to expectations in declared order", "statement": "Every intercepted call either reports a failure or is charged to exactly one expectation whose argument matchers accept it; the charged expectation index never moves backwards, and, as long as no failure has been reported, an expectation is left behind only when its minimum has been met. An accepting expectation is passed over only when it has its minimum or is full (when full, in greedy mode); a mock is greedy unless told otherwise, and then what it was told last; in non-greedy mode a call stays with an expectation that has its minimum only if the next one refuses it. A call is reported as unexpected only if no remaining expectation accepts it, an argument failure names exactly the refused arguments, and the routine that runs is the one declared with the charged expectation.", "quantifier": "every list of expectations (greedy or not) and every sequence of call arguments", "why_tests_cant": "the selection loop has many interacting conditions; wrong skipping appears only for specific sequences", "anchors": ["source/mock/h2_mocker.hpp:matches"]}
{"id": "C22", "title": "Every case is accounted for exactly once per round", "statement": "In each round, every case of the suites visited is treated exactly once, in order: ignored (only with early stop or only-last-failed), filtered, todo, listed, or executed with the outcome of its body; it is executed exactly when it is none of the others. Each of the six counters equals the number of cases of its class; unless only listing they add up to the number of cases over all rounds; the numbers reported for a suite are those of its own cases in that round.", "quantifier": "every registration, order of suites and cases per round, option combination and outcome of case bodies (an oracle)", "why_tests_cant": "the accounting loop mixes rounds, early stop and list mode", "anchors": ["source/core/h2_runner.cpp:main"]}
{"id": "C23", "title": "Early stop after n failures", "statement": "With 'break after n failures' (n > 0, not only listing, not restricted to last failed) the executed cases are exactly the shortest prefix of the run order of eligible cases containing n failures, or all of them if there are fewer.", "quantifier": "every n, every outcome sequence, every grouping into suites and rounds", "why_tests_cant": "interaction of nested loops and rounds", "anchors": ["source/core/h2_runner.cpp:main"]}
{"id": "C24", "title": "Exit status tells success", "statement": "The process reports a zero status exactly when no case failed, provided the failure count is asked for and is not a multiple of 256; for a multiple of 256 the status is zero in spite of failures (refuted).", "quantifier": "every number of failed cases", "why_tests_cant": "needs 256 failing cases to show", "anchors": ["source/core/h2_runner.cpp:main", "source/h2_unit.cpp"]}
{"id": "C25", "title": "Include and exclude filters", "statement": "A case is filtered out exactly when include patterns are present and none of them selects it, or some exclude pattern selects it; exclusion overrides inclusion. A suite is hidden exactly when it is filtered by itself and all its cases are; that all its cases are filtered is not enough (refuted).", "quantifier": "every set of patterns (as predicates), names, tags and files", "why_tests_cant": "ten pattern lists interact; combinations are exponential", "anchors": ["source/core/h2_filter.cpp", "source/core/h2_runner.cpp:filter"]}
{"id": "C26", "title": "Shuffling never loses or duplicates a test", "statement": "Whatever shuffle mode is selected, the suites run are a permutation of the registered suites and within each suite the cases are a permutation of its cases; name and file shuffles (without random) are stably sorted by that key, ascending or descending; with random every case is given a random number of its own and every suite that of its last case, and these numbers (or name or file, if asked for too) decide the order, ascending or descending; reverse alone gives, in every round, the reverse of the order of registration (suites without cases aside).", "quantifier": "every registration, shuffle option combination and random number sequence", "why_tests_cant": "loss or duplication depends on key ties and random values", "anchors": ["source/core/h2_runner.cpp:shuffle"]}
{"id": "C27", "title": "Last failing order is replayed", "statement": "When a run fails its order is saved; the next run executes the surviving suites and cases in exactly the saved order, new cases after the old ones of their suite and new suites at the end, in every shuffle mode; later rounds of the same run repeat the saved order; the order kept is that of the first round with a failure (an order kept from an earlier run stays if the very first round fails), and a run without failures removes it; cases recorded as failed are marked, and with 'only last failed' exactly the marked eligible cases run. Names must be distinct, free of newlines and at most 503 bytes; longer names spoil the file (refuted).", "quantifier": "every saved order and every set of currently registered cases with distinct names", "why_tests_cant": "round trip through a file for arbitrary orders", "anchors": ["source/core/h2_runner.cpp:save_last_order", "source/core/h2_runner.cpp:sequence_last_order"]}
{"id": "C28", "title": "Stubs and mocks made in a case do not survive it", "statement": "Every stub, mock and DNS entry installed by the code of a case (its global case setup, its setup, body and cleanup) is out of force whenever the runner is doing anything but running that case's code: when the next case's setup begins, when a suite or round begins or ends, at the end of the run. When a body starts, of all case code only its own case setup can have something in force. What is in force when the first round starts stays in force through all rounds, whatever cases install, UNSTUB or clean up, and its stubs and mocks are gone at the end; what global suite setup installs for the first suite is in force in that suite's cases and its stubs and mocks are gone once the suite is cleaned up; UNSTUB removes the case's own stubs of the function. (What global suite setup code of a later suite, or global case cleanup code, installs is taken for the previous case and stays in force: refuted.)", "quantifier": "every registration, order, selection of executed cases, number of rounds and user code at every place where the runner calls it", "why_tests_cant": "leakage across cases needs particular orders of suites", "anchors": ["source/core/h2_runner.cpp:stub", "source/core/h2_case.cpp:post_cleanup", "source/core/h2_suite.cpp"]}
{"id": "C29", "title": "Matcher algebra is boolean", "statement": "For every expression built from base matchers with Not, And, Or, AllOf, AnyOf, NoneOf, Conditional, case- and space-insensitivity wrappers, the match verdict equals the boolean meaning of the expression; in particular double negation, De Morgan and negation of whole expressions hold, provided the base matchers obey negation.", "quantifier": "every matcher expression of any depth, every actual value, every enclosing negation context", "why_tests_cant": "negation is threaded through a context flag; wrong threading appears only in deep nests", "anchors": ["source/matcher/h2_matches_logic.hpp", "source/matcher/h2_matcher.hpp", "source/matcher/h2_matches.hpp"]}
{"id": "C30", "title": "Container matchers quantify correctly", "statement": "Every, Has, HasKey, HasValue, CountOf, MaxOf, MinOf, Pair and ListOf match exactly when the described quantified statement about the container's elements (within the selected range) holds: Every - all selected elements; Has with count n - at least n selected elements; ListOf - the i-th matcher accepts element start+i (further elements are allowed); CountOf - the total number; MaxOf/MinOf - the extreme of the selected elements. Every(m)(n) and Every(m)/n select the first n elements, (s,e) those from s up to e; Has(k) on a map looks at keys, HasKey, HasValue and Has(k,v) at entries. This needs Pair to meet pairs and no repetition count outside a matcher with a Has inside. Refuted: a repetition count leaks into a nested Has; Pair on a non-pair fails also when negated; ListOf accepts longer containers; CountOf ignores the range; a range (s,e) with s>0 on a pointer of unknown size selects nothing; elements from position 5413722 on are never looked at.", "quantifier": "every container content, range, repetition count and inner matcher", "why_tests_cant": "quantification over arbitrary-length containers", "anchors": ["source/matcher/h2_matches_container.hpp"]}
{"id": "C31", "title": "MedianOf computes the median", "statement": "MedianOf compares the median of the selected elements. It does so for an odd number of elements; for an even number it averages the wrong pair and for two elements reads past the end (refuted).", "quantifier": "every list of numbers", "why_tests_cant": "needs even-length inputs with unequal neighbours", "anchors": ["source/matcher/h2_matches_container.hpp:h2_median_matches"]}
{"id": "C32", "title": "OK and KO are complementary", "statement": "For the same arguments KO passes exactly when OK fails, and each evaluation counts as one assertion and yields at most one failure at the top level.", "quantifier": "every matcher verdict and failure tree", "why_tests_cant": "complement must hold for every verdict tree shape", "anchors": ["source/assert/h2_assert.cpp:stash"]}
{"id": "C33", "title": "Failure reports visit every failure once", "statement": "Attaching failures as siblings or children never loses or duplicates one: a report traversal visits each attached failure exactly once, parents before children, siblings in order of attachment with consecutive numbers, and every failure is released once. A failing AllOf tells the failures of all its parts in their order, each part's under its place; NoneOf the places of the parts that match; ListOf the failures of the elements under their places, and the elements missing; AnyOf the failures of the parts up to the first that matches; a conjunction, a disjunction and a pair those of the first part, then those of the second; Every those of the elements in its range. Refuted: a second failure attached as child to the same parent is its sibling (it becomes a child of the first child).", "quantifier": "every sequence of attachments", "why_tests_cant": "trees have unbounded shape", "anchors": ["source/report/h2_failure.cpp:append_subling", "source/report/h2_failure.cpp:append_child", "source/report/h2_failure.cpp:foreach"]}
{"id": "C34", "title": "Memory comparison on explicit widths", "statement": "A memory comparison of n units of width w succeeds exactly when the corresponding bits of the two buffers agree, reading no byte outside those bits; the size defaults to the array dimension and the width to the element size. Refuted: without any size the assertion fails also when negated; a product n*w of 2^64 compares nothing; for a string literal without size the textual pre-comparison may read past the needed bytes.", "quantifier": "every buffer pair, every n, every width", "why_tests_cant": "bit-level comparison over arbitrary lengths", "anchors": ["source/matcher/h2_matches_memcmp.cpp", "source/matcher/h2_matches_memcmp.hpp"]}
{"id": "C35", "title": "Hex string literals are decoded completely", "statement": "A string of hexadecimal digits decodes to the bytes of the number it writes (an odd count gets a leading zero), and Me(literal) matches exactly when the actual buffer begins with those bytes or with the literal's own text. For literals with white space or a 0x/0X prefix, which the classifier accepts, only the leading digits are decoded, so every literal with a prefix is compared as the single byte 0 (refuted).", "quantifier": "every hexadecimal string", "why_tests_cant": "decoding correctness for all digit strings and lengths", "anchors": ["source/utils/h2_misc.cpp:hex2bytes", "source/matcher/h2_matches_memcmp.cpp"]}
{"id": "C36", "title": "JSON text round trip", "statement": "Every JSON value (strings and keys without NUL and backslash, patterns without slash) has texts, and every text of it - double or single quotes, the escapes of C42, numbers or arithmetic without commas, any white space between tokens - is accepted and parsed to exactly that value. A text that opens an array or object and never closes it, and a value with an array or object behind it, are refused. False: a comma in a function call inside an array splits the number; trailing commas, stray brackets and the empty text are accepted.", "quantifier": "every JSON value and every whitespace layout", "why_tests_cant": "inductive over nesting depth and layout", "anchors": ["source/json/h2_lexical.cpp", "source/json/h2_syntax.cpp", "source/json/h2_node.cpp"]}
{"id": "C37", "title": "JSON parser terminates without crashing", "statement": "On every input the tokenizer and parser terminate, and an exception leaves them only if the last character but white space is a quote, an apostrophe or a slash, on which the removal of the quotes underflows (refuted).", "quantifier": "every byte string", "why_tests_cant": "crash inputs are sparse in the input space", "anchors": ["source/json/h2_syntax.cpp", "source/json/h2_lexical.cpp", "source/utils/h2_string.cpp:unenclose"]}
{"id": "C38", "title": "JSON comparison semantics", "statement": "Arrays match exactly when they have the same length and match element by element; objects match exactly when every expected key's value matches the actual value found under that key and the expectation is not larger; scalars match by kind; matching does not depend on the key order of the actual object, and a document without duplicate keys matches itself. A text that is refused is reported as such, whether expected or actual: it neither matches nor differs.", "quantifier": "every pair of JSON documents", "why_tests_cant": "mutual recursion over unbounded trees", "anchors": ["source/json/h2_match.cpp"]}
{"id": "C39", "title": "JSON selector", "statement": "Selecting with a path of keys and indices yields the value obtained by following the steps (negative index counts from the end), or no value when the last step is missing; when an earlier step is missing the implementation dereferences a null node (refuted).", "quantifier": "every document and every path", "why_tests_cant": "paths and documents are unbounded", "anchors": ["source/json/h2_select.cpp", "source/json/h2_tree.cpp:select", "source/json/h2_node.cpp:get"]}
{"id": "C40", "title": "JSON diff shows every element once and keeps both sides aligned", "statement": "In a JSON diff of two documents every element of the expectation appears exactly once and in order on its side, and every element of the actual document exactly once on its side, children of an array in order unless it is paired with an object; members of two objects under the same key (keys unique up to the case rule) share a row; a member left over is put beside the most similar one that is left, the first of several, if one is similar enough; both columns, and any run of elements within them, have the same number of lines whatever is folded; with fold at most 1 the left column reads as the expectation and the right one as the actual document up to the order of children, and so they do at every fold if the text is shorter than 20 characters; from fold 2 on, elements that match under the same key take one line. Of two scalars in a row a key is coloured exactly if the keys differ, a value exactly if they do not match: green and red, or light blue and light purple if they are only put side by side or alone. False: at the default fold equal parts are elided; an array paired with an object changes its order; without case a key may be paired with another one though its own is there.", "quantifier": "every pair of documents, every similarity estimate, every fold level", "why_tests_cant": "pairing consumes nodes in three passes over arbitrary trees", "anchors": ["source/json/h2_dual.cpp:h2_json_dual", "source/json/h2_dual.cpp:align", "source/utils/h2_line.cpp:samesizify", "source/utils/h2_list.cpp:sort"]}
{"id": "C41", "title": "Arithmetic in JSON is evaluated with normal precedence", "statement": "A numeric expression embedded in JSON - decimal and hexadecimal literals, the named constants and functions, + - * / % ^ ! , and parentheses, with spaces and tabs anywhere between tokens - evaluates to its meaning under the layers of precedence (factorial; prefix functions; signs; ^ from the left; * / %; + -; comma), in every number domain; everything else is rejected; parsing ends on every input. Factorials and arrangements are exact up to 20. Refuted against ordinary mathematics: -2^2 is 4, 2^3^2 is 64, factorials wrap from 21 on, P(2,5) is not 0.", "quantifier": "every expression tree over the supported operators, over an abstract number domain", "why_tests_cant": "precedence errors depend on combinations of operators at depth", "anchors": ["source/json/h2_tinyexpr.cpp"]}
{"id": "C42", "title": "String unescaping inverts escaping", "statement": "Unescaping a JSON string literal restores the denoted text as long as it contains no escaped backslash; with an escaped backslash before n, r, t or a quote the result is wrong (refuted).", "quantifier": "every string", "why_tests_cant": "the wrong inputs need adjacent escapes", "anchors": ["source/utils/h2_string.cpp:unescape", "source/utils/h2_string.cpp:replace_all"]}
{"id": "C43", "title": "Replace-all terminates and replaces every occurrence left to right", "statement": "Replacing a non-empty substring terminates and yields the text in which each non-overlapping occurrence, found left to right, is replaced; replacing the empty string never terminates (refuted).", "quantifier": "every text, pattern and replacement", "why_tests_cant": "termination is a liveness property", "anchors": ["source/utils/h2_string.cpp:replace_all"]}
{"id": "C44", "title": "Whitespace squashing is canonical", "statement": "For every text without NUL, squashing removes leading and trailing blanks, turns every blank into a space and leaves no two adjacent spaces outside quotes (nowhere, with the quote option), never changes non-blank characters or their order, leaves squashed texts unchanged and is idempotent. Refuted for texts with a NUL, which are cut there.", "quantifier": "every string", "why_tests_cant": "idempotence and preservation are for all inputs", "anchors": ["source/utils/h2_string.cpp:squash", "source/utils/h2_string.cpp:trim"]}
{"id": "C45", "title": "Wrapped text keeps content and width", "statement": "Breaking a line made of whole characters to a given width yields lines each exactly that wide; their characters, read in order and apart from the padding at the end of each line, are exactly those of the original line, each still under the style change that preceded it; a line is only broken where the next character does not fit. This holds as long as no single character is wider than the width and no word ends within a character (both refuted otherwise).", "quantifier": "every line of styled words and every width", "why_tests_cant": "depends on cumulative widths", "anchors": ["source/report/h2_layout.cpp:line_break", "source/utils/h2_line.cpp"]}
{"id": "C46", "title": "Abbreviated option values resolve uniquely", "statement": "An abbreviated option value is accepted exactly when it is a case-insensitive beginning of exactly one candidate, and then denotes that candidate; otherwise the error lists all candidates if it begins none of them, and exactly those it begins if it begins several. The error is defined exactly if its text with the zero byte fits 1024 bytes. A value equal to a candidate that also begins another one is refused as ambiguous, and the error text for a very long value overruns its buffer (both refuted).", "quantifier": "every input string and every list of up to 32 candidates", "why_tests_cant": "ambiguity is a property of all candidates", "anchors": ["source/utils/h2_misc.cpp:h2_candidate", "source/option/h2_option.cpp"]}
{"id": "C47", "title": "Command line parsing is compositional", "statement": "Parsing terminates for every argument vector. An argument vector followed by one that begins with a dash means the first, then the second; arguments before the first dash are ignored. A list of switches written in any permitted way - single letters clustered in one argument or separate, numbers attached or separate (a separate number only behind the last letter), words abbreviated - changes every setting exactly as the switches in order say, and each switch changes only its own setting. Without arguments every setting has its documented initial value; -h and -? behind any switches leave with success; letters without a meaning are passed over; a word of -l, -s or -W that is short for no or several known words ends the program with 255. The documented warning class double_free is rejected, a command line of more than 255 bytes overruns its array, and a separate number behind a cluster goes to the first letter that takes one (all refuted).", "quantifier": "every argument vector, every list of switches in every written form, every sane state of the settings", "why_tests_cant": "clusters and optional arguments combine arbitrarily", "anchors": ["source/option/h2_option.cpp"]}
{"id": "C48", "title": "Hijacked name resolution", "statement": "A lookup returns the results of the most recently made H2DNS still in force that is about the host or about any host. An H2DNS is about the first of the shortest names among its arguments (names of two characters or more), about any host if it has no name; its results are all its other arguments in the order given: getaddrinfo returns each as an address or a canonical name, gethostbyname the addresses and the other names. What was made inside a case is in force until the case ends. Nothing outside the tables is read or written for up to 32 results (getaddrinfo) or 31 (gethostbyname). False, with counterexamples: 33 results overrun the tables of getaddrinfo, 32 addresses leave the list of gethostbyname unterminated, a name of one character gives way to a longer one.", "quantifier": "every history of entries, cases and lookups, every result of inet_pton", "why_tests_cant": "depends on the history of entries", "anchors": ["source/net/h2_dns.cpp"]}
{"id": "C49", "title": "Hijacked sockets deliver in order", "statement": "Packets sent are checked in the order sent, none is lost and none is checked twice, each with the address of its socket and of its first peer. Every packet injected is received at most once, opens a connection, or is still pending; it is received only by sockets whose local address its destination pattern selects; a receive takes the first pending packet for its address and finds none only if there is none. Without connections, packets received at an address come in injection order; the data of the packet that opened a connection are received next. A packet injected without a sender comes from the destination of the last packet sent; an attribute not named means no sender and every receiver. False, with counterexamples: a receive into a buffer smaller than the packet overruns it; with connections the injection order is not kept between addresses; a descriptor connected again, even in a later case, still sends to its first peer; a non-blocking receive with nothing pending returns 0; a blocking one waits for ever.", "quantifier": "every sequence of sends, connections, injections, checks and receives", "why_tests_cant": "queue order over arbitrary histories", "anchors": ["source/net/h2_socket.cpp", "source/net/h2_socket.hpp"]}
{"id": "C50", "title": "Output capture is exact", "statement": "The text of a capture is the concatenation, in order, of everything said between its start and stop on the selected channels (stdout, stderr, syslog) through write, printf, fprintf, vprintf, fputc, putc, fputs, fwrite, putchar, puts, the C++ streams and syslog, and nothing else, up to the first NUL, whatever came before and whatever the verbosity; after its end nothing is added. Everything written reaches its descriptor once and in order, captured or not; below normal verbosity what the user writes to stdout and stderr is dropped and nothing else; a newline parts a title of the report from the first write after it; the bytes the user wrote to the terminal are counted. False, with counterexamples: a NUL written ends the text; a capture inside a capture destroys the outer one; fwrite returns bytes, not items; writing byte 255 as a char returns EOF; messages to syslog outside a capture are lost; an empty printf prints a newline after a title.", "quantifier": "every sequence of calls and captures, every state before, every verbosity", "why_tests_cant": "arbitrary interleavings", "anchors": ["source/stdio/h2_stdio.cpp"]}
{"id": "C51", "title": "Colour markup never leaks into the text", "statement": "With colours disabled the printed text equals the input with exactly the style words removed. With colours enabled a terminal shows the same text (words without escape characters, style words of at most 33 bytes). For properly nested styles - at most eight deep, documented names, no style within itself - every character is shown under exactly the styles around it, outermost first, and afterwards the styles before are in force again. A text between one style word naming up to eight documented styles and the word reset is shown under exactly these styles, in the order named, and reset ends every style in force. Outside of that: a style within itself ends with the inner one, overlapping styles may show the older one, a ninth style is lost, a beginning of the word reset clears all, an unknown name clears all, a name of 32 bytes overruns the table (all refuted).", "quantifier": "every line of words with any style words, any state of the style table", "why_tests_cant": "marker parsing over arbitrary texts", "anchors": ["source/utils/h2_color.cpp", "source/stdio/h2_console.cpp:printl"]}
{"id": "C52", "title": "Footprint is the peak of live memory", "statement": "As long as no allocation is released twice, the footprint recorded for a block (shown by the console report) is the highest number of live bytes the block ever had.", "quantifier": "every allocation/release history in any nest of blocks", "why_tests_cant": "the maximum over all prefixes of an unbounded history", "anchors": ["source/memory/h2_block.cpp:new_piece"]}
{"id": "C53", "title": "Contents of fresh memory", "statement": "A granted allocation holds the requested fill byte or the block's fill pattern repeated over all its bytes, does not overlap any page of another tracked allocation and leaves their contents unchanged. (calloc does not detect an overflowing count*size: refuted.)", "quantifier": "every history, size, pattern and address", "why_tests_cant": "all sizes and patterns, and disjointness from arbitrary other allocations", "anchors": ["source/memory/h2_block.cpp:new_piece", "source/memory/h2_override.cpp:calloc"]}
{"id": "C54", "title": "Use after free and guard page writes are reported", "statement": "The first access to memory that was released without complaint, and the first write to the page behind a live allocation, is reported when the block is closed, naming the allocation, the address and whether it was released, whatever happens before, in between and after. (Reads of the page behind a live allocation are not detected: refuted.)", "quantifier": "every history and every sequence of other events around the access", "why_tests_cant": "needs all interleavings of other events", "anchors": ["source/memory/h2_piece.cpp:violate_forbidden", "source/except/h2_crash.cpp"]}
{"id": "C55", "title": "Mock routines run with the original function in place", "statement": "While the substitute routine of a stubbed function runs under a temporary restore, the function itself has its original code; when the routine returns, the patch is exactly what it was before, provided the routine does not itself stub or unstub that function.", "quantifier": "every reachable stub state and every function", "why_tests_cant": "the restored bytes depend on the whole stub history of the function and on the jump form in use", "anchors": ["source/stub/h2_temporary.cpp", "source/mock/h2_mocker.hpp:function_stub"]}
{"id": "C56", "title": "Mock declaration chains keep expectations apart", "statement": "In a chain of mock declarations every With/Th/Return modifies only the expectation it follows, so the k-th expectation has exactly the bounds, argument matchers and routine written for it (each argument is judged by the matcher written for it last, and one that has none may be anything), a chain that starts without a number of calls means any number of calls, and a final assignment supplies the routine exactly to expectations that have none.", "quantifier": "every chain of expectations with any modifiers", "why_tests_cant": "chains are unbounded; an off-by-one in the parallel arrays shows only for particular mixtures", "anchors": ["source/mock/h2_mocker.hpp:Once", "source/mock/h2_mocker.hpp:Return"]}
{"id": "C58", "title": "Names and tags of a test", "statement": "The description of a test of fewer than 512 bytes is split at the first bracket pair outside double quotes: the inside, split at blanks and commas, gives the first 63 tags, the rest without leading blanks the name; without such a pair the whole description is the name and there are no tags. Longer descriptions overrun the buffers (refuted).", "quantifier": "every description", "why_tests_cant": "unbounded strings, quoting and missing brackets interact", "anchors": ["source/core/h2_test.cpp:__split_describe", "source/core/h2_test.cpp:h2_test"]}
{"id": "C57", "title": "A case fails exactly when a real failure was raised in it", "statement": "A case that ends is counted as failed exactly when a real (non-warning) failure was raised while it ran, by its own code, by the mock or leak check or by an uncaught exception (global case setup code raising none), and as warning exactly when a warning was raised. Setup runs before the body; the body runs up to and including its first real failure, or entirely when asked to continue; the cleanup block runs whether or not the body failed. An exception leaving the body in a suite without Cleanup, or leaving the Cleanup block, is raised as a failure. With continue-assert the report holds all failures in order. (Refuted: failures in global case setup are forgotten; in a suite with Cleanup a throwing body is started again and the exception is lost; a failing Cleanup block is executed again without end; a failure in Setup jumps nowhere.)", "quantifier": "every program of user blocks (pre, setup, body, cleanup, post) with failures, warnings and exceptions, every option combination", "why_tests_cant": "the control flow is made of setjmp/longjmp, destructors and exceptions whose combinations are not covered by the tests", "anchors": ["source/core/h2_suite.cpp:test", "source/core/h2_case.cpp:failing", "source/core/h2_core.hpp:H2Case", "source/core/h2_runner.cpp:main"]}
{"id": "C59", "title": "The Warning prefix concerns the next assertion only", "statement": "In a sequence of statements where the Warning prefix is written before assertions only and these do not throw, exactly the failures of the prefixed assertions become warnings and the flag is down afterwards. Written before an assertion that throws or before something that is no assertion, it stays pending: all further prefixed statements are then skipped, up to the next plain assertion, whose failure is but a warning (so the title is refuted for these uses).", "quantifier": "every sequence of statements and verdicts", "why_tests_cant": "the flag is global state shared by all assertions", "anchors": ["source/assert/h2_assert.hpp:h2_warning", "source/assert/h2_assert.cpp:failing"]}
{"id": "C60", "title": "Binary and plain text literals in memory comparison", "statement": "Me(literal) with a literal of the characters 0, 1 and space matches exactly when the actual buffer's leading bits are the denoted ones (or the buffer holds the literal's text); a literal that is neither binary nor hexadecimal matches exactly when the buffer begins with its characters. Refuted: other white space in a binary literal counts as a 0 bit.", "quantifier": "every literal and every buffer longer than it, negated or not", "why_tests_cant": "bit packing for arbitrary lengths and blank positions", "anchors": ["source/matcher/h2_matches_memcmp.cpp:bin_to_bits", "source/matcher/h2_matches_memcmp.hpp"]}
{"id": "C61", "title": "Side by side rows stay aligned and complete", "statement": "When two texts are shown side by side, line i of both sides is shown in the same group of rows; in every row the left column and the right column have their given widths; reading a column downwards gives exactly the text of the line; a backslash follows a column exactly when its text goes on in the next row; and the row number stands in the first row of a group only.", "quantifier": "every pair of lists of lines made of whole characters, every pair of widths of at least 2, numbered or not", "why_tests_cant": "both sides wrap independently, any number of rows", "anchors": ["source/report/h2_layout.cpp:lines_merge"]}
{"id": "C62", "title": "Abbreviated text keeps beginning and end", "statement": "Abbreviating a line to a width of at least 3 plus the tail length shows it in full (line breaks and tabs spelled out) if it fits; otherwise, for one-byte characters, it shows its beginning, three dots and exactly its last tail characters, exactly as wide as asked. With wide characters the dots can be missing (refuted).", "quantifier": "every styled line, width and tail", "why_tests_cant": "positions are counted across word boundaries", "anchors": ["source/utils/h2_line.cpp:abbreviate", "source/utils/h2_string.cpp:escape"]}
{"id": "C63", "title": "Printed JSON is the value printed", "statement": "The text printed for a JSON value with double quotes (its lines read without colour marks, and the text of a selection), folded or not, is a JSON text of exactly that value and parses back to it, for values whose strings and keys hold no NUL, quote or backslash, whose keys are not empty and whose numbers are printed as their decimal text. False: a quote inside a string is printed bare, an empty key is dropped.", "quantifier": "every showable value, both fold modes", "why_tests_cant": "inductive over nesting; folding changes the layout by the length of the children", "anchors": ["source/json/h2_node.cpp:format", "source/utils/h2_line.cpp:folds", "source/json/h2_json.cpp:select"]}
{"id": "C64", "title": "Assertions on integers compare the integers", "statement": "OK(l op r) with integers of any C++ integer types passes exactly when the mathematical comparison holds, provided both types are signed, both unsigned, the unsigned one has less than 32 bits or less than the signed one, or no value is negative (and != needs l to fit the type of r; a bool is compared with 0 or 1); Eq(e) matches a exactly when the values are equal or differ by 2^64; OK(e, a) passes exactly when e converted to the type of a equals a, which is equality whenever e fits that type; an expected bool asks whether the number is zero. Without these provisos comparison is not that of the values: OK(-1 == 2^64-1) and OK(300, (unsigned char)44) pass, OK(300 == (unsigned char)44) and OK(300 != (unsigned char)44) both fail, and with -1 and 4294967295u both >= and <= pass but == fails (refuted).", "quantifier": "every pair of integer types, every value of each, every operator", "why_tests_cant": "every pair of types and values", "anchors": ["source/matcher/h2_matches_equation.hpp:h2_equation", "source/matcher/h2_matches_inequation.hpp:h2_matches_ge", "source/assert/h2_assert.hpp:h2_1cp", "source/matcher/h2_matcher_cast.hpp:h2_matcher_cast_impl"]}
{"id": "C65", "title": "Floating point equality honours its tolerance", "statement": "Eq(e) matches numbers at most 0.00001 from e, Eq(e, t) those at most |t| away and Eq(e, t%) those at most |t| percent of |e| away, t counting to fourteen decimals, for |t| below 174467 (absolute) and between 10^-14 and 10000 (percent), computing exactly. Larger absolute tolerances turn into percentages and 0% and 10000% mean the default (refuted).", "quantifier": "all rational e, t and a", "why_tests_cant": "the encoding of the tolerance has to be right for every value", "anchors": ["source/matcher/h2_matches_equation.hpp:h2_approximate", "source/matcher/h2_matches_equation.hpp:H2Eq"]}
{"id": "C66", "title": "Range matches the members of an arithmetic progression", "statement": "Range(end), Range(start, end) and Range(start, end, step) with a positive step always decide, and match exactly the numbers within 0.00001 of start, start+step, ... below end, start being 0 and step 1 when left out (computing exactly; the end must not be the magic number -0.15048889911). With a step that is not positive the search does not end unless a member is found, and a falling range matches nothing, unlike Python's.", "quantifier": "all rational arguments and actual values", "why_tests_cant": "termination and membership for all arguments", "anchors": ["source/matcher/h2_matches_range.hpp:h2_range_matches"]}
{"id": "C67", "title": "Text matchers mean equality, containment, beginning and end", "statement": "Se and Eq accept exactly the text given, Substr exactly the texts in which it occurs, StartsWith exactly those that begin with it, EndsWith exactly those that end with it and We those of the wildcard pattern; ~ makes upper and lower case letters alike and ! turns the verdict over. With * and no quotation marks, Se and Eq compare the words of both texts, and Substr, StartsWith and EndsWith look at the words of the text with single spaces between them - but the text looked for is not squashed, so that one with a tab or newline in it is never found (refuted: a text is then not a substring of itself). An expected null pointer accepts exactly the null pointer and no std::string; an actual null pointer counts as the text \"(null)\" (so it equals that text, refuted the other way round).", "quantifier": "every pair of texts, every combination of the operators !, ~ and *", "why_tests_cant": "overlapping occurrences and every place of a text in another", "anchors": ["source/matcher/h2_matches_strcmp.cpp:h2_matches_substr", "source/matcher/h2_matches_strcmp.cpp:h2_matches_endswith", "source/utils/h2_string.cpp:startswith", "source/matcher/h2_matches_equation.hpp:h2_equation"]}
{"id": "C68", "title": "The JUnit report says what became of the cases", "statement": "If names and places are free of double quotes, less-than signs, ampersands and control characters, the file is a well-formed XML document declaring version 1.0 and UTF-8: one testsuite per suite in order with its name and number of cases, within it one testcase per case in order with suite, name, status and time in seconds with three decimals, and a failure element exactly in the cases whose failed flag is set, its message beginning with the place of the case. For one round of different cases, or several rounds without stopping early, the status is that of how the case was treated (todo before filtered before the rest) and the number of failure elements is the number of failures counted by the runner. Refuted: a quote in a name makes the file unreadable; the failures and skipped numbers of suites are always zero; with several rounds a case that failed and is later passed over gets another failure; a filtered todo has the status TODO while the runner counts it as filtered.", "quantifier": "every list of suites and cases with any flags, every run of the runner", "why_tests_cant": "arbitrary names, all combinations of flags, rounds and early stops", "anchors": ["source/report/h2_report_junit.cpp", "source/core/h2_runner.cpp:main"]}
{"id": "C69", "title": "The listing shows exactly the tests that would run, with correct totals", "statement": "Listing tests writes, in order, one line per suite that is neither filtered nor made by a lone case, followed by one line per case and todo of it that is not filtered, each only if its kind was asked for. A suite line bears its number among the listed suites; a case line its number among all listed cases and todos and, if suites are listed, its number within the suite. Each line shows the name, the place without directories and, if asked for, the tags. With at most 1024 different tags there follow, if asked for, the different tags of unfiltered suites and cases in order of first appearance, with the numbers of suites and of cases bearing them, and the totals of what was listed and of what was filtered out. Refuted: over several rounds everything is listed and counted again; tags beyond the 1024th are neither listed nor counted.", "quantifier": "every list of suites and cases with any names, places, tags and flags, every choice of kinds to list", "why_tests_cant": "arbitrary suites and all 16 choices of kinds; the numbering depends on everything before", "anchors": ["source/report/h2_report_list.cpp", "source/utils/h2_misc.cpp:h2_basefile"]}
{"id": "C70", "title": "The console shows the outcome of every case and sums up correctly", "statement": "Seen on a terminal, the console report of a run leaves exactly these lines, provided that names, places and explanations have no control characters and test output only line feeds: for each case of each round in order, from verbosity 4 what it wrote below a line saying that it is being tested, and the line of its verdict with percentage, name, suite and place - of failed cases from verbosity 1, with warnings from 2, of passed ones at 3 and from 5, the latter with assertions, footprint and time - followed by the explanations of a failure (from 4) or warning (from 5); at verbosity 9, unless tests were selected by name, for each suite a line with the numbers of its cases per outcome; and a last line that says Success if no case failed and Failure otherwise, with the numbers of cases per outcome, assertions, rounds and time. Durations and sizes are wrong by at most half of their last decimal. Refuted: todo cases leave no line; a higher verbosity always shows more; over several rounds percentages and numbers stay within the number of cases; units always fit the number.", "quantifier": "every list of suites and cases with any outcomes, every verbosity, any output, any number of rounds, terminal of any width", "why_tests_cant": "what remains visible depends on the whole stream with its erased lines; all outcomes and verbosities", "anchors": ["source/report/h2_report_console.cpp", "source/stdio/h2_stdio.cpp:h2_stdio::write", "source/core/h2_runner.cpp:main"]}
{"id": "C71", "title": "The dump of a failed memory comparison shows the compared data and marks what differs", "statement": "When memory compared as bits, bytes, uint16, uint32 or - values below 2^32 - uint64 differs, the dump is two columns titled expect and actual that fit the console width; on a console with room for both columns every row is one line; each row begins with the hexadecimal index of its first element and shows every element of its part of both sides in order: numbers in hexadecimal with two digits per byte, 16 bytes a row (8 for bytes on a console narrower than 108), bits 32 a row in eights, nothing left out or added in the last row. A number or bit is coloured, green on the expected side and red on the actual one, exactly if the other side differs there, for uint64 values from 2^32 on as well. Rows that look alike hold the same numbers. Required: at most 8 digits in row numbers and 10 columns besides. Refuted: uint64 values from 2^32 on (only the lower half is printed, so differing values can look alike); other element widths (nothing is shown).", "quantifier": "all contents and lengths of the two buffers, every console width", "why_tests_cant": "all data and lengths, last rows filled to any degree, rows wrapped at any width", "anchors": ["source/report/h2_failure.cpp:h2_fail_memcmp", "source/report/h2_layout.cpp:h2_layout::split", "source/utils/h2_misc.cpp:number_strlen", "source/utils/h2_string.cpp:h2_string::centre"]}
{"id": "C72", "title": "A failed string comparison shows both texts and colours exactly what they do not share", "statement": "When a string comparison fails and one of the texts is wider than 8 columns, or at verbosity 5, both are shown below the message: rows of the expected and the actual text in turn, titled expect> and actual>, each as wide as the console. The rows of a text hold its characters in order and nothing else, line feeds, carriage returns and tabs spelled out, broken only where the next character does not fit. The characters left uncoloured on one side are, up to case if case is ignored, those on the other side and form a longest common subsequence; the others are green in the expected and red in the actual text; with colours a space is a gray dot. When a text is not found in, at the beginning or end of another and one of them is wider than 16 columns, both are shown in full, one after the other. Required: texts of whole UTF-8 characters without NUL, fewer than 2^24 in the shorter one, a console of at least 10 columns. Refuted: with colours a space that differs can be told from a common one; a text beginning with ESC { that is not found is shown.", "quantifier": "all texts, every console width, verbosity, with and without colours and case", "why_tests_cant": "all pairs of texts and all places where rows break between characters and colours", "anchors": ["source/report/h2_failure.cpp:h2_fail_strcmp", "source/report/h2_failure.cpp:h2_fail_strfind", "source/report/h2_layout.cpp:unified,seperate,prefix_break", "source/utils/h2_diff.cpp:h2_LCS"]}
{"id": "C73", "title": "A failed comparison is reported with the two sides that were compared", "statement": "With two arguments, OK(expected, actual), these are reported as they are written. OK(left op right) and KO report the written expression split at op, the sides without blanks next to op. For ==, !=, >= and <= it is split at the first op outside string literals. For > it is split at the first > outside literals before which as many < as > stand outside literals, for < at the last < after which as many < as > stand. So template arguments, in closed pairs of angle brackets, on the left of > and on the right of < do not matter. If there is no such place the whole expression is shown as the actual one. String literals are delimited by double quotes; an escaped quote or one in a character literal counts as a delimiter. Refuted: that the sides are found when an arrow or a shift stands on the left of > or the right of <, or a quote in a character literal.", "quantifier": "all written expressions, all six operators", "why_tests_cant": "all nestings of literals and angle brackets on both sides", "anchors": ["source/assert/h2_assert.cpp:__find_compare,__split_compare,failing", "source/utils/h2_misc.cpp:strip_left,strip_right"]}
{"id": "C74", "title": "The line of a failed check shows what was checked, what was expected and what it was", "statement": "A failed OK(e, a), OK(a op b) or KO is reported by one line: indentation, OK or KO, a bracket, the expected side, the operator, the actual side, a bracket, then the explanation, the text the user added and the file and line. The expected side is the written expression, an arrow and its value; the expression alone if there is no value or if it tells the value (the same text, another word for null, not null, true or false, Eq of it, ListOf of it). The actual side is the value, an arrow and the expression; the value alone if the expression tells it or is missing; the expression alone if there is no value. Expressions with a value are cut to 120 columns unless the verbosity is at least detail, everything else to 10000 columns; a cut text is its beginning, three dots and its last three characters. OK(a) shows the expression and, unless it tells it, the value. JE shows both texts without the quotes around them, cut to 30 columns. Inner failures show their number, the expected and the actual value and the explanation. Quotes around literals, brackets, arrows and numbers are dark gray, the expected value is green, the actual bold red, and no style remains in force behind the line. Expressions and values consist of whole characters and contain neither NUL nor ESC; those wider than the limit are of one byte characters; an expected expression is not empty. Refuted: that a line is made if the expected expression is empty, or if the text of JE is empty or a single quote.", "quantifier": "all expressions, values, explanations, places, numbers, indentations and both verbosities", "why_tests_cant": "all texts, synonyms, widths and combinations of missing parts", "anchors": ["source/report/h2_failure.cpp:is_synonym,h2_fail_normal,h2_fail_unexpect", "source/utils/h2_line.cpp:enclosed,gray_quote,abbreviate", "source/utils/h2_string.cpp:unenclose"]}
{"id": "C75", "title": "The attributes of a BLOCK mean what is written", "statement": "BLOCK(limit=n, align=n, fill=x, noleak, unmem), with the attributes in any order, each at most once, in capital or small letters and with blanks around names, equals signs and commas: limit and align are the numbers written (decimal or hexadecimal behind 0x, up to 2^53), 2^48-1 and 8 if they are not mentioned; fill is the hexadecimal digits in pairs (at most 64 digits, a zero in front of an odd number) or a decimal number below 2^64, least significant byte first in the first of 1, 2, 4 and 8 bytes it fits in, and no filling if not mentioned; noleak and unmem hold exactly if mentioned. In any other text the first mention of a name counts, even within another word; without an equals sign behind it limit and align are 0 and fill is one zero byte. strtod is assumed to read numerals exactly and an empty text as 0. Refuted: that a name within another word does not count (unlimited allows no memory at all), that the value may be an expression (limit=10*1024 is 10), that a fill pattern may be longer than 32 bytes (it overruns the buffer).", "quantifier": "all attribute texts", "why_tests_cant": "all orders, spellings, blanks, numbers and patterns", "anchors": ["source/memory/h2_block.cpp:h2_block_attributes,parse_fill", "source/memory/h2_memory.cpp:block", "source/utils/h2_misc.cpp:get_keyvalue,hex2bytes"]}
{"id": "C76", "title": "A function is looked up by its name", "statement": "The symbols of the program are those nm lists, in its order, except data (types bBcCdDiIuU), each with its first 127 characters and its address, for lines of at most 2046 characters. STUB, MOCK and UNMEM given a text look for the first symbol of exactly that name; if there is none, for the functions n(...) or scope::n(...) where n is the text. One function: its address in memory, that is the address nm gives plus the distance between where main is and where nm says it is, modulo 2^64. None or several: a failure that names the first sixteen, and a null pointer; UNMEM takes all sixteen instead. No name: a failure without candidates. An underscore at the beginning of names is dropped exactly if the program has _main and no main. Converting an address to a pointer and back gives it again. A pointer to a member function that is 1+8k (k below 1000) denotes slot k of the virtual table of the object, or of an object made of the class, or of the virtual table found by its symbol if none can be made, and the lookup fails if there is neither that symbol nor type information; an even one is the address of the function itself. Refuted: that functions in unnamed namespaces are found by name; that two functions of the same whole name are reported; that names of 128 characters and more are found; that lines of any length are read safely; that the lookup fails without the symbol of the virtual table.", "quantifier": "all lists of symbols, names, load addresses, virtual tables and pointers", "why_tests_cant": "all programs and the addresses they may be loaded at", "anchors": ["source/symbol/h2_nm.cpp:__nm,get_by_name,get_mangle", "source/symbol/h2_load.cpp:addr_to_ptr,ptr_to_addr,vtable_to_ptr", "source/stub/h2_fp.hpp:get,get1,get2,is_virtual_mfp", "source/memory/h2_exempt.cpp:add_by_name"]}
{"id": "C77", "title": "Reports of memory failures show what happened to which memory", "statement": "What is printed of a leak, a double free, an asymmetric free, memory written or read beside a block, memory used after its release, an exception and a function that is not the only one of its name is exactly the text documented, in its colours, and leaves no colour behind: the address of the memory in hexadecimal; of a leak the total of bytes and, if there is more than one piece, the sizes with how often each occurs (if output is compact and there are more than three sizes, the first three and the number of the others), whether it is a block or a case, and its place; of an overflow the distance in bytes from the end of the block (underflow: from its begin), with its sign, the address, whether it was read or written, and the bytes found as two hexadecimal digits each; and the backtraces of allocation, release and use, numbered from 0, one frame a line, frames of h2unit itself dark gray, left out where the report says so if none was recorded. Preconditions: addresses are not null, texts do not contain ESC, distances are below 2^31. Refuted: that the distance shown is right beyond that.", "quantifier": "all addresses, sizes, backtraces, texts and levels of verbosity", "why_tests_cant": "the output of all failures", "anchors": ["source/report/h2_failure.cpp:h2_fail_memory_leak,h2_fail_double_free,h2_fail_asymmetric_free,h2_fail_overflow,h2_fail_use_after_free,h2_fail_exception,h2_fail_symbol", "source/symbol/h2_backtrace.cpp:print", "source/utils/h2_line.cpp:sequence", "source/stdio/h2_console.cpp:prints,printl"]}
{"id": "C78", "title": "Backtraces name the functions a program is in", "statement": "Of the line describing a return address (the file, in parentheses the symbol and the distance from its beginning in hexadecimal) the name and the beginning of the function are read; names are kept up to 1023 characters; where there is no symbol it is the beginning of the file, where nothing is known nothing. Two backtraces are equal exactly if they have the same addresses in the same order. An allocation is exempted from the memory check exactly if one of its frames, those of h2unit itself apart, is in one of the exempted functions; a function may be given by an address from which at most 32 jumps lead to it, and up to 4095 of them count. A printed backtrace consists of the frames from the innermost of the program on up to and including main or __libc_start_main; each is shown as the first line the debug information gives for its address in the file, without trailing blanks; else, if that is unknown, as the readable name of the function, else as its name, else as the line itself. Preconditions: the path of the file in the line contains no left parenthesis, the symbol begins with a letter or underscore, the path of the program has at most 207 characters, the readable name at most 1023. Refuted: exempting of more than 4095 functions; paths with a parenthesis; and memory is overrun for longer paths and readable names.", "quantifier": "all lines, backtraces, lists of functions, symbol tables and answers of addr2line and __cxa_demangle", "why_tests_cant": "a backtrace can hold any path, name and address; a test sees those of one build", "anchors": ["source/symbol/h2_backtrace.cpp:addr2line,backtrace_extract,operator==,in,print", "source/symbol/h2_cxa.cpp:demangle,follow_jmp", "source/memory/h2_exempt.cpp:add_by_fp", "source/utils/h2_misc.hpp:h2_array_append"]}
{"id": "C79", "title": "Values are shown in reports so that different ones look different", "statement": "What a report shows of a value: true and false; whole numbers in decimal; numbers with a fraction rounded to the nearest millionth (of two equally near the even one), without zeros at the end and without the point if nothing follows it; nullptr; (null) for a null pointer to characters; texts and characters as they are, between gray quotation marks where wanted; wide characters up to 255 as they are, others as question marks; pairs and tuples in gray round brackets, containers in gray square brackets, gray commas between; containers of more than 100 elements as ...; everything else as it writes itself, or a question mark. The styles in force before are in force after it. Two values of one type (truth values, whole numbers, numbers of at most six decimals, texts, characters, pairs, tuples and containers of these of at most 100 elements) are shown alike, colours included and quotation marks wanted, only if they are equal. Preconditions: texts without the characters 0 and escape; gray is not in force already. Refuted: telling apart texts that differ behind a character 0, long containers and numbers less than a millionth apart.", "quantifier": "all values of these types, nested to any depth, all styles in force", "why_tests_cant": "the shapes and contents of values are unlimited; a test prints a few of them", "anchors": ["source/utils/h2_stringify.hpp:h2_stringify_impl::print,tuple_print,h2_stringify", "source/utils/h2_misc.hpp:comma_if,quote_if", "source/utils/h2_line.hpp:gray"]}
{"id": "C80", "title": "The text of an expectation says what the matcher tests", "statement": "The text shown for what a matcher expects can be read by fixed rules, in one way only: ! or ≠ negates, ~ and * say that letter case and blanks are ignored, and binds closer than or, gray brackets group, AllOf, AnyOf and NoneOf stand before gray brackets with gray commas between. Read so, it is true of a value exactly when the matcher accepts that value, whatever the simple tests (Any, NULL, true, a number, a comparison with a number, a text, Re, We, Substr, StartsWith, EndsWith) accept: so matchers shown alike give the same verdict. Every, Has, CountOf and the like are shown by name with what is expected of an element in brackets, and how many times if not once; ListOf in square brackets; Has of key and value, HasKey, HasValue, Pair and Every of key and value (the last two if not negated) with what is expected of keys and of values in round brackets; customised matchers and Range by name with their arguments; a number with a margin as number±margin, with % if it is relative; JSON as it was given, memory as Me(), types by name. The styles in force before are in force after the text. Preconditions: texts without the characters 0 and escape; blanks are ignored by simple tests only; plain values are not negated and plain texts have no options; gray is not in force already. Refuted: Not of a plain value is shown like the value; that case is ignored is not shown of plain texts; within a negated Pair each part is shown with its negation the other way round; a star before \"and\" is shown twice.", "quantifier": "all matchers built from these, nested to any depth, all options, all values, all truth values of the simple tests", "why_tests_cant": "matchers nest without limit and the readings of a text are unlimited; a test compares a few texts", "anchors": ["source/matcher/h2_matches.hpp:C::pre,C::post,expection", "source/matcher/h2_matches_logic.hpp:h2_and_matches::expection,h2_or_matches::expection,h2_not_matches::expection", "source/matcher/h2_matches_container.hpp:expection", "source/matcher/h2_matches_strcmp.cpp:expection", "source/matcher/h2_matcher.hpp:h2_polymorphic_matcher::expection"]}
{"id": "C81", "title": "Memory is watched outside UNMEM and charged to the innermost block", "statement": "With the memory check on, whatever the cases before it did (failed checks inside blocks or UNMEM, exceptions, regular expressions), every case begins watched, with the overrides installed exactly once, and its first allocation is charged to it. If within the UNMEM blocks of a case there is no regular expression, exception, failing check or further UNMEM, every allocation of the case outside UNMEM is watched and charged to the innermost BLOCK around it, or to the case, and none within UNMEM is watched. In any run, when a block or a case ends, what is reported as leaked there is exactly the memory charged to it and not released, and nothing with noleak. A case that is not left from within a block ends its own scope and leaves the scopes as they were. With the memory check off nothing is watched and no leak is ever reported. Refuted: a regular expression, an exception or an inner UNMEM within UNMEM switches the watching on for the rest of it; a check failing within a BLOCK leaves its scope behind, so the case ends that scope and a leak of the case itself is not reported; a check failing within UNMEM leaves the clean-up code unwatched, so that releasing there what the case had allocated goes to the C library, which does not know that memory.", "quantifier": "all options, all sequences of cases, all user code made of allocations, releases, checks, exceptions, helpers, try and nested blocks", "why_tests_cant": "blocks nest and cases follow one another without limit; tests run a few nestings", "anchors": ["source/memory/h2_memory.cpp:h2_memory::hook,h2_memory::initialize,h2_memory::stack::block::block,h2_memory::stack::block::~block", "source/memory/h2_stack.cpp:push,pop,new_piece,rel_piece", "source/core/h2_case.cpp:h2_case::clear,h2_case::prev_setup,h2_case::post_cleanup,h2_case::failing", "source/core/h2_suite.cpp:h2_suite::test"]}
{"id": "C82", "title": "Catch judges what its body throws", "statement": "If the body of a Catch contains no further Catch, no return, no check that fails (unless checks go on after failures) and no try that catches something, then Catch behaves as C++ exceptions would: its body runs up to the first exception; Catch() passes exactly when nothing was thrown; Catch(type, matcher) passes exactly when an exception of exactly that type was thrown whose value the matcher accepts; otherwise it fails, saying which: thrown though nothing was expected, nothing thrown, another type, another value. After it exceptions are as before: what a case throws and catches itself is not disturbed, what it does not catch is reported as uncaught, and no jump goes to a place that has been left. Refuted: a check that fails within Catch, or a return out of it, leaves the interception on, so the next exception, in whatever case, jumps into the Catch that was left; an exception that the code under test throws and catches itself ends the Catch; after a Catch within a Catch the outer one no longer catches.", "quantifier": "all sequences of cases, all user code made of marks, throws, failing checks, returns, try and Catch, nested to any depth, all types and values, all matchers", "why_tests_cant": "code nests without limit; whether a later case crashes depends on all cases before it", "anchors": ["source/except/h2_exception.hpp:h2_exception::check_catch,H2Catch", "source/except/h2_exception.cpp:h2_exception_handler::__cxa_throw,h2_exception::try_catch,h2_exception::try_catch_finally", "source/core/h2_case.cpp:h2_case::failing"]}
{"id": "C83", "title": "The macros on lists work for each value", "statement": "For values that are not empty, contain no comma outside parentheses and no macro of h2unit: H2PP_FOREACH with up to 33 values becomes exactly one call of the given macro for each value, in their order, with the common argument, the number of the value counted from 0 and the value, with the separator between the calls (a separator in parentheses without them), and nothing for no values; H2PP_FULLMESH does so for each pair of the values of two lists, row by row, or of one list with itself; H2PP_REPEAT makes up to 32 numbered calls. So CASES, CASES_T, CASESS and CASESS_T declare one case per value, type or pair, with number and value in its name, which calls the test with exactly that; Foreach and Fullmesh call for each of up to 63 values or each of their pairs. H2PP_NARG, IS_EMPTY, HEAD, TAIL and LAST give what their names say for up to 63 values, and H2_An, by which Cases tells the type of its values, gives the foremost value inside up to 256 pairs of parentheses ((int)3 is left as it is, 0 is given for none), H2_XAn and H2_YAn that of the first and of the last list. Refuted: from the 34th value on the number is not a number; H2PP_REMOVE_PARENTHESES_IF does not leave a list of several values without parentheses unchanged.", "quantifier": "all values (token sequences) and all numbers of them up to the bounds stated, all separators, all macros called, all common arguments, all surrounding program text without macros of h2unit", "why_tests_cant": "every number of values takes another path through about three hundred definitions, and values may be any token sequence; a wrong table entry shows only for one number of values", "anchors": ["source/utils/h2_macro.hpp:H2PP_FOREACH,H2PP_FULLMESH,H2PP_REPEAT,H2PP_NARG,H2PP_IS_EMPTY,H2PP_HEAD,H2PP_TAIL,H2PP_LAST,H2PP_REMOVE_PARENTHESES_IF", "source/core/h2_core.hpp:H2CASES,H2CASESS,H2CASES_T,H2CASESS_T", "source/utils/h2_misc.hpp:H2Foreach,H2Fullmesh"]}
{"id": "C84", "title": "The cases of a suite run once for each value", "statement": "A suite registers its cases in the order of its text, those of Cases and Casess in the order of their values, without running one of them. If the suite has no Cleanup and the values of each Cases have one type, then whatever cases are run in whatever order, each test runs the Setup and the code before the case, then the body exactly once with the values of that case, and unless the body threw the code behind it without Setup; so running all cases runs each body once with its values. If Cleanup stands before the cases, none of which is a Cases, then Cleanup runs exactly once after each body that does not throw, and the code between Cleanup and the end of the suite runs a second time without Setup. Refuted: Cases or Casess behind a Cleanup never ends, since the jump to Cleanup happens before the case is marked as done; a Cleanup behind a case is jumped to though the call that set it has returned; values of another type than the first of the list are converted to its type.", "quantifier": "all suites (any sequence of Setup, Cleanup, Case, Todo, Cases, Casess and other code), all values, all ways the bodies end, all orders in which cases are run", "why_tests_cant": "the order of items, the values, the ways bodies end and the order of the tests combine without bound, and one of the defects is a test that never ends", "anchors": ["source/core/h2_core.hpp:H2SUITE,H2Setup,H2Cleanup,H2Case,H2Todo,H2Cases,H2Casess", "source/core/h2_suite.cpp:h2_suite::enumerate,h2_suite::test,h2_suite::registor,h2_suite::cleaner"]}
{"id": "C85", "title": "JSON shown for pasting is a string literal of the value", "statement": "With the option for pasting JSON into source and escaped double or single quotes, what is printed of a JSON text is one C string literal: continued lines that end with a backslash, all in one column, also when the lines behind the first are indented. Read by the rules of C, the literal stands for a JSON text of exactly the printed value, provided strings, keys and patterns contain no NUL, newline, backslash or double quote, nor the quote in use, keys are not empty, and numbers are printed as JSON numbers. Values of ASCII are always printed. A failed comparison of two JSON texts at least 16 wide then shows such a literal behind \"expect> \" and behind \"actual> \"; if one text is narrower only the first line of the failure is printed; if one text is no JSON, what is said about that text stands behind its \"expect> \" or \"actual> \" instead; without the option two JSON texts are shown in columns. Refuted: with plain double quotes the result is no literal; a backslash or newline in a string makes none either; without a quote a string and a number are shown alike.", "quantifier": "all JSON values and all texts of them, folded or not, both quotes, any indentation", "why_tests_cant": "values nest without bound, and whether all lines together read back as one literal depends on the widths of all of them", "anchors": ["source/json/h2_json.cpp:h2_json::dump", "source/report/h2_failure.cpp:h2_fail_json", "source/utils/h2_line.cpp:h2_lines::width"]}
{"id": "C86", "title": "What a mock reports says which expectation was broken and how", "statement": "At the end of a case, a mock whose expectations were all met reports nothing. Otherwise the first line shows the mocked function with its return type and argument types and the place of the mock, and below it there is one line for each expectation that was not met, in order, with its number. Read back, such a line gives the least and the greatest number of calls that were expected, the number of calls there were, and (if the mock has several expectations) which expectation it is by position and kind. If arguments of a call are refused, each failure at the top carries the number of its argument, and its explanation shows the function with the type of exactly that argument in bold red, and which expectation refused it. A call that nothing expects is shown with the values of its arguments. Positions up to the twentieth are written as in English. Refuted: the twenty-first is written \"21th\"; inside matchers made of several parts the number of the part marks the type, so another argument may be marked.", "quantifier": "all functions with names and types free of escape characters, all lists of expectations with limits from 0 to INT_MAX, all counts of calls, all refused arguments, all values of arguments", "why_tests_cant": "six wordings of a range, any number of expectations and arguments; a wrong bound or a wrong number in a message is noticed only by a person who reads it", "anchors": ["source/mock/h2_checkin.cpp:h2_checkin::check", "source/mock/h2_mocker.cpp:h2_mocker_base::check", "source/mock/h2_mocker.cpp:h2_mocker_base::failing", "source/mock/h2_tuple.hpp:tuple_matches", "source/utils/h2_misc.cpp:index_th"]}
{"id": "C87", "title": "On ARM64 a jump stub is followed to where the processor goes", "statement": "On ARM64, if the address given for a function is a stub of the linker (adrp, ldr, br, with or without an add between them, the address table lying at the same or a later page) or a jump like those h2unit itself writes (ldr of a literal that follows, br), then the search for the function leads to the very address at which the processor arrives; several such stubs one behind the other are followed to the end if they are no more than the rounds, and otherwise to a place on the way. An address where other code stands is left as it is. A function stubbed by h2unit is followed to its substitute. Refuted: a table at an earlier page (the page number is extended with the wrong sign bits) and a literal before the code are read at a wrong address, and a br to another register is followed as if it were x17.", "quantifier": "all memories, all addresses of code, all chains of stubs of any length, all numbers of rounds, all register contents", "why_tests_cant": "the code is compiled only on ARM64; the layouts the linker makes depend on the size of the program, and a wrong address is taken without notice", "anchors": ["source/symbol/h2_cxa.cpp:h2_cxa::follow_jmp", "source/symbol/h2_cxa.cpp:sign_extend", "source/symbol/h2_cxa.cpp:fetch_opcode", "source/stub/h2_e9.cpp:h2_e9_set"]}
{"id": "C88", "title": "Ptx judges the oldest packet sent, part by part", "statement": "Ptx(from, to, payload, size) takes the oldest packet sent that no Ptx has judged yet. It passes exactly when the sender matches the pattern from, the receiver the pattern to, the payload matcher accepts the bytes sent and the size matcher accepts their number; otherwise the failure names exactly the parts that are not as expected, in this order, each with what its matcher says, together with the text and the place of the Ptx. If no packet is left this is what the failure says. A Ptx counts as one assertion. A number for the size accepts exactly packets of that many bytes. With Me(buffer, n) for the payload, n not more than the bytes of the packet, the payload is accepted exactly when the packet begins with those n bytes. Refuted: Me with more bytes than the packet has reads memory behind the packet; a packet longer than expected passes unless the size is given. Packets are smaller than 2^31 bytes; from and to are given as texts.", "quantifier": "all sequences of socket operations before, all patterns and addresses, all payloads, all matchers for payload and size", "why_tests_cant": "which packet is judged depends on everything sent and judged before; four parts can each fail or not, with any matchers; reading behind a packet usually goes unnoticed", "anchors": ["source/net/h2_socket.hpp:h2_sock::check", "source/net/h2_socket.cpp:h2_sock::fetch", "source/net/h2_socket.cpp:h2_sock::failing"]}
{"id": "C89", "title": "PF fails exactly when more processor time was used than allowed", "statement": "A PF(ms) block runs exactly once, counts as one assertion, and fails exactly when the processor time used by it exceeds ms milliseconds, whatever the rounding of double precision numbers; the failure shows the limit and the time used, cut to whole milliseconds, and the place. The time used is below 2^40 microseconds and the limit is an int. Refuted: the message says that less than the limit was expected, but exactly the limit passes; and the time shown may be equal to the limit.", "quantifier": "all limits, all start and end times, all monotone roundings that are exact on numbers of 53 bits", "why_tests_cant": "the time a block takes cannot be chosen exactly; the limit lies between two clock ticks", "anchors": ["source/assert/h2_timer.cpp:h2_timer::~h2_timer", "source/assert/h2_timer.cpp:h2_timer::h2_timer", "source/assert/h2_timer.hpp"]}
{"id": "C90", "title": "The course of a run: global hooks and reports are called at the right moments", "statement": "In a run, the global setups are called once, in the order of registration, before everything else, and the global cleanups once after everything else. Right before each body that runs all setups of cases are called in order, right after it all cleanups of cases, and never otherwise; around that, every report is told that the case starts and that it ends. The hooks of suites are called around the cases of each suite in each round, and around it the reports are told of the suite; they are also called around each suite when its cases are collected, before any report is told anything. Each of the first seven reports (own ones, then the list or the console and the junit report) hears the start of the run, each suite of each round with its cases in between, and the end, each once and properly nested; the bodies that run are those of the cases the runner counts as executed. The arrays of hooks and reports are never read beyond their end, however many are registered. Refuted: all reports are told (with seven own reports the console report is silently left out), all hooks are called (after 1023 of a kind further ones are dropped), hooks of suites are called only if cases run (they are also in list mode), cleanups are called in reverse order. Hooks, reports and bodies return.", "quantifier": "all numbers of hooks, reports, suites and cases, all orders in each round, all options, all outcomes of bodies", "why_tests_cant": "the framework cannot easily be run inside itself; the number of hooks and reports is not bounded; a hook called once too often or in a wrong moment shows only in particular programs", "anchors": ["source/core/h2_runner.cpp:h2_runner::main", "source/core/h2_runner.cpp:h2_runner::enumerate", "source/core/h2_runner.hpp:__H2GlobalCallback", "source/utils/h2_misc.hpp:h2_array_append", "source/report/h2_report.cpp:h2_report::initialize", "source/report/h2_report.cpp:h2_report::registor::registor", "source/report/h2_report.hpp:H2Report"]}
{"id": "C91", "title": "The helpers IsEven, IsOdd, IsDivable, IsInteger, IsNaN and File say what their names say", "statement": "For an integer of any type, IsEven passes exactly for even and IsOdd exactly for odd numbers, negative ones included. IsDivable(e) passes exactly when e divides the number, if neither is negative or both have signed types; it is undefined exactly for e = 0 and for the smallest number with e = -1. IsInteger passes exactly for numbers without fraction and for infinities, IsNaN exactly for NaN. With ! each verdict is reversed. File gives exactly the bytes of a file whose size is known. Refuted: IsDivable with a negative number and an unsigned type (wrong either way); IsInteger fails for infinities; File tells a missing file from an empty one, and reads files whose size is reported as zero.", "quantifier": "all integer types and values, all floating point values, all contents of files", "why_tests_cant": "implicit conversions between signed and unsigned types matter only for particular pairs of types and values", "anchors": ["source/matcher/h2_matcher_aux.hpp:IsEven", "source/matcher/h2_matcher_aux.hpp:IsOdd", "source/matcher/h2_matcher_aux.hpp:IsDivable", "source/matcher/h2_matcher_aux.hpp:IsInteger", "source/matcher/h2_matcher_aux.hpp:IsNaN", "source/matcher/h2_matcher_aux.hpp:File", "source/matcher/h2_matcher_customize.hpp:__H2MATCHES"]}
{"id": "C92", "title": "Matchers kept in variables: what is written is what is checked as long as no operator is applied to a variable", "statement": "A matcher kept in a variable (auto x = Ge(1)) can be used in any number of checks and combined with Not, Conditional, &&, ||, AllOf, AnyOf and NoneOf: if no operator (!, ~, *, times, range) is written directly on a variable, every check has the boolean meaning of its expression for the variables as declared, whatever stands before, in every order of evaluation, and the variables stay unchanged. An operator written on a variable changes it for good: at any later point its verdict is the original one, negated when the number of ! so far is odd, caseless after any ~, squashing after any *. A variable declared from an expression is a copy. Refuted: that OK(x, v) after OK(!x, v) means x; that x && !x never passes or x || !x always passes (both mean !x); that declaring y as !x leaves x alone; that a loop of OK(!x, v) gives the same verdict each time (they alternate); that the order of evaluation never matters.", "quantifier": "all expressions of logical matchers, all sequences of declarations and checks, both orders of evaluation, all values", "why_tests_cant": "which check is wrong depends on every earlier use of the variable; a test of one check with a fresh matcher never shows it", "anchors": ["source/matcher/h2_matcher.hpp:h2_polymorphic_matcher", "source/matcher/h2_matches_logic.hpp:AllOf", "source/matcher/h2_matches_logic.hpp:Conditional", "source/matcher/h2_matches_logic.hpp:operator&&", "source/assert/h2_assert.hpp:h2_ok2"]}
{"id": "C93", "title": "COUT fails exactly when its matcher rejects what its block said", "statement": "In a test of calls that write, assertions and COUT blocks (not inside one another), the verdicts fall in the order in which assertions are reached and blocks end; the verdict of a block is that of its matcher on the bytes that the calls inside it wrote on the channels it names (all if none), in order, up to the first NUL, whatever was written or captured before and whatever the verbosity. With -c exactly the bad verdicts are reported, in order, and all are counted as assertions; without it the first bad verdict is reported, those up to it are counted and the test is left there. Of a block inside a block both are judged by the text of the inner one. Refuted: that an outer block sees all that is said in it; that a block left by a failure inside it is judged or counted (and its capture goes on).", "quantifier": "all sequences of calls, assertions and blocks, all matchers and channel lists, all states of the output before, both settings of -c", "why_tests_cant": "the text a block is judged by depends on the state left by all earlier captures, also aborted ones", "anchors": ["source/stdio/h2_stdio.cpp:h2_cout", "source/stdio/h2_stdio.hpp:H2COUT", "source/core/h2_runner.cpp:failing", "source/core/h2_case.cpp:failing"]}
{"id": "C94", "title": "A JSON diff puts a member without a namesake beside the most alike one left", "statement": "In the diff of two JSON objects whose keys are distinct, the members whose key does not occur on the other side are matched in turn: each expected one with the first of the most alike actual ones still left, provided its score is above 1/5; such pairs share a row as partners, what is then left on both sides is put side by side as unrelated, and no two of those are alike (score above 1/5). If just one member on each side has no namesake, the two share a row, as partners exactly if their score is above 1/5. The score of two strings, numbers, booleans, nulls or patterns of one kind is that of their texts (1 less edits per mean length; a number, boolean or null has the empty text), of two values of different kinds 0; with keys the mean of it and of the score of the keys. Nothing scores more against a value than the value itself under its own key. Refuted: that equal numbers are preferred; that a pair is the best for both; that scores stay within 1 or are symmetric.", "quantifier": "all JSON documents with distinct keys per object, all nestings, both settings of case", "why_tests_cant": "the choice ranges over all sets of members and depends on all earlier choices", "anchors": ["source/json/h2_match.cpp:similarity", "source/json/h2_match.cpp:search", "source/json/h2_dual.cpp:h2_json_dual"]}
{"id": "C95", "title": "Je judges the selected part of a document, and never accepts an ill-formed one", "statement": "OK(Je(expect), actual), OK(Je(expect, selector), actual) and JE: for two well-formed JSON documents and no selector the matcher accepts exactly if the actual value meets the expected one; with a selector whose steps all lead somewhere, exactly if the selected value (printable, see C63) meets it. Each ! and each Not turns the verdict round once, a ~ anywhere makes case not matter, in the comparison and in the selector. If the last step of the selector leads nowhere, no expectation is met, not even null, and the opposite holds. If an earlier step leads nowhere the test crashes. An actual text that is ill-formed (an unclosed array or object, a second array or object behind the value) is never accepted, neither by the matcher nor by its opposite; likewise a doubled expectation. OK holds if the matcher accepts, KO if it refuses. Refuted: that KO(m) means OK(!m) (an ill-formed text passes the first); that a selected value with a quote in a string meets itself; that an empty text is ill-formed.", "quantifier": "all JSON documents, white space, selectors, nestings of operators and Not, number formats and comparisons", "why_tests_cant": "documents, selectors and nestings of operators are unbounded", "anchors": ["source/matcher/h2_matches_json.cpp:matches", "source/json/h2_json.cpp:select", "source/assert/h2_assert.hpp:JE", "source/json/h2_json.cpp:match"]}
{"id": "C96", "title": "Addresses of injected and sent packets are those of the sockaddr", "statement": "With sockets hijacked, ip:port as a test writes it (four numbers below 256, a port below 65536) and struct sockaddr_in stand for each other: recvfrom, recvmsg and accept fill in AF_INET, the address, and the port in network byte order (0 if the text has no port) of the packet taken; sendto, sendmsg, connect and the own address of a socket show as ip:port. Writing a sockaddr and reading it back gives the same address and port. So an answer to the sockaddr that came with a packet goes to where the packet came from; what is sent on a connected or accepted socket (a descriptor not seen before) goes from its own address to the one connected to, or to the sender of the packet that opened it; a packet injected without a sender comes from the address last sent to. connect, accept and recvfrom wait exactly if the socket blocks and no packet is for its own address. inet_pton and inet_ntop are assumed to read and write just such addresses. Refuted: that a null address, legal for recvfrom and accept, works (it is written through), that a sender that is no such address is told (the caller finds the address from before).", "quantifier": "all addresses, ports, contents of the sockaddr before, states of the queues, blocking and non-blocking sockets", "why_tests_cant": "2^48 addresses with ports, unboundedly many states of the queues", "anchors": ["source/net/h2_socket.cpp:iport_parse", "source/net/h2_socket.cpp:iport_tostring", "source/net/h2_socket.cpp:recvfrom", "source/net/h2_socket.cpp:accept", "source/net/h2_socket.cpp:sendto", "source/net/h2_socket.cpp:connect"]}
{"id": "C97", "title": "Pointee, Member and CastOf judge what they lead to", "statement": "A matcher expression built from base matchers, the operators ! ~ *, Not, &&, ||, AllOf, AnyOf, Every, Has, Pointee(m), Member(m, data member or method; through an object, a raw or a smart pointer) and CastOf<T>(m) accepts exactly the values it means (Every and Has: the first 5413722 elements) and rejects the others, as long as no null pointer is read; it crashes exactly if one is: both sides of && and || and all parts of AllOf are looked at, those of AnyOf up to the first that holds, the elements for Has up to the first asked for. ! ~ * before Pointee, Member or CastOf mean the same as before the matcher within. A range or number of times given to Member or CastOf is one for the matcher within, if that has none. Refuted: that this also holds for Pointee (the range is forgotten); that && or || guard a pointer, as in !NULL && Pointee(5).", "quantifier": "all such expressions, of any depth and with any base matchers, members and conversions, and all values", "why_tests_cant": "unboundedly many expressions, object graphs and places of null pointers", "anchors": ["source/matcher/h2_matches_pointee.hpp:h2_pointee_matches", "source/matcher/h2_matches_member.hpp:h2_member_data_matches", "source/matcher/h2_matches_member.hpp:h2_member_method_matches", "source/matcher/h2_matches_cast.hpp:h2_castof_matches", "source/matcher/h2_matches_logic.hpp:h2_and_matches"]}
{"id": "C98", "title": "MATCHER and Member take their arguments apart", "statement": "For values that are not empty, contain no comma outside parentheses and no macro of h2unit: MATCHER(name, up to five parameters) declares a matcher of that name with those parameters and an empty message, provided the last parameter is not all in parentheses ((int)3 is not); MATCHER(name, up to five parameters, (message)) declares one with those parameters and that message, whatever text it is. Member(expect, member) asks for the member itself; Member(expect, method, 1 to 61 arguments) calls the method with exactly those arguments, the method chosen by exactly their types, in their order, provided a single argument is not all in parentheses; Member(expect, method, (up to 63 arguments)) does the same with those in the parentheses, also for none. Refuted: that MATCHER with six parameters and no message declares a matcher or is reported (it becomes nothing).", "quantifier": "all values (token sequences), all numbers of them up to the bounds stated, all messages, all surrounding program text without macros of h2unit", "why_tests_cant": "every number of arguments takes another path through the definitions, and arguments may be any token sequence; a wrong table entry shows only for one number of arguments", "anchors": ["source/matcher/h2_matcher_customize.hpp:H2MATCHER", "source/matcher/h2_matches_member.hpp:H2Member"]}
{"id": "C99", "title": "STUB, UNSTUB, MOCK, Catch and DNS take their arguments apart", "statement": "For values that are not empty, contain no comma outside parentheses and no macro of h2unit, where parentheses around all of a class, method, function, signature or type are there only for the commas in it: STUB and UNSTUB with a function, a class and a method, or an object, a class and a method, and a signature, and MOCK with these, and STUBS, UNSTUBS and MOCKS with the type of the result and up to 63 parameters in parentheses (also none) instead of the signature, are about the pointer to exactly that function with exactly that signature, name it in reports as it is spelled, and put the given function there: for STUBS and MOCKS one written in place, which for methods takes the object before the parameters. STUB(source, destination), UNSTUB(source) and UNSTUBS(source) are about the source whatever its signature. A function is given to MOCK and MOCKS, and the type of the result to STUBS of a function, without such parentheses. Catch expects the type and the matcher given, nothing thrown without arguments, and any value with a type only; DNS(1 to 63 arguments) hands over their number and the arguments in order. Refuted: that parentheses around the type of the result of STUBS of a function are taken off behind the arrow (they stay, and a type in parentheses is no type).", "quantifier": "all values (token sequences), all numbers of parameters up to the bounds stated, functions, methods and objects, all surrounding program text without macros of h2unit", "why_tests_cant": "every number of arguments takes another definition, methods without parameters another again, and arguments may be any token sequence; a wrong parameter in one definition shows only there", "anchors": ["source/stub/h2_stub.hpp:H2STUB", "source/stub/h2_stub.hpp:H2UNSTUB", "source/stub/h2_stub.hpp:H2STUBS", "source/stub/h2_stub.hpp:H2UNSTUBS", "source/mock/h2_mock.hpp:H2MOCK", "source/mock/h2_mock.hpp:H2MOCKS", "source/except/h2_exception.hpp:H2Catch", "source/net/h2_dns.hpp:H2DNS"]}
{"id": "C100", "title": "OK, KO, JE, Eq, Me, UNMEM, BLOCK, COUT, PF and SOCK take their arguments apart", "statement": "For values that are not empty, contain no comma outside parentheses and no macro of h2unit: OK and KO of one argument check that argument as a condition and report it as it is spelled; of two arguments they compare the second with what the first expects, report both as they are spelled, and tell from the second whether it is an array and of which extent; OK and KO differ in nothing but that KO expects the opposite. JE of two arguments compares the JSON texts, and with a third compares what that selector takes of the actual one. Eq of one argument is exact, and a second argument is its tolerance. Me puts the extent of the buffer before all (up to 63) further arguments. UNMEM without arguments is a part of the case whose memory is not watched, and with (up to 63) arguments names functions. BLOCK and COUT read their arguments as they are spelled. PF is a part of the case with a limit of time, SOCK one with its network traffic. Refuted: that OK takes an actual value with a comma outside parentheses, as in OK(e, pair<a, b>()), though it reports the spelling in parentheses as for such values.", "quantifier": "all values (token sequences), all numbers of arguments up to the bounds stated, all surrounding program text without macros of h2unit", "why_tests_cant": "every number of arguments takes another definition and arguments may be any token sequence; a wrong parameter in one definition, as the spelling of the wrong argument in a report, shows only there", "anchors": ["source/assert/h2_assert.hpp:H2OK", "source/assert/h2_assert.hpp:H2KO", "source/assert/h2_assert.hpp:H2JE", "source/assert/h2_timer.hpp:H2PF", "source/matcher/h2_matches_equation.hpp:H2Eq", "source/matcher/h2_matches_memcmp.hpp:H2Me", "source/memory/h2_memory.hpp:H2BLOCK", "source/memory/h2_memory.hpp:H2UNMEM", "source/stdio/h2_stdio.hpp:H2COUT", "source/net/h2_socket.hpp:H2SOCK"]}
{"id": "C101", "title": "A mocked function does what was declared, and is counted when called from outside", "statement": "In a test in which functions call one another (with values, exceptions caught or not, and checks that leave the case), the calls charged to a mock are exactly those calls of the function that are not made, directly or not, by the function or its routine, in order; by these the mock is judged. Each of them does what was given with the expectation charged - a value, a function of the arguments, or a function of the object and the arguments - or, if nothing was given or no expectation accepts it, what the function itself does, with the object and the arguments of the call, and the caller goes on with the value or exception that comes of it. Every call of the function made inside goes to the function itself. When a call returned or threw, the mock is in force again. Refuted: that all calls of a mocked function are counted (a recursive function called Once calls itself, and the mock passes); that a mock is in force to the end of its case (a check that fails in the routine leaves the case, and cleanup code that calls the function reaches the function itself, uncounted).", "quantifier": "all programs of calls, all mocks declared in any way, all functions and routines, failures that leave the case or not", "why_tests_cant": "which calls are counted depends on what is under way when they are made, at any depth and through other functions, and on how the calls around them ended", "anchors": ["source/mock/h2_mocker.hpp:function_stub", "source/mock/h2_mocker.hpp:I", "source/mock/h2_routine.hpp:operator()", "source/stub/h2_temporary.cpp:h2_stub_temporary_restore", "source/stub/h2_temporary.cpp:~h2_stub_temporary_restore"]}
{"id": "C102", "title": "While memory is checked, the calendar stands still", "statement": "With the memory check on, gmtime, gmtime_r, localtime, localtime_r, asctime, asctime_r, ctime, ctime_r and mktime are replaced from the start, and lead to their substitutes in every later state unless a scope opened since has its own stub, which gives way again at its end; without the check nothing is replaced. Whatever moment they are asked for, the four that break a moment down give Sunday, 1 January 2012, midnight, in Greenwich - a date that the Gregorian calendar does contain - in the buffer given or else in the static one, and touch no other buffer. The texts of asctime and ctime tell this date but for upper case and blanks, and asctime_r and ctime_r write it within 26 bytes. mktime always gives the moment of this date eight hours east of Greenwich. Refuted: that mktime undoes gmtime and localtime; that the texts have the form the C standard prescribes.", "quantifier": "all moments, dates, buffers and contents of memory; all places of the functions apart from one another; all nestings of scopes with stubs", "why_tests_cant": "a test sees the date for the moments it asks for; that no moment, buffer or earlier stub leads to another one is a statement about all of them", "anchors": ["source/memory/h2_exempt.cpp:gmtime_r", "source/memory/h2_exempt.cpp:mktime", "source/memory/h2_exempt.cpp:setup", "source/memory/h2_memory.cpp:initialize"]}
{"id": "C103", "title": "OK of a condition judges the condition that is written", "statement": "OK(e) and KO(e) put the expression behind h2_0cp() > and let overloaded operators take it apart. For every expression of operands and left-associative binary operators, with the meaning the grammar of C++ gives it, which is unique: a check that compiles judges the expression as a whole, or its two sides with the operator between them, and never another grouping; it compiles exactly if it is arithmetic, arithmetic compared with arithmetic, or arithmetic on the left and arithmetic or relations on the right of == or !=. On integers of all types OK passes, and KO fails, exactly when the condition is true in C++ with its promotions and conversions - always for < > <= >= and for conditions without comparison, for == and != if both sides are signed, both unsigned or none negative, a bool on the left is compared with 0 or 1, and what != compares fits the type of the right side. Refuted without these: OK(-1 == 4294967295u) fails though true, OK(true == 7) passes though false, OK(300 != (unsigned char)44) fails though true.", "quantifier": "all expressions of any length over all left-associative binary operators; all integer types and values; OK and KO", "why_tests_cant": "the ways to write a condition and the pairs of types and values are without bound; a grouping that differs from the one written shows only for some of them", "anchors": ["source/assert/h2_assert.hpp:h2_0cp", "source/assert/h2_assert.hpp:h2_1cp", "source/assert/h2_assert.hpp:h2_2cp", "source/assert/h2_assert.hpp:h2_ok1", "source/assert/h2_assert.hpp:H2OK_1"]}
{"id": "C104", "title": "What -h prints agrees with what the command line does", "statement": "Whatever follows -h or -?, a text is printed. The table lists every letter that means something to the parser, each once, and no other; every line of it is 80 characters wide. A letter has an argument in the table exactly if it can take something of what follows it (-h and -? aside). Where the table gives a number for an option without one ([n=1] of -b, [n=2] of -r), that number is set; -v without a number is no less than any level explained. -l and -S take the types the table explains and what is short for exactly one of them, and nothing else; -h i and -h e explain exactly what -i and -e take before an equals sign; -h W explains all that -W takes. Refuted: that -W takes everything explained (double_free is refused), that -s takes the words of the table (alphabet is refused, name is taken and not mentioned), that -F without a number is the greatest value as the table says (it is 0).", "quantifier": "all bytes as option letters; all words after -l, -S, -i, -e, -W; all settings and all arguments that follow; all versions, dates and revisions written in one line", "why_tests_cant": "the letters that mean nothing and the words refused are without bound, as are the settings and arguments an option meets; help and parser are written apart and drift apart", "anchors": ["source/option/h2_option.cpp:usage", "source/option/h2_option.cpp:h2_option::parse", "source/utils/h2_misc.cpp:h2_candidate"]}
