# Formal model of h2unit: design

The model describes, in Coq 8.16.1, what the functions of `/repo/source` do; the theorems say what a user of h2unit may
rely on.  The code was read as text; nothing of it was built or run.

## 1. Trusted base

* **The Coq 8.16.1 kernel** (`coqc`, and `coqchk` run over the compiled files) and the Coq standard library.
* **Assumptions of the theorems.**  Every property theorem is followed by `Print Assumptions`; for every one of them Coq
  answers `Closed under the global context`.  No axiom of our own, no `Admitted`, no section-less `Variable` or `Hypothesis`,
  no module functor, no kernel check switched off.  (`vcheck` lists seven constants of `Coq.ssr.ssrunder` under
  "library_axioms"; they belong to the standard library, come with the `lia`/`ssreflect` plumbing and are used by no theorem.)
* **The models.**  That each definition follows the lines it cites is a matter of reading; nothing connects the text in
  `/repo` with the Gallina functions mechanically.
* **The specifications** (`*Spec.v`): small, separate definitions of what is claimed (edit scripts, glob relation, x86
  decoding, sequences, …).  A theorem is worth what its specification says.
* **Parameters.**  What the operating system, the C library or the user's code does is a universally quantified parameter
  of the model: addresses returned by mmap, `fnmatch`, `regex`, `strtod`/`std::to_string`, `inet_pton`, `rand`, the bodies
  of test cases, user predicates in matchers.  Where a theorem needs a property of such a parameter, the property is a
  hypothesis of that theorem, and an example shows that it can be met.

## 2. How the development is laid out

* `<Area>Model.v`: total computable functions, one per C++ function where possible, each citing the source lines.
* `<Area>Spec.v`: the specification.  It may use the types of the model, not its algorithms.
* `<Area>Proofs*.v`: the proofs; `*Examples.v`: computable checkers for the concrete cases.
* `P_<Area>.v`: nothing but the property theorems `Cnn_…` (closed by `exact some_lemma`), `Print Assumptions`, and beside each
  theorem (or group of theorems with the same hypotheses) an `Example` with a concrete, non-trivial case.
* Undefined behaviour, crashes and endless loops are outcomes of their own.  Loops that are not structurally recursive take
  fuel; running out of it is a separate outcome, which the theorems exclude or name.
* A statement that is false of the code is proved false: theorems `…_refuted : exists …`.  The property's text in
  `properties.jsonl` then carries the precondition under which it is true.
* `seeded/LOG.jsonl` records seeded faults: one edit of the model per line, the claim it breaks, the theorems whose proofs
  broke.  Survivors led to stronger theorems ("tightened").


## 3. What is modelled, area by area

Line ranges are repeated at every definition of the model files. "Left out" names what the theorems of the area do not speak about.

### Text comparison

* Files: `DiffModel`, `DiffSpec`, `DiffProofs`, `LcsProofs`, `P_Diff`; properties C01, C02, C03.
* Follows: `utils/h2_diff.cpp` (levenshtein, estimate, h2_LCS).
* Simplified: matrices are rows of numbers; the similarity `double` is an exact fraction.
* Left out: rounding of the division; allocation of the matrices.

### Wildcards

* Files: `GlobModel`, `GlobSpec`, `GlobProofs`, `P_Glob`; properties C04.
* Follows: `utils/h2_pattern.cpp:16-38`, the matcher built in on Windows/Cygwin.
* Simplified: pointers are suffixes of the strings; `tolower` is that of the "C" locale.
* Left out: `fnmatch` (other systems) and `std::regex`.

### Intrusive lists

* Files: `ListModel`, `ListSpec`, `ListProofs`, `P_List`; properties C05, C06.
* Follows: `utils/h2_list.hpp`, `utils/h2_list.cpp`.
* Simplified: a heap maps nodes to their two links; statements are executed in source order.
* Left out: the macros around iteration other than their control flow.

### Private allocator

* Files: `LibcModel`, `LibcSpec`, `LibcProofs`, `P_Libc`; properties C07, C08, C09.
* Follows: `utils/h2_libc.cpp`.
* Simplified: sizes and addresses are N with explicit wrap at 2^64; mmap is a parameter (an oracle of addresses).
* Left out: memory contents other than the size field; munmap.

### Shared pointers

* Files: `SharedPtrModel`, `SharedPtrSpec`, `SharedPtrProofs`, `P_SharedPtr`; properties C10.
* Follows: `utils/h2_shared_ptr.hpp`.
* Simplified: objects and counters are numbers; handles are variables of a program of assignments, copies and destructions.
* Left out: concurrency; exceptions in destructors.

### Checked allocations

* Files: `PieceModel`, `PieceSpec`, `PieceProofs`, `P_Piece`; properties C11, C12.
* Follows: `memory/h2_piece.cpp` (sizes, snowfields), `utils/h2_misc.cpp` (alignment helpers).
* Simplified: numbers modulo 2^64; a page is a list of bytes.
* Left out: mmap/mprotect failures.

### Checked heap

* Files: `MemModel`, `MemSpec`, `MemProofs`, `MemProofs2`, `MemProofs3`, `MemExamples`, `P_Mem`; properties C13, C14, C15, C16, C52, C53, C54.
* Follows: `memory/h2_piece.cpp`, `h2_block.cpp`, `h2_leaky.cpp`, `h2_stack.cpp`, `h2_override.cpp`, `except/h2_crash.cpp`.
* Simplified: backtraces are opaque numbers; the exemption test is a fixed predicate; the address of a mapping is an input.
* Left out: the options that turn memory failures into warnings; parsing of block attributes (see C64 ff.).

### Stubs

* Files: `StubModel`, `StubSpec`, `StubProofs`, `StubProofs2`, `StubExamples`, `P_Stub`; properties C17, C18, C19, C55.
* Follows: `stub/h2_e9.cpp`, `h2_source.cpp`, `h2_stubs.cpp`, `h2_temporary.cpp`, `symbol/h2_cxa.cpp:12-56`.
* Simplified: memory is a function from addresses to bytes; mprotect succeeds; the 8-byte store into a 5-byte array (`h2_e9.cpp:37-38`, undefined behaviour) is modelled by its effect on the five bytes.
* Left out: instruction cache flushing, arm64 jump following, finding a function by name.

### Mocks

* Files: `MockModel`, `MockSpec`, `MockProofs`, `MockProofs2`, `MockProofs3`, `P_Mock`, `MockSpec2`, `MockProofs4`; properties C20, C21, C56.
* Follows: `mock/h2_checkin.*`, `h2_mocker.*`, `h2_mocks.cpp`, `h2_tuple.hpp`.
* Simplified: a matcher of an argument is a predicate; call counters are unbounded.
* Left out: texts of failures; types of arguments.

### Runner

* Files: `RunnerModel`, `RunnerSpec`, `RunnerProofs`, `RunnerProofs2`, `P_Runner`; properties C22, C23, C24.
* Follows: `core/h2_runner.cpp:117-178`.
* Simplified: bodies of cases are an oracle; the order of suites and cases is a parameter; counters unbounded.
* Left out: reports; memory checks at the end of a case (an input of the oracle).

### Filters and names

* Files: `FilterModel`, `FilterSpec`, `FilterProofs`, `P_Filter`; properties C25, C58.
* Follows: `core/h2_test.cpp`, `core/h2_filter.cpp`, `core/h2_runner.cpp:63-70`.
* Simplified: C library string functions in the "C" locale; the wildcard matcher is a parameter.
* Left out: -

### Order of execution

* Files: `OrderModel`, `OrderSpec`, `OrderSpec2`, `OrderProofs`, `OrderProofs2`, `OrderProofs3`, `OrderProofs4`, `P_Order`; properties C26, C27.
* Follows: `core/h2_runner.cpp:1-115`.
* Simplified: sequence and line numbers are unbounded; the file of the last order is a list of lines; rand is a parameter.
* Left out: I/O errors other than a missing file.

### Scopes

* Files: `ScopeModel`, `ScopeSpec`, `ScopeProofs`, `ScopeProofs2`, `P_Scope`; properties C28.
* Follows: `core/h2_runner.cpp:46-61,131-201`, `core/h2_case.cpp:16-24`, `core/h2_suite.cpp:18-25`, `net/h2_dns.cpp:137-139`.
* Simplified: user code is an arbitrary list of actions at every place where the runner calls it.
* Left out: -

### One case

* Files: `CaseModel`, `CaseSpec`, `CaseProofs`, `P_Case`; properties C57, C59.
* Follows: `core/h2_suite.cpp:32-58`, `core/h2_case.cpp:9-35`, `core/h2_runner.cpp:152-208`, the macros of `core/h2_core.hpp:7-20`, `assert/h2_assert.*` (Warning prefix).
* Simplified: setjmp/longjmp are the jumps the macros intend; a longjmp to an unset hole is the outcome Stale.
* Left out: destructors skipped by longjmp.

### Matchers

* Files: `MatcherModel`, `MatcherSpec`, `MatcherSpec2`, `MatcherProofs`, `MatcherProofs2`, `MatcherProofs3`, `MatcherProofs4`, `P_Matcher`, `P_Told`, `MatcherSpec3`, `MatcherProofs5`; properties C29, C30, C31.
* Follows: `matcher/h2_matcher.hpp:24-72`, `h2_matches.hpp:1-13`, `h2_matches_logic.hpp`, `h2_matches_strcmp.hpp:41-57`, `h2_matches_container.hpp`.
* Simplified: a base matcher is an arbitrary predicate of the value and the two string flags.
* Left out: texts of failures; AvgOf (floating point).

### Failures

* Files: `FailModel`, `FailSpec`, `FailProofs`, `P_Fail`; properties C32, C33.
* Follows: `report/h2_failure.hpp:1-33`, `report/h2_failure.cpp:1-28`, `assert/h2_assert.cpp` (stash).
* Simplified: a failure is a label with its two links.
* Left out: the printing of each kind of failure.

### Memory comparison

* Files: `MemcmpModel`, `MemcmpSpec`, `MemcmpProofs`, `MemcmpProofs2`, `P_Memcmp`; properties C34, C35, C60.
* Follows: `matcher/h2_matches_memcmp.*`, `utils/h2_misc.cpp:61-86`.
* Simplified: a buffer is the list of readable bytes, None = not initialised; reading outside is the result None.
* Left out: texts of failures.

### JSON

* Files: `JsonModel`, `JsonSpec`, `JsonProofs`, `JsonProofs2`, `JsonProofs3`, `JsonProofs4`, `JsonProofs5`, `P_Json`; properties C36, C37, C38, C39.
* Follows: `json/h2_lexical.cpp`, `h2_syntax.cpp`, `h2_node.cpp`, `h2_tree.cpp`, `h2_match.cpp:2-46`, `h2_select.cpp`, `h2_json.cpp:30-34`.
* Simplified: numbers are abstract; the regular expression matcher is a parameter; recursion takes fuel.
* Left out: stack depth.

### JSON arithmetic

* Files: `ExprModel`, `ExprSpec`, `ExprProofs`, `ExprProofs2`, `P_Expr`, `ExprSpec2`, `ExprProofs3`; properties C41.
* Follows: `json/h2_tinyexpr.cpp`.
* Simplified: numbers are abstract (an algebra gives the value of a literal and of the functions).
* Left out: `double` arithmetic itself.

### JSON printing and diff

* Files: `PrintModel`, `PrintSpec`, `PrintProofs`, `DualProofs`, `DualProofs2`, `DualProofs3`, `P_Print`, `PrintSpec2`, `PrintProofs2`, `P_Best`; properties C40, C63.
* Follows: `json/h2_node.cpp:57-106`, `json/h2_dual.cpp`, `utils/h2_line.cpp:156-199`.
* Simplified: a line is a list of words; `std::to_string` is a parameter.
* Left out: -

### Strings

* Files: `StrModel`, `StrSpec`, `StrProofs`, `StrProofs2`, `P_Str`; properties C42, C43, C44.
* Follows: `utils/h2_string.cpp:17-25,89-124`.
* Simplified: a string is the list of its bytes; std::string functions are written out.
* Left out: -

### Lines

* Files: `LineModel`, `LineSpec`, `LineProofs`, `LineProofs2`, `P_Line`; properties C45, C61, C62.
* Follows: `utils/h2_string.cpp:1-7,27-35,75-87,144-153`, `utils/h2_line.cpp:1-20,38-45,95-132`, `report/h2_layout.cpp:2-49`.
* Simplified: a line is a list of words of bytes; reading beyond a word and impossible paddings are None.
* Left out: -

### Colours

* Files: `ColorModel`, `ColorSpec`, `ColorProofs`, `P_Color`; properties C51.
* Follows: `utils/h2_color.cpp`, `stdio/h2_console.cpp:38-42`.
* Simplified: the table of styles is a list of eight C strings; overlong style names are None.
* Left out: terminal behaviour.

### Options

* Files: `OptionModel`, `OptionSpec`, `OptionSpec2`, `OptionProofs`, `OptionProofs2`, `OptionProofs3`, `OptionProofs4`, `P_Option`; properties C46, C47.
* Follows: `utils/h2_misc.cpp:147-167`, `option/h2_option.*`.
* Simplified: settings are a function of their names; buffer overruns and atoi overflow are outcomes.
* Left out: texts of messages.

### Usage

* Files: `UsageModel`, `UsageSpec`, `UsageProofs`, `UsageProofs2`, `P_Usage`; properties C104.
* Follows: `usage` (`source/option/h2_option.cpp:1-42`) and its call (`185-186`), on the parser of the Option area.
* Simplified: the text is transcribed, with `~` for `\033` and `^` for `\n`; version, date and revision are parameters; printf of a text with a conversion is undefined.
* Left out: what the explanations say in words beyond letters, arguments, numbers and types.

### Name resolution

* Files: `DnsModel`, `DnsSpec`, `DnsProofs`, `P_Dns`; properties C48.
* Follows: `net/h2_dns.cpp`.
* Simplified: `inet_pton` is a parameter.
* Left out: sockaddr layouts.

### Sockets

* Files: `SockModel`, `SockSpec`, `SockProofs`, `SockProofs2`, `P_Sock`; properties C49.
* Follows: `net/h2_socket.*`.
* Simplified: addresses are texts; what the system says of a socket comes with the call.
* Left out: errno; sockets the system creates; `iport_parse` (see Addresses of packets).

### Captured output

* Files: `StdioModel`, `StdioSpec`, `StdioProofs`, `StdioProofs2`, `P_Stdio`; properties C50.
* Follows: `stdio/h2_stdio.cpp`.
* Simplified: the text made by a format comes with the call.
* Left out: the stubs that route the C library here.

### Numbers

* Files: `NumModel`, `NumSpec`, `NumProofs`, `P_Num`; properties C64, C65, C66.
* Follows: matcher/h2_matches_equation.hpp (numbers), matcher/h2_matches_inequation.hpp, matcher/h2_matcher_cast.hpp, assert/h2_assert.hpp (ok1, ok2), matcher/h2_matches_range.hpp, utils/h2_numberfy.hpp
* Simplified: Types are those of an LP64 system. A conversion to a narrower signed type wraps. Floating point values are exact rationals, so rounding is not modelled.
* Left out: The texts of the failures; NaN and infinities; pointers and enumerations; user defined types.

### Cond

* Files: `CondModel`, `CondSpec`, `CondProofs`, `CondProofs2`, `P_Cond`; properties C103.
* Follows: `h2_0cp`, `h2_1cp`, `h2_2cp` and `h2_ok1` (`source/assert/h2_assert.hpp:41-85`), the expressions of `H2OK_1` and `H2KO_1` (`88-89, 94-95`), on the integers of the Numbers area.
* Simplified: an operand is whatever binds tighter than binary operators, or is in parentheses; how C++ groups is a function, shown to follow the grammar; missing operators are errors; values of operators other than comparisons are those of any evaluation.
* Left out: assignment, ?:, <=>, comma; operators users define for h2_1cp or h2_2cp; floating point, pointers and class types as sides.

### Text matchers

* Files: `TextModel`, `TextSpec`, `TextProofs`, `P_Text`; properties C67.
* Follows: `utils/h2_string.cpp` 37-61, `matcher/h2_matches_strcmp.cpp`, `matcher/h2_matches_equation.hpp` 41-88.
* Simplified: a text is its bytes; the verdict only.
* Left out: Re (std::regex); the failure text.

### JUnit report

* Files: `JunitModel`, `XmlSpec`, `JunitSpec`, `JunitProofs`, `JunitProofs2`, `P_Junit`; properties C68.
* Follows: `report/h2_report_junit.cpp`; the calls of reports in `core/h2_runner.cpp:136-172`; flags of `core/h2_case.cpp:1-14`.
* Simplified: the file is the bytes written, opening it succeeds; times are whole milliseconds and "%.3f" is exact; names, places, times and numbers of failures of cases are given.
* Left out: errors of fopen and fprintf.

### Listing

* Files: `ListingModel`, `ListingSpec`, `ListingProofs`, `P_Listing`; properties C69.
* Follows: `report/h2_report_list.cpp`; `utils/h2_misc.cpp:8-15`; the calls of reports in `core/h2_runner.cpp:135-171`.
* Simplified: lines are their visible texts, colour words left out; counters are unbounded; whether a test is filtered is given (see Filters); rounds are given one after the other as one list of suites.
* Left out: writing to the terminal (Colours).

### Console report

* Files: `ConsoleModel`, `ConsoleSpec`, `ConsoleProofs`, `ConsoleProofs2`, `ConsoleProofs3`, `P_Console`; properties C70.
* Follows: `report/h2_report_console.cpp`; `stdio/h2_stdio.cpp:7-20`; the calls of reports in `core/h2_runner.cpp:135-171`.
* Simplified: only visible bytes (colours are C51); counters unbounded; test output comes only from bodies of cases; padding or shortening of a progress bar to the width of the terminal, ties in rounding of `%.1f`, explanations of failures and all statistics are given.
* Left out: wording of failures (`h2_failure.cpp`); the real width of a terminal (the one of the specification is unlimited).

### Memory dump

* Files: `DumpModel`, `DumpSpec`, `DumpProofs`, `DumpProofs2`, `DumpProofs3`, `DumpProofs4`, `P_Dump`; properties C71.
* Follows: `report/h2_failure.cpp:204-292`; `report/h2_layout.cpp:63-79`; `utils/h2_misc.cpp:97-104`; `utils/h2_string.cpp:133-142`.
* Simplified: a buffer is the list of its bytes; `%X` given a 64 bit number prints its lower 32 bits (undefined in C, so on x86-64); little endian; the ceiling taken in floating point is exact.
* Left out: the first line of the message.

### Detail of string comparisons

* Files: `StrdiffModel`, `StrdiffSpec`, `StrdiffProofs`, `P_Strdiff`; properties C72.
* Follows: `report/h2_failure.cpp:132-169`; `report/h2_layout.cpp:52-61, 81-103`.
* Simplified: strings without NUL; a console narrower than the title gives no output in the model (a length error in C++).
* Left out: the first line of the message; which comparisons use which of the two forms.

### Sides of a comparison

* Files: `SplitModel`, `SplitSpec`, `SplitProofs`, `P_Split`; properties C73.
* Follows: `assert/h2_assert.cpp:1-34, 55-68`; `utils/h2_misc.cpp:39-50`.
* Simplified: expressions shorter than 2^31; the part before the operator instead of a pointer to it.
* Left out: the preprocessor turning the expression into text.

### Line of a failed check

* Files: `MessageModel`, `MessageSpec`, `MessageProofs`, `MessageProofs2`, `P_Message`; properties C74.
* Follows: `report/h2_failure.cpp:16-20, 30-130`; `utils/h2_line.cpp:47-58, 67-93`; `utils/h2_line.hpp:41`; `utils/h2_string.cpp:63-73`; `utils/h2_misc.cpp:137-145`.
* Simplified: strings without NUL; the type of a failure is one of the six that exist; front and back of an empty string and a string of size_t(-1) bytes are an error value.
* Left out: turning operands into values (h2_stringify.hpp); the children of a failure, which are printed as failures of their own.

### Attributes of BLOCK

* Files: `BlockModel`, `BlockSpec`, `BlockProofs`, `BlockProofs2`, `P_Block`; properties C75.
* Follows: `memory/h2_block.cpp:1-29`; `memory/h2_memory.cpp:63-68`; `utils/h2_misc.cpp:39-84`.
* Simplified: strtod is a parameter that gives the integral part; strtoull of the C library with base 10; little endian.
* Left out: the preprocessor turning the attributes into text. What the attributes do is the subject of C11 to C16 and C52 to C54.

### Lookup of functions

* Files: `NmModel`, `NmSpec`, `NmProofs`, `NmProofs2`, `P_Nm`; properties C76.
* Follows: `symbol/h2_nm.cpp`, `symbol/h2_nm.hpp`, `symbol/h2_load.cpp`; `stub/h2_fp.hpp:81-95, 162-205`; `memory/h2_exempt.cpp:72-77`.
* Simplified: the branches for other than Windows; the output of nm is a text without NUL, read once; addresses are hexadecimal digits without sign or 0x; a character read before a symbol and an overrun of the buffer of the address are undefined.
* Left out: running nm, making an object of a class, the templates that choose how; follow_jmp applied to the exempted functions is the subject of C17.

### Reports of memory failures

* Files: `MemrepModel`, `MemrepSpec`, `MemrepProofs`, `MemrepProofs2`, `P_Memrep`; properties C77.
* Follows: `report/h2_failure.cpp:294-406`, `symbol/h2_backtrace.cpp:150-158`, `utils/h2_line.cpp:186-192`, `stdio/h2_console.cpp:21-45`.
* Simplified: a backtrace is the number of its frames and the texts print(stacks) makes of them; an argument for %+d is its lower 32 bits; the number of leaked pieces is below 2^64.
* Left out: which failures there are is the subject of C14 and C54; that and where a failure is printed is that of the report and its tree.

### Backtraces

* Files: `TraceModel`, `TraceSpec`, `TraceProofs`, `TraceProofs2`, `TraceProofs3`, `P_Trace`; properties C78.
* Follows: `symbol/h2_backtrace.cpp:1-148` (Linux branches), `symbol/h2_cxa.cpp:1-10, 39-56`, `memory/h2_exempt.cpp:79-82`, `utils/h2_misc.hpp:25`.
* Simplified: ::backtrace and backtrace_symbols are given (a frame is an address and a line); popen and __cxa_demangle are functions given; %llx is modelled for text that begins with a digit.
* Left out: the hint to add -g, printed once; the list of functions exempted by h2unit itself (h2_exempt::setup).

### Display of values

* Files: `ValueModel`, `ValueSpec`, `ValueProofs`, `ValueProofs2`, `P_Value`; properties C79.
* Follows: `utils/h2_stringify.hpp:1-179`.
* Simplified: a value says which specialisation serves it (the C++ compiler chooses); numbers with a fraction are exact rationals (no negative zero), std::to_string of them is printf("%f"); what tostring() and operator<< write is given.
* Left out: the branch for MSVC and Cygwin; which types are containers (h2_stl.hpp).

### Texts of expectations

* Files: `ExpectModel`, `ExpectSpec`, `ExpectProofs`, `ExpectProofs2`, `ExpectProofs3`, `ExpectProofs4`, `P_Expect`; properties C80.
* Follows: `expection` of every matcher in `source/matcher`, `C::pre` and `C::post` in `matcher/h2_matches.hpp:13-21`.
* Simplified: matchers carry what their texts are made of; the verdicts of simple tests (numbers, texts, patterns) are any function of the value and of whether case and blanks are ignored, those of the combinators are MatcherModel; margins, types, JSON, ranges and customised matchers have texts in the model but no reading in the theorems.
* Left out: `no_compare_operator` is modelled but every theorem is about its being off.

### Watching memory

* Files: `HookModel`, `HookSpec`, `HookProofs`, `HookProofs2`, `HookProofs3`, `P_Hook`; properties C81.
* Follows: `h2_memory::hook`, `initialize` and `stack::block` (`source/memory/h2_memory.cpp:18-73`), `h2_stack`, the leak part of `h2_block::check`, `h2_case` and `h2_suite::test` as far as they switch the watching or push and pop scopes, and the jump of a failed check.
* Simplified: pieces are identities (contents, limits, exempted functions and damage are MemModel, releases are of the right kind); user code is a list of statements without loops; a double release is a failed check, not a warning; a failed check in the clean-up code ends the model run as Broken; the scopes of suites are not popped between cases.
* Left out: which C functions are overridden on which platform.

### Clock

* Files: `ClockModel`, `ClockSpec`, `ClockProofs`, `P_Clock`; properties C102.
* Follows: the substitutes for calendar functions (`source/memory/h2_exempt.cpp:1-22`), their installation (`24-32, 45-49`, `source/memory/h2_memory.cpp:20`), on the stubs of the Stubs area.
* Simplified: buffers for struct tm are numbers with the eleven fields of glibc; text buffers are bytes in memory; the functions of the C library are where their addresses say, not behind a jump.
* Left out: the branches for Windows; the exempted functions of setup (Backtraces area).

### Catch

* Files: `CatchModel`, `CatchSpec`, `CatchProofs`, `P_Catch`; properties C82.
* Follows: `h2_exception` (`source/except/h2_exception.hpp:1-64`, `source/except/h2_exception.cpp:11-54`) and the jump of a failed check.
* Simplified: types and values of exceptions are numbers and a matcher is a function of the value (for std::exception of its text); a jump buffer is known by the number of the Catch that filled it; catch clauses of the user catch everything; user code has no loops and its return leaves the whole case; clean-up code is not in this model (CaseModel, HookModel).
* Left out: the exception object is never released (h2_exception.cpp:47); a matcher that throws.

### Macro

* Files: `MacroModel`, `MacroSpec`, `MacroSpec2`, `MacroSpec3`, `MacroSpec4`, `MacroSpec5`, `MacroProofs`, `MacroProofs2`, `MacroProofs3`, `MacroProofs4`, `MacroProofs5`, `MacroProofs6`, `MacroProofs7`, `MacroProofs8`, `MacroProofs9`, `MacroProofs10`, `MacroProofs11`, `MacroProofs12`, `MacroProofs13`, `MacroProofs14`, `MacroProofs15`, `MacroProofs16`, `MacroProofs17`, `MacroProofs18`, `MacroProofs19`, `MacroProofs20`, `MacroProofs21`, `MacroProofs22`, `MacroProofs23`, `MacroProofs24`, `MacroProofs25`, `MacroProofs26`, `MacroProofs27`, `P_Macro`, `P_Macro2`, `P_Macro3`, `P_Macro4`; properties C83, C98, C99, C100.
* Follows: the macros of `source/utils/h2_macro.hpp` with the tables of `h2_macro.in.hpp` (`3-145`, for compilers other than MSVC) and the list macros of `source/core/h2_core.hpp:39-125` and `source/utils/h2_misc.hpp:17-21` and the choice of `H2MATCHER` (`source/matcher/h2_matcher_customize.hpp:78-104`) and `H2Member` (`h2_matches_member.hpp:78-86`), and those for stubs (`source/stub/h2_stub.hpp:6-35`), mocks (`source/mock/h2_mock.hpp:5-22`), exceptions (`source/except/h2_exception.hpp:60-64`) DNS (`source/net/h2_dns.hpp:11`), assertions (`source/assert/h2_assert.hpp:87-103`, `source/matcher/h2_matches_equation.hpp:174-176`, `source/matcher/h2_matches_memcmp.hpp:50-52`) and parts of a case (`source/assert/h2_timer.hpp:9-10`, `source/memory/h2_memory.hpp:25-30`, `source/stdio/h2_stdio.hpp:9-10`, `source/net/h2_socket.hpp:56-57`) as text, token by token, together with a model of how a C preprocessor expands macros (C11 6.10.3: arguments expanded before substitution, `##`, rescanning, names painted blue). The theorems are about that expansion of the text as it is in the code.
* Simplified: tokens are names, numbers, parentheses, commas and other signs; white space is not kept; the operator `#x` of the macros for stubs, mocks, assertions and parts of a case is written `H2_SPELLED(x)`, with the argument expanded as others are, and `__COUNTER__`, `H2PP_UNIQUE()` and `H2_FILINE` are left as they are written; the macro called and the values are made of names that h2unit does not define, so nothing in them is expanded; a list is given to CASES in parentheses, as in the reference (document/reference.md:192-251); H2CASES itself, which only makes a unique name, is represented by __H2CASES1 and its like.
* Left out: the branch for MSVC; H2PP_STR, H2PP_UNIQUE, H2PP_DEBUG and the operator `#`; the declarations `H2MATCHER0` to `H2MATCHER5`; values with macros in them; empty values.

### Suite

* Files: `SuiteModel`, `SuiteSpec`, `SuiteProofs`, `SuiteProofs2`, `P_Suite`; properties C84.
* Follows: the control flow that `SUITE`, `Setup`, `Cleanup`, `Case`, `Todo`, `Cases` and `Casess` make out of the body of a suite (`source/core/h2_core.hpp:2-19`, `70-102`), the first call that registers the cases and the call for each test (`source/core/h2_suite.cpp:27-58`), with the jumps of `setjmp`/`longjmp`.
* Simplified: the text of a suite is a list of items; of a body only how it ends is followed (the Case area follows it); Setup, Cleanup and other code neither fail nor throw; lists are as `H2PP_FOREACH` and `H2PP_FULLMESH` hand them out (Macro area); assignment to a type is a parameter. The parameter that names the case is changed between setjmp and longjmp and is not volatile; the model takes it to be kept in memory, where C leaves its value open after the jump. A jump to a call that has returned is a separate outcome.
* Left out: a jump to Cleanup while an exception is passing (C57 has it); what the compiler makes of the variables declared between Setup and the cases.

### Paste

* Files: `PasteModel`, `PasteSpec`, `PasteProofs`, `PasteProofs2`, `P_Paste`; properties C85.
* Follows: `h2_json::dump` with its quotes, padding and backslashes (`source/json/h2_json.cpp:2-19`), `h2_lines::width` (`source/utils/h2_line.cpp:149-155`) and `h2_fail_json::print` (`source/report/h2_failure.cpp:175-199`); reading of a C string literal (splicing of lines, simple escapes) is specified on its own.
* Simplified: the first line of the failure, the two columns and the text shown for what is no JSON are parameters (Message, Print and Split areas); colours are left out; a text cut inside a character of UTF-8 gives no result. Octal and hexadecimal escapes of C never occur and are not read.
* Left out: `h2_json_tree::serialize` (`source/json/h2_tree.cpp:21-31`).

### Mockmsg

* Files: `MockmsgModel`, `MockmsgSpec`, `MockmsgProofs`, `MockmsgProofs2`, `P_Mockmsg`; properties C86.
* Follows: `h2_checkin::check`, `actual`, `expect` (`source/mock/h2_checkin.cpp:1-28`), `argument`, `signature`, `check`, `failing` of `h2_mocker_base` (`source/mock/h2_mocker.cpp:1-45`), the numbering in `tuple_matches` (`source/mock/h2_tuple.hpp:3-17`), the report of an unexpected call (`source/mock/h2_mocker.hpp:76-81`), `index_th` (`source/utils/h2_misc.cpp:87-97`) and the line of `h2_fail_normal`.
* Simplified: what a matcher itself says is a parameter (Message and Expect areas); counts are integers that fit an int; the static buffers of `index_th`, `actual` and `expect` are texts.
* Left out: counting of assertions (`h2_runner::asserts`); which expectation a call meets is the Mock area (C21).

### Mockcall

* Files: `MockcallModel`, `MockcallSpec`, `MockcallProofs`, `MockcallProofs2`, `P_Mockcall`; properties C101.
* Follows: `function_stub` of a mock and what it calls (`source/mock/h2_mocker.hpp:37-50, 106-121`), `h2_routine` (`source/mock/h2_routine.hpp`), the temporary restore (`source/stub/h2_temporary.cpp`), on the mocks of the Mocks area.
* Simplified: user code is a program of calls with values, exceptions and checks that leave the case; of the bytes at a function only whether they are the jump to the stub is kept (bytes: Stub area); longjmp runs no destructors (as compilers do it; undefined in C++); void results are values; recursion has fuel, exhausted or an empty routine called is None, and the theorems are about runs that end.
* Left out: user code that stubs, mocks or unmocks while a routine runs; two mocks of one function.

### Arm

* Files: `ArmModel`, `ArmSpec`, `ArmProofs`, `ArmProofs2`, `ArmExamples`, `P_Arm`; properties C87.
* Follows: `sign_extend`, `fetch_opcode` and `follow_jmp` for ARM64 (`source/symbol/h2_cxa.cpp:58-102`); the jump of a stub is `arm_set` of the Stub area (`source/stub/h2_e9.cpp`). The processor in the spec has five instructions (adrp, two forms of ldr, add immediate, br), after the ARM manual.
* Simplified: memory is a map from addresses to bytes; shifts of negative numbers are taken modulo 2^64; code does not lie at the end of the address space. Of the linker stubs, those whose offset into the table is below 16384 and whose adrp goes forward.
* Left out: instruction caches; x86-64 is the Stub area (C19).

### Packet

* Files: `PacketModel`, `PacketSpec`, `PacketProofs`, `PacketProofs2`, `P_Packet`; properties C88.
* Follows: `h2_sock::check` and the macro `Ptx` (`source/net/h2_socket.hpp:14-53, 59`), `h2_sock::fetch` and `failing` (`source/net/h2_socket.cpp:240-243, 280-284`). Taking the packet is `Fetch` of the Sock area, patterns are matched by the Glob area, `Me` is the Memcmp area, counting is the Fail area.
* Simplified: the matchers for payload and size are functions giving what they say; the payload is followed by one zero byte (that of the string that holds it), reading beyond is undefined. Data below 2^31 bytes (the size is an int).
* Left out: matchers other than texts for the addresses.

### Timer

* Files: `TimerModel`, `TimerSpec`, `TimerProofs`, `P_Timer`; properties C89.
* Follows: `h2_timer` and `PF` (`source/assert/h2_timer.cpp:1-16`, `source/assert/h2_timer.hpp:1-10`), `h2_once` (`source/utils/h2_misc.hpp:3-6`).
* Simplified: clock() is a parameter, in microseconds and not wrapping; doubles are rationals with a rounding function that is monotone and exact on 53-bit numbers.
* Left out: MSVC, where a clock tick is a millisecond.

### Whole

* Files: `WholeModel`, `WholeSpec`, `WholeProofs`, `WholeProofs2`, `P_Whole`; properties C90.
* Follows: `h2_runner::main` and `enumerate` (`source/core/h2_runner.cpp:46-61, 117-178`), the registration of global hooks (`source/core/h2_runner.hpp:29-45`), `h2_array_append` (`source/utils/h2_misc.hpp:25`), `h2_report` (`source/report/h2_report.cpp:1-20`, `h2_report.hpp:5-33`), as a list of what happens in order. Which cases are executed is decided by `visit_case` of the Runner area.
* Simplified: hooks, reports and bodies are numbers and return normally; the order of suites and cases in each round is a parameter (see Order).
* Left out: the progress dots while collecting; the last_order file (Order area); initialisation of other modules.

### Helper

* Files: `HelperModel`, `HelperSpec`, `HelperProofs`, `P_Helper`; properties C91.
* Follows: the five matchers and `File` of `source/matcher/h2_matcher_aux.hpp:1-19`, `matches` of a customised matcher (`source/matcher/h2_matcher_customize.hpp:1-13`); integer types and conversions are those of the Num area.
* Simplified: floating point values are rationals, infinities and NaN; what the system says of a file (place of its end, bytes to read) is a parameter.
* Left out: texts of failures (Expect area), files that change while they are read.

### Named

* Files: `NamedModel`, `NamedSpec`, `NamedProofs`, `P_Named`; properties C92.
* Follows: operators of `h2_polymorphic_matcher` returning `*this` (`source/matcher/h2_matcher.hpp:22-59`), the functions and operators that copy their operands (`source/matcher/h2_matches_logic.hpp:211-239`), `h2_ok2` (`source/assert/h2_assert.hpp:27-39`); matching is that of the Matcher area.
* Simplified: left to right or right to left are the only orders of evaluation; plain values as operands are temporaries.
* Left out: references declared by the user (auto& y = !x), const variables (their operators do not compile), matchers converted to h2_matcher<T> by hand.

### Cout

* Files: `CoutModel`, `CoutSpec`, `CoutProofs`, `P_Cout`; properties C93.
* Follows: `h2_cout` (`source/stdio/h2_stdio.hpp:1-10`, `source/stdio/h2_stdio.cpp:151-168`), `h2_runner::failing` and `asserts` (`source/core/h2_runner.cpp:203-215`), `h2_case::failing` (`source/core/h2_case.cpp:27-36`); writing and capturing are those of the Stdio area.
* Simplified: a matcher is what it says of a text; an assertion is its verdict; the jump out of a test passes destructors by.
* Left out: WARN, break and return inside a block, exceptions.

### Similar

* Files: `SimilarModel`, `SimilarSpec`, `SimilarProofs`, `SimilarProofs2`, `P_Similar`; properties C94.
* Follows: `array_similarity`, `object_similarity`, `similarity` and `search` (`source/json/h2_match.cpp:47-95`); the dual is that of the Print area (`source/json/h2_dual.cpp`) with this similarity.
* Simplified: scores are exact rationals instead of double (two scores closer than the rounding may be ordered otherwise by the code).
* Left out: nothing else of those functions.

### Je

* Files: `JeModel`, `JeSpec`, `JeProofs`, `P_Je`; properties C95.
* Follows: `h2_matches_json::matches` (`source/matcher/h2_matches_json.cpp:1-9`), `h2_json::select` (`source/json/h2_json.cpp:21-28`), `OK`/`KO`/`JE` with such a matcher (`source/assert/h2_assert.hpp`).
* Simplified: failures carry no text but whether they say illformed; the matcher is applied to one actual text (C strings as bytes before NUL).
* Left out: h2_fail::json contents (see Print and Fail areas), the expectation text.

### Addresses of packets

* Files: `IportModel`, `IportSpec`, `IportProofs`, `IportProofs2`, `IportProofs3`, `IportProofs4`, `P_Iport`; properties C96.
* Follows: `iport_parse`, `iport_tostring`, `getsockname`, and `accept`, `connect`, `sendto`, `recvfrom`, `sendmsg`, `recvmsg` with their sockaddr arguments (`source/net/h2_socket.cpp:41-60, 72-79, 98-173`) over the queues of SockModel.
* Simplified: a sockaddr_in is its family, its port as the 16 bit number in memory of a little endian machine, and its address or nothing if never written; `atoi` reads digits only, beyond int it is undefined; `strcpy` beyond `temp` is an outcome of its own; `inet_pton`, `inet_ntop` are parameters.
* Left out: `address_len`; several buffers of a msghdr (only the first is used by the code); `temporary_noblock` and `set_block` (not used).

### Matchers that go on to another value

* Files: `ProjModel`, `ProjSpec`, `ProjProofs`, `P_Proj`; properties C97.
* Follows: `h2_pointee_matches` (`source/matcher/h2_matches_pointee.hpp:1-18`), `h2_member_data_matches` and `h2_member_method_matches` (`h2_matches_member.hpp:1-59`), `h2_castof_matches` (`h2_matches_cast.hpp:1-17`), `h2_pointer_if` (`source/utils/h2_template.hpp:51-56`), with the combinators of `h2_matches_logic.hpp` and the containers of `h2_matches_container.hpp:96-172`; contexts and operators are those of MatcherModel.
* Simplified: values are plain, pointers (null or not), objects or sequences; base matchers, members, methods and conversions are arbitrary pure functions; a read through a null pointer is an outcome of its own; failures carry no text.
* Left out: choice among overloads (done by the compiler); the macro `H2Member`; weak pointers; texts of failures.

## 4. What is not modelled at all

* `core/h2_core.hpp` beyond the control flow of SUITE/Setup/Cleanup/Case/Cases and the macros that declare parametrised cases.
* `symbol/` except x86-64 and ARM64 jump following, symbol tables (`h2_nm`), load address (`h2_load`) and the Linux branches of backtraces; `h2_cxa` beyond demangling for them.
* `report/`: of `h2_failure.cpp` the failure tree, the line of a failed check, the memory dump, the detail of string and JSON comparisons and the memory failures are modelled.
* `except/h2_debug.cpp`, the handler of segmentation faults (`h2_crash.cpp`) beyond what a violation records.
* `memory/platform` and which functions the overrides replace (that they are installed and removed is C81), `h2_exempt.cpp` except adding by name and by pointer (in the memory model the exemption is a predicate).
* the templates of `stub/h2_fp.hpp` that make objects, `mock/h2_routine.hpp`, and other template plumbing whose work is done by the C++ compiler (overload resolution, decay, which `h2_stringify_impl` serves a type).
* Threads.  h2unit keeps its state in unprotected singletons; every model is sequential.
* Windows and macOS branches, except the built-in wildcard matcher (C04), which is compiled only there.
* Floating point: where it matters (C02, C64 ff.) exact rationals stand for `double`, as said at the area.

## 5. Findings: statements that are false of the code

Every `_refuted` theorem exhibits a concrete input.  They are part of the claims because they delimit them.  Section 6 lists
them with the other theorems of their property.


## 6. Properties and theorems

All theorems print `Closed under the global context`.

| property | title | file | theorems |
|---|---|---|---|
| C01 | Edit distance is the true minimum | P_Diff.v | edit_distance_minimal, edit_distance_zero, edit_distance_symmetric, edit_distance_triangle |
| C02 | Similarity score is at most 1 and equals 1 exactly on a match | P_Diff.v | similarity_at_most_one, similarity_one_iff_equal, similarity_at_least_minus_one, similarity_value, similarity_nonnegative_refuted |
| C03 | String diff highlights a longest common subsequence | P_Diff.v | diff_marks_longest_common_subsequence |
| C04 | Wildcard patterns mean glob | P_Glob.v | wildcard_is_glob |
| C05 | Intrusive list operations behave as sequence operations | P_List.v | push, push_back, add_before, add_after, out, pop, pop_back, traverse, empty, ends, pop_entry, remove_while_iterating |
| C06 | List sorting is a stable sort | P_List.v | sort_is_stable_sort, sort_permutes_for_any_comparator |
| C07 | Private allocator never hands out overlapping memory | P_Libc.v | no_overlap, inside_mapped_memory, allocation_size_and_alignment, user_bytes_exclusive, huge_request_refuted |
| C08 | Private allocator conserves memory | P_Libc.v | bytes_conserved, every_byte_accounted, free_returns_bytes, all_freed |
| C09 | Private allocator succeeds when the system can provide memory | P_Libc.v | null_exactly_in_window, succeeds_outside_window, always_succeeds_refuted |
| C10 | Shared ownership destroys exactly once | P_SharedPtr.v | destroyed_exactly_once, only_adopted_destroyed, bool_conversion |
| C11 | Checked allocation placement | P_Piece.v | placement, power_of_two_alignment, large_alignment_refuted, odd_alignment_refuted |
| C12 | Overflow and underflow writes are detected | P_Piece.v | report_iff_slack_modified, report_is_first_modified_byte, no_false_alarm, same_value_write_refuted |
| C13 | Every double free and every mismatched release is reported, and nothing else | P_Mem.v | release_report, unknown_pointer, known |
| C14 | Leak report is exact | P_Mem.v | leak_report, violations_first |
| C15 | Memory limit is enforced | P_Mem.v | limit_never_exceeded, refused_iff_exceeding, after_double_free_refuted, huge_request_refuted |
| C16 | Reallocation preserves contents | P_Mem.v | realloc, failed_realloc_refuted |
| C17 | Jump patch reaches the substitute | P_Stub.v | jump, frame, undo, arm_jump |
| C18 | Stubs are fully undone | P_Stub.v | unstubbed_original, all_removed, adjacent_short_functions_refuted |
| C19 | The newest stub wins and inner scopes restore outer ones | P_Stub.v | newest_in_force, which_function, takes_effect, alias_refuted, unnested_refuted |
| C20 | Mock expectation verdict is exact | P_Mock.v | verdict, case_verdict, reversed_range_refuted |
| C21 | Mock calls are charged to expectations in declared order | P_Mock.v | charged, left_behind, unexpected, mismatch, overcall, mode, greedy, lazy, not_skipped, dispatch |
| C22 | Every case is accounted for exactly once per round | P_Runner.v | every_case_once, counts, total, suite_reports |
| C23 | Early stop after n failures | P_Runner.v | early_stop |
| C24 | Exit status tells success | P_Runner.v | exit_status, 256_refuted, default_refuted |
| C25 | Include and exclude filters | P_Filter.v | cases, suite, hidden_refuted |
| C26 | Shuffling never loses or duplicates a test | P_Order.v | rearranged, defined, by_key, reverse, random |
| C27 | Last failing order is replayed | P_Order.v | next_run, next_round, file, only_last_failed, long_name_refuted |
| C28 | Stubs and mocks made in a case do not survive it | P_Scope.v | gone, gone_end, body, global, global_end, first_suite, first_suite_gone, unstub, suite_setup_refuted, case_cleanup_refuted |
| C29 | Matcher algebra is boolean | P_Matcher.v | truth, not, context, demorgan_and, demorgan_or, exclamations |
| C30 | Container matchers quantify correctly | P_Matcher.v | verdict, top, first, between, template, has_on_map, has_key, has_value, has_entry, limit_refuted, nested_times_refuted, not_a_pair_refuted, listof_length_refuted, countof_range_refuted, pointer_range_refuted |
| C31 | MedianOf computes the median | P_Matcher.v | odd, none, even_refuted |
| C32 | OK and KO are complementary | P_Fail.v | complement, ok, one, count, keeps |
| C33 | Failure reports visit every failure once | P_Fail.v, P_Told.v | preorder, once, sibling, sibling_order, child, release, second_child_refuted, allof, noneof, listof, anyof, and, or, pair, every |
| C34 | Memory comparison on explicit widths | P_Memcmp.v | buffer, literal, bytes, no_size_refuted, overflow_refuted, text_read_refuted |
| C35 | Hex string literals are decoded completely | P_Memcmp.v | decode, literal, prefix_blank_refuted, prefix_refuted |
| C36 | JSON text round trip | P_Json.v | parses, every_value, unambiguous, numbers, call_refuted, unclosed, doubled, trailing_comma_refuted, stray_refuted |
| C37 | JSON parser terminates without crashing | P_Json.v | ends, throws, throws_refuted |
| C38 | JSON comparison semantics | P_Json.v | match, texts, refused, actual_order, expect_order, self, extra, absent, duplicates_refuted |
| C39 | JSON selector | P_Json.v | text, found, missing, null, null_refuted, bracket_refuted |
| C40 | JSON diff shows every element once and keeps both sides aligned | P_Best.v, P_Print.v | similar, left, right, pairs, rows, run, shown, short, one_line, colours, alone, fold_refuted, order_refuted, caseless_refuted |
| C41 | Arithmetic in JSON is evaluated with normal precedence | P_Expr.v | value, unambiguous, expressible, accepted, terminates, minus_power_refuted, power_left_refuted, factorial, arrangements, factorial_refuted, arrangements_refuted |
| C42 | String unescaping inverts escaping | P_Str.v | unescape, backslash_refuted |
| C43 | Replace-all terminates and replaces every occurrence left to right | P_Str.v | replaced, unique, empty_refuted |
| C44 | Whitespace squashing is canonical | P_Str.v | squashed, solid, fixed, idempotent, nul_refuted |
| C45 | Wrapped text keeps content and width | P_Line.v | break, width, wide_refuted, truncated_refuted |
| C46 | Abbreviated option values resolve uniquely | P_Option.v | found, error, fits, equal_refuted, long_refuted |
| C47 | Command line parsing is compositional | P_Option.v | terminates, append, ignored, written, defaults, double_free_refuted, long_refuted, cluster_refuted, initial, help, unknown, refused |
| C48 | Hijacked name resolution | P_Dns.v | getaddrinfo, gethostbyname, one_name, overrun_refuted, unterminated_refuted, one_letter_refuted |
| C49 | Hijacked sockets deliver in order | P_Sock.v | sent, conserved, selected, order, first, accept, reply, attributes, unnamed, short_buffer_refuted, accept_order_refuted, stale_peer_refuted, nonblocking_refuted, blocking_refuted |
| C50 | Output capture is exact | P_Stdio.v | captured, determined, ended, counted, shown, parted, quiet, verbosity, returned, nul_refuted, nested_refuted, fwrite_refuted, fputc_refuted, syslog_refuted, empty_refuted |
| C51 | Colour markup never leaks into the text | P_Color.v | plain, written, same_text, nested, brushed, reset, same_style_refuted, overlap_refuted, ninth_refuted, prefix_refuted, unknown_refuted, long_refuted |
| C52 | Footprint is the peak of live memory | P_Mem.v | footprint_is_peak |
| C53 | Contents of fresh memory | P_Mem.v | contents, calloc, calloc_overflow_refuted |
| C54 | Use after free and guard page writes are reported | P_Mem.v | use_after_free, guard_write, first_offence, guard_read_refuted |
| C55 | Mock routines run with the original function in place | P_Stub.v | temporary_restore, stub_during_call_refuted |
| C56 | Mock declaration chains keep expectations apart | P_Mock.v | grouped, leading, arguments |
| C58 | Names and tags of a test | P_Filter.v | describe, long_refuted |
| C57 | A case fails exactly when a real failure was raised in it | P_Case.v | verdict, warning, course, exception, exception_in_cleanup, report, global_setup_refuted, exception_cleanup_refuted, cleanup_fails_refuted, setup_fails_refuted |
| C59 | The Warning prefix concerns the next assertion only | P_Case.v | warning_prefix, throw_refuted, leftover |
| C60 | Binary and plain text literals in memory comparison | P_Memcmp.v | binary, text, newline_refuted |
| C61 | Side by side rows stay aligned and complete | P_Line.v | rows |
| C62 | Abbreviated text keeps beginning and end | P_Line.v | fits, shortened, width, wide_refuted |
| C63 | Printed JSON is the value printed | P_Print.v | printed, select, quote_refuted, empty_key_refuted |
| C64 | Assertions on integers compare the integers | P_Num.v | operators, mixed, eq_exact, ok2, ok2_fits, bool, wrap_refuted, narrow_refuted, neither_refuted, mixed_refuted |
| C65 | Floating point equality honours its tolerance | P_Num.v | default, absolute, percent, large_refuted, percent_refuted |
| C66 | Range matches the members of an arithmetic progression | P_Num.v | range, no_end, empty, sentinel_refuted |
| C67 | Text matchers mean equality, containment, beginning and end | P_Text.v | equal, eq, substr, starts, ends, wildcard, squash_equal, squash_eq, squash_find, words, squash_pattern, squash_pattern_refuted, pointers, pointer_string, null_expected, null_string, null_actual, null_refuted |
| C68 | The JUnit report says what became of the cases | P_Junit.v | reads, run, quote_refuted, zeros, numbers_refuted, stale_refuted, todo_refuted |
| C69 | The listing shows exactly the tests that would run, with correct totals | P_Listing.v | rows, number, each, listing, rounds_refuted, tags_refuted |
| C70 | The console shows the outcome of every case and sums up correctly | P_Console.v | screen, run, last, quiet, todo_refuted, verbosity_refuted, rounds_refuted, units_refuted |
| C71 | The dump of a failed memory comparison shows the compared data and marks what differs | P_Dump.v | numbers, bits, numbers_unbroken, bits_unbroken, colours, wide_colours, bit_colours, distinct, uint64_refuted, widths_refuted |
| C72 | A failed string comparison shows both texts and colours exactly what they do not share | P_Strdiff.v | compare, find, space_refuted, escape_refuted |
| C73 | A failed comparison is reported with the two sides that were compared | P_Split.v | two, two_none, two_arguments, greater, less, one_none, template, arrow_refuted, shift_refuted, quote_refuted |
| C74 | The line of a failed check shows what was checked, what was expected and what it was | P_Message.v | two, one, json, inner, normal, empty_refuted, json_refuted |
| C75 | The attributes of a BLOCK mean what is written | P_Block.v | written, values, flags, word_refuted, expression_refuted, overrun_refuted |
| C76 | A function is looked up by its name | P_Nm.v | symbols, underscore, exact, scoped, ambiguous, nameless, exempt_exact, exempt_scoped, pointer, address, object, method, abstract, no_vtable, anonymous_refuted, same_refuted, long_refuted, overrun_refuted, typeinfo_refuted |
| C77 | Reports of memory failures show what happened to which memory | P_Memrep.v | leak, double_free, asymmetric, overflow, use_after_free, exception, symbol, far_refuted |
| C78 | Backtraces name the functions a program is in | P_Trace.v | line, one, parenthesis_refuted, in, exempt, many_refuted, equal, texts, path_refuted, readable_refuted |
| C79 | Values are shown in reports so that different ones look different | P_Value.v | shown, distinct, nul_refuted, long_refuted, small_refuted |
| C80 | The text of an expectation says what the matcher tests | P_Expect.v | says, one_reading, same, elements, list, keyed, two, custom, range, near, bare, plain_refuted, case_refuted, pair_refuted, stars_refuted |
| C81 | Memory is watched outside UNMEM and charged to the innermost block | P_Hook.v | watched, begins, all, leaks, ends, installed, off, help_refuted, nested_refuted, left_refuted, cleanup_refuted |
| C82 | Catch judges what its body throws | P_Catch.v | ideal, defined, verdict, left_refuted, return_refuted, try_refuted, nested_refuted |
| C83 | The macros on lists work for each value | P_Macro.v | foreach, foreach_many, limit_refuted, fullmesh, square, repeat, cases, casess, casess_square, each, each_pair, count, empty, head, tail, last, an, xan, yan, parentheses, bare_refuted |
| C84 | The cases of a suite run once for each value | P_Suite.v | registered, tests, each_once, cleanup, endless, cases_cleanup_refuted, cleanup_behind_refuted, types_refuted |
| C85 | JSON shown for pasting is a string literal of the value | P_Paste.v | literal, straight, defined, failure, short, columns, malformed, double_refuted, backslash_refuted, default_refuted |
| C86 | What a mock reports says which expectation was broken and how | P_Mockmsg.v | check, argument, nested_refuted, unexpected, ordinal, ordinal_refuted |
| C87 | On ARM64 a jump stub is followed to where the processor goes | P_Arm.v | follow, on_the_way, processor, patch, page_before_refuted, near_before_refuted, register_refuted |
| C88 | Ptx judges the oldest packet sent, part by part | P_Packet.v | oldest, passes, size, parts, missing, counted, me, short_refuted, longer_refuted |
| C89 | PF fails exactly when more processor time was used than allowed | P_Timer.v | verdict, once, strict_refuted, shown_refuted |
| C90 | The course of a run: global hooks and reports are called at the right moments | P_Whole.v | run, told, others, bodies, around, suites, opened, global, counts, reports_refuted, list_refuted, reverse_refuted, many_refuted |
| C91 | The helpers IsEven, IsOdd, IsDivable, IsInteger, IsNaN and File say what their names say | P_Helper.v | even, odd, divable, undefined, mixed_refuted, mixed_passes_refuted, integer, nan, infinite_refuted, file, missing_refuted, special_refuted |
| C92 | Matchers kept in variables: what is written is what is checked as long as no operator is applied to a variable | P_Named.v | calm, unchanged, history, copy, twice, loop, independent_refuted, contradiction_refuted, declared_refuted, order_refuted |
| C93 | COUT fails exactly when its matcher rejects what its block said | P_Cout.v | all, first, determined, nested, nested_refuted, left_refuted |
| C94 | A JSON diff puts a member without a namesake beside the most alike one left | P_Similar.v | leaf, kinds, itself, search, search_none, rows, unique, unrelated, renamed, numbers_refuted, greedy_refuted, range_refuted |
| C95 | Je judges the selected part of a document, and never accepts an ill-formed one | P_Je.v | whole, part, missing, null, doubled, doubled_expectation, unclosed, asserted, assertion, ko_refuted, quote_refuted, empty_refuted |
| C96 | Addresses of injected and sent packets are those of the sockaddr | P_Iport.v | parsed, without_port, shown, round_trip, received, accepted, sent, answered, replied, pattern_sender, connected, served, waits, null_refuted, name_refuted |
| C97 | Pointee, Member and CastOf judge what they lead to | P_Proj.v | verdict, crash, operators, ranges, pointee_range_refuted, guard_refuted |
| C98 | MATCHER and Member take their arguments apart | P_Macro2.v | matcher, message, six_refuted, member, method, braced |
| C99 | STUB, UNSTUB, MOCK, Catch and DNS take their arguments apart | P_Macro3.v | stub, stub_source, unstub, unstub_source, unstubs, stubs, stubs_result_refuted, mock, mocks, catch, dns |
| C100 | OK, KO, JE, Eq, Me, UNMEM, BLOCK, COUT, PF and SOCK take their arguments apart | P_Macro4.v | condition, compare, comma_refuted, json, eq, me, unmem, block, cout, parts |
| C101 | A mocked function does what was declared, and is counted when called from outside | P_Mockcall.v | counted, does, inside, in_force, off, goes_on, steady, recursion_refuted, cleanup_refuted |
| C102 | While memory is checked, the calendar stands still | P_Clock.v | calendar, date, mktime, mktime_refuted, text, text_refuted, text_r, installed, without |
| C103 | OK of a condition judges the condition that is written | P_Cond.v | one_meaning, as_written, compiles, comparison, verdict, true_refuted, false_refuted, unequal_refuted |
| C104 | What -h prints agrees with what the command line does | P_Usage.v | prints, aligned, letters, once, arguments, given, verbose, lists, quotes, fields, warnings, double_free_refuted, alphabet_refuted, fold_refuted |
