# Formal model of cargo-call-stack: design

The model is written in Coq 8.16.1 (`/verif/rocq/theories`, logical name `Verif`), with the standard library only.
Everything modelled is an executable Gallina function; every definition cites the lines of `/repo` it models.
The `.v` files come in five kinds:

* `M_*.v`  model of the code: definitions only;
* `S_*.v`  vocabulary of the statements: call chains, recursion groups, ARM instruction encodings, printers of LLVM
  syntax, the specified call graph, executions of a program. They share the data types of the model, printers such as
  `show_sig`, the decoder's result `analyze` (specified in `S_thumb`) and `find_tag` (Rust's binary search), and nothing else;
* `L_*.v`  lemmas and proofs;
* `X_*.v`  worked examples (inputs that meet the hypotheses of the theorems) and counterexamples;
* `P_*.v`  the property theorems, each closed by `exact lemma.`, followed by `Print Assumptions` and an example that meets
  its hypotheses.

A theorem called `..._partial` proves the property under an extra hypothesis that the comment above it explains; the theorem
`..._refuted` beside it proves that the hypothesis is needed because the code does not have the property without it.
`/verif/MANIFEST.json` lists the theorems of each property of `/verif/properties.jsonl`.

## Trusted base

* Coq's kernel (type checker, conversion, the virtual machine used by `vm_compute`; `coqchk` repeats the check without it).
* `Print Assumptions` answers "Closed under the global context" for every theorem in every `P_*.v` file: no axiom is used,
  neither ours nor the library's. `coqchk -o` additionally lists the seven declarations `Coq.ssr.ssrunder.Under_rel.*`,
  which the standard library itself contains and which no theorem uses.
* The transcription of the Rust code into `M_*.v`, of petgraph 0.6.3 into `M_graph.v` and of nom 7.1.3 into `M_nom.v`. The
  last two are not in `/repo` and were written down from knowledge of these versions. Both are specified and proved
  separately (depth first searches, topological sort, Kosaraju's algorithm; combinators), so that a mistake that matters would
  have to be a wrong transcription.
* The `S_*.v` files: a theorem says what it says in the terms defined there.

## Conventions

* Rust `&str`, `String`, `&[u8]` are `str := list ascii` (bytes). Where Rust slices on character boundaries the test
  for the boundary is modelled. `char::is_alphanumeric` is modelled for ASCII only: a byte of a multi-byte character is not
  alphanumeric, so an unquoted LLVM identifier with other letters is cut there (LLVM quotes such names).
* The iteration order of `HashMap` and `HashSet` is not fixed by Rust: the model takes it as an explicit argument
  (`w_defines_order`, `orders`), theorems quantify over it.
* `panic!`, `expect`, failed `assert!`, index out of range are the value `Panic`; `anyhow` errors are `Fail`. Loops whose
  termination is not structural have a step budget; running out of it is the value `Fuel`, and theorems show that it does
  not occur.
* Integers are unbounded (`nat`, `N`, `Z`), except where the width matters: additions of stack usage wrap modulo
  2^64 and `i32` arithmetic of the decoder wraps, as in a release build; `debug_assert!` is compiled out.
  `M_debug` is the model of a debug build, which panics where the release build wraps (C88).
* `rustc_demangle::demangle` is an argument of the model; theorems hold for every function in its place.

## What is modelled

| file | code |
|------|------|
| `M_stack` | `Local`, `Max` and their arithmetic, main.rs 1388-1486 |
| `M_graph` | petgraph: `DiGraph`, `neighbors`, `Dfs`, `DfsPostOrder`, `Topo`, `depth_first_search`, `kosaraju_scc`, `is_cyclic_directed` |
| `M_analysis` | the two passes that compute maxima, main.rs 1135-1215 |
| `M_filter` | `--start`, main.rs 1067-1133 |
| `M_names` | `dehash`, table of short names, shortening, outlined functions, symbol versions |
| `M_render` | `dot`, `top`, `Escaper`, `Display`, main.rs 1236-1386 |
| `M_thumb` | all of thumb.rs except its unit tests |
| `M_nom`, `M_ty`, `M_parse` | nom; all of ir.rs, ir/ty.rs, ir/item.rs, ir/define.rs except unit tests |
| `M_build` | construction of the call graph, main.rs 337-1065 |
| `M_debug` | thumb.rs, `Local`, `Max`, the passes and the parts of `run` that calculate, with Rust's arithmetic checks and `debug_assert!` |
| `M_write` | the same output with the errors of stdout |
| `M_log` | the log: every `warn!` and `error!` of `run`, by the functions of `M_build`, `M_filter` and `M_run` again with their messages; erasing the messages gives these functions (`report_erase`) |
| `M_run` | filter, analysis, shortening and output in sequence, main.rs 1067-1233 |
| `M_wrapper` | all of wrapper.rs |
| `M_driver` | `main` and the rest of `run`: main.rs 84-335, 353-418 |
| `M_cli` | the options, main.rs 42-82, 130, and what clap's derive makes of them; the process from its command line (`launch`) |

Simplifications:

* `M_graph`: node and edge indices are `nat`; the `u32` index type would overflow at 2^32 nodes. Edges keep their
  insertion order; `neighbors` lists the newest first, as petgraph's linked lists do.
* `M_thumb`: the half-word index is an `i32` in the code and unbounded here up to the wrap of the branch offset, so functions are
  assumed shorter than 2^31 bytes (`function_ok`). `binary_search` is that of Rust 1.66 to 1.80; the tags at one
  address differ between versions only if an address has two tags. The patterns are kept as the literals of the source
  and interpreted by the model of `matches`.
* `M_nom`: errors keep their position, not their kind; `Incomplete` does not occur with the `complete` parsers.
* `M_build`: log messages are left out here and added in `M_log`. `default_methods` (main.rs 434-454) is computed, because `dehash` could panic, and never used, as in the code.
* `M_driver`: the environment is the record `world` (environment variables, project, child processes, file
  system, ELF/`ar` parsers) of arbitrary answers. The symbol table of the ELF file
  is looked at where the code does (`read_symtab`); `load` is the program when everything can be read. The exit status of `rustc --print=cfg`
  is ignored, as in the code. Paths are modelled without trailing or repeated slashes and `.` components. The times of files are compared, not tracked: that the touched file is rebuilt is cargo's business.
* `M_cli`: clap is modelled by its documented behaviour for the attributes used here; it checks the value of an option at the next argument, the model at once, with the
  same verdict. clap reads the arguments of the process, the other theorems about runs start from the options (`main`).
* `M_write`: stdout is the locked handle, which accepts bytes up to an arbitrary first error; line buffering below it is
  not modelled.

Not modelled: the texts that clap prints, the formatting and filtering of log messages by `env_logger` (with its default filter all messages of the tool are shown), the crates `stack_sizes`, `xmas_elf`,
`ar`, `cargo_project`, `rustc_version`, `rustc_demangle`, errors when writing to stderr, exhaustion of memory or of the native stack.

## How the properties are proved

| ids | method |
|-----|--------|
| C01-C11 | invariants of the traversals give "the order lists callees first" and "the groups are the strongly connected components"; one functional characterisation of the maxima (`L_charge`); the rest are corollaries |
| C12-C14 | correctness of the search, invariant of the index map |
| C15-C18 | an independent reader of dot files (`S_render`) recovers the graph; the sort is a stable permutation |
| C19-C22, C53, C54 | lemmas on strings and association lists |
| C23-C29 | exhaustive sweeps over 2^16 half words lifted with `forallb_forall`, lemmas on bits, an invariant of the loop over arbitrary instruction sequences interleaved with literal pools |
| C30-C36, C55 | `S_ir` prints every type, statement, definition and module with all optional parts; the parser inverts the printer; conversely everything accepted has the stated form |
| C37-C45, C56, C57, C59 | `S_build` says which nodes and edges the graph of a program must have; the loops build exactly that graph for all orders (`L_build8`); `S_calls` counts the edges, for the statements in the order they are read, and each loop is shown to add its share (`L_calls1`-`L_calls4`) |
| C40, C41 | `S_exact` says in terms of the program what a function leads to (`arrow`) and when that is accounted for; `C40_calls_through_pointers_exact` and `C41_exact_maxima_of_a_program` are equivalences, without the restrictions of the partial theorems |
| C58, C61 | `S_run` defines executions (stacks of active functions) from the IR and the machine code; `C01` over the graph of `C38` bounds those made of calls of the noticed kinds (`noticed`), in any program; a function without overlooked calls (`covered_fn`) makes no others; code that is not read can call anything, and functions can be called through pointers by any type that one of their names has (`P_types`: both are overlooked, and so are memory intrinsics in thumb programs without `.text` and calls by inline assembly; each refutation shows a program in which nothing else is overlooked); calls that LLVM makes for other instructions or intrinsics (a division of wide integers, say) are executions only where the machine code is read; `C61` from the text on stdout. The only condition on sizes is that the printed sum of the function is below 2^64 (`below_2_64`, readable off the printed graph); `C58_small_usages_fit` derives it from the program, `C58_sums_that_wrap_refuted` shows it is needed, and the debug build does not need it |
| C62-C65 | `S_machine` defines executions instruction by instruction; the decoder theorems (C23-C26) say which branches and allocations the analysis saw, an invariant on reachable offsets bounds each frame, C58 bounds the stack of frames; what is asked of the program is asked only of the functions that are running (`trusted`); C65 from the text on stdout |
| C66, C67 | `S_run.pictures` says what nodes and edges have to show of the program (each edge as often as the statements and the machine code say), `figures` that the maxima follow from them; from C37-C42 through start point, maxima and shortening of names to the text on stdout |
| C68, C69 | `S_build.understood` lists what a program must satisfy; each loop of the construction succeeds exactly under it (`L_build9`); `L_total` goes on to the files and the exit code |
| C74-C79 | `S_log.notes` says which messages a program has to get, in order; each loop is shown to produce its part; membership and multiplicity follow |
| C80 | `S_log.stopped` says what is announced before the first thing that is not understood; `told_early` what is announced before the symbol table is read; both shown to be functions of the program |
| C81 | `S_thumb.sweep` and `stuck` describe how any byte string is read; the loop is shown to follow them, and one of them always applies |
| C82-C84 | consequences of the characterisation of the maxima (C03, C05): transfer of chains between graphs (`S_mono.same_view`, `grows`), decomposition of the best chain at the border of a recursion group. Where only equality of two maxima is claimed (C06, C11, C13, C43, C82), the proof goes through `S_graph.wrapped`, the sum modulo 2^64, which both runs compute whether it fits or not |
| C85 | composition of the two processes: what the wrapper reports for each run of the compiler (C48) read by the driver among other lines (`S_pair.reported_by`) |
| C86, C87 | the grammar of command lines (`S_cli.line`, `once`, `says`) against the parser; runs with and without the name of the subcommand compared step by step (`L_cli2.alike`) |
| C88 | the two models side by side (`L_debug1.so_*`, `keeps`): each checked operation gives the wrapped result or stops; for the maxima the exact condition is `S_graph.below_2_64`, function by function (also C09); for branches it is `S_debug.same_half` (`L_debug3.exec_code_iff`), so `report_d_iff` is an equivalence |
| C89 | a program and a world with all addresses of the executable increased by one distance (`S_move.moved`, `relinked`), compared step by step, through the log, the reading of the files and the command line |
| C90 | two worlds that differ in the iteration orders only (`S_same.reordered`): a one-to-one correspondence of the nodes (`same_nodes`, `same_groups`) is carried from the construction (C43) through the start point, the maxima (C11), the groups (C10) and the shortening of names to the printed text; the messages are described without reference to an order (`L_samelog.reason_for`), so that the logs are permutations of each other (`S_samelog.log_settled`) |
| C91 | what counts of a module is its list of definitions and declarations of linked names, without comments, labels and other instructions (`S_noise.gists`, `substance`); equal lists give equal tables up to entries that are never looked up, and every loop of the construction skips the rest without a message, so that report, log and the whole run are equal |
| C92 | a renaming of the names of a program (`S_rename.renamed`) extends to a permutation of all names by composing exchanges; under it all tables keyed by names commute with lookup and insertion, so that the states of every loop correspond: equal edges and numbers, names changed or equal; the short names come out equal, and all of the report if they are shown; the log (`L_renlog`) by a relation on logging computations, message by message |
| C93 | `S_early.obstacle` lists what can go wrong before the build, in order, with the text; `run` is followed step by step in both directions |
| C94 | `S_attain.may_call` lists the calls in the code of a function and what they may lead to; a chain of the graph that the report shows (`pictures`) is collapsed to a chain of such calls with the same known usage, and `figures` (C66) says that the reported number is that of a chain |
| C95 | `S_ends.ends` lists the ways in which a run can end; the analysis never returns an error (`L_nofail`), so it stops by a panic; the rest follows the stages of `build_and_analyse` |
| C96 | no stage of `M_driver.run` returns `Fuel`: `L_nofuel` for the construction of the graph (the binary search shortens its interval, `L_log9.finish_total` for the passes), `parse_total` for the parser, `L_finite` for the driver and the wrapper |
| C97 | the stages before `write_output` do not read the format (`L_format.twin`); both texts are read back as in C16 and C17 and compared |
| C98 | the maxima are a function of what is reached (C82), the filter keeps the reachable part (C12), names are shortened by the names of the whole program in both reports; the stages before do not read the start point (`L_part2.keeps`) |
| C99 | from exact to bounded: a chain of known usages passes each node with a usage at most once, so it is at most the sum of the graph; back: every path of the graph is an execution, and a lap around a cycle can be repeated (`L_bounded.laps`); a node of something unknown is reached only through a function that calls it |
| C100 | The two loops over the symbols are simulated step by step: the tables differ only in the order in which the aliases were put in, which no lookup sees (`L_aliases.alike`); the canonical name, the definition and the declaration of an entry are read off `chosen`, `typed_by_def` and `typed_by_decl`. |
| C101 | Edges of the graph of one program are carried over to the other along the keys that lead from the function (`L_below.edge_there`, `edge_back`); the two graphs then look the same from that node (`S_mono.same_view`), and C82 compares the maxima. A start point leaves maxima as they are (`L_below.finish_any`), so this holds for reports below start points and for the files that two runs print (`L_below3`). |
| C102 | The edges below a function are carried over as for C101, in one direction; chains of calls have images in the other graph that use at least as much stack (`L_more.image_exact`), and an exact maximum there bounds them. Start points and printed files as for C101. |
| C103 | The names by which functions are known do not change, so nodes and edges correspond (`L_fewer.fw_arrow`); usages become unknown or are found in the machine code (`fw_usage`, which uses that `build` checks the machine code against LLVM's sizes). The rest is about graphs (`less_known_max`): an exact maximum only depends on known usages. |
| C104 | With other sizes the program has the same graph up to the numbering (`L_resize.built_resized`); the number is the largest sum over chains that charge each recursion group once, so each function counts once (`L_resize2.total_raised`). |
| C105 | A relation between the functions of two programs becomes one between the nodes of the graphs (`L_fold.nrel`); chains are followed by chains, and a circle is followed by a circle, by counting nodes (`L_fold.rel_circle`). |
| C106 | A silent run is one of a program about which there is nothing to tell (`unremarkable`, C74); this settles four of the clauses of `covered_fn`, and for thumb targets that all code is read; a cast that names a second name would be announced by the first such call. Five programs show that the rest is needed. The bound is carried to the text on stdout of a whole run that logs nothing, as C61 and C65 do it (P_silent2.v): the log of the run is that of the one analysis whose output is printed. Where machine code is read, three of the five ways are left, for calls through registers; three programs with the same code show that each is needed (X_silent3.v). |
| C107 | The proof of C64 again, but with calls that are noticed (`noticed`) in place of calls that are made: a BL or a branch out of the function is always noticed, a branch to a register if the function is covered. The example calls memcmp under a second name, which `covered_fn` excludes. |
| C46-C52, C60, C70-C73 | the wrapper and the driver as functions from the `world` to events |

## Behaviour of the code found on the way

What carries a property number is proved in its theorems (mostly `..._refuted`); the rest are examples in `X_findings.v`.

* Machine code: BKPT has a wrong pattern and is taken for half of a 32-bit instruction (C25); J1 and J2 are swapped in the T3
  encoding of B (C24); ThumbExpandImm computes 0x0000XY00 where the architecture has 0x00XY00XY; SUBW SP is overlooked; STMDB SP without write
  back counts (C26); `sub sp, #0` trips an assertion, CBZ/CBNZ are not noticed as branches (C27); a function that ends with BKPT or an unassigned halfword stops the tool (C81); two consecutive `$d`
  tags panic.
* LLVM IR: `invoke` of inline assembly or of a cast function becomes `Other` (C32); `musttail`, `notail`, quoted local names as callee and,
  in calls through pointers, floating point constants and `poison` are not read and stop the tool; for variable arguments the function
  type is recorded as the result type (C35); a module that starts with a blank line is rejected, in line 1 (C33);
  `loosely_equal` is not transitive (C31); types of functions that return functions returning `void` are not read back (C30).
* Graph: a program that calls an undefined `memcmp` under a cast and by name is analysed or makes the tool panic,
  depending on the iteration order of the map of definitions (C68).
* Graph: `memcmp` under an alias is dropped (C37); calls of cast functions are recorded repeatedly and only under
  the name the graph uses (C39, C56); `llvm.memmove` looks up the names of `memset` (C57); functions with the type of a
  formatting function that are only declared are lost as candidates (C40); a function with several names (equal code that the linker put at
  one address) is a candidate by the type of the first defined name only, so that a maximum that is printed as exact can be too small (C40, C58, C105);
  a function without LLVM IR that has a stack size counts as one without calls on targets whose machine code is not read, so that exact maxima of its callers can be too small (C58); likewise for memory intrinsics if the file of a thumb program
  has no section `.text`, which is logged as an error (C58); inline assembly that calls a function through a register is not noticed either, although the decoder finds the branch: what
  the log says is about the stack used by the assembly itself (C58); pointer calls whose type no function has are
  reported with an exact maximum (C41); two symbols of the same name lose their edges (C42); the
  graph depends on the hash order if an undefined `memcpy` is called directly and by an intrinsic (C43); the usage of an outlined
  function that LLVM and the decoder disagree on is kept silently (C45); clearing the thumb bit may merge two symbols;
  a symbol outside of the executable that is called by name gets no message although its usage is unknown (C75);
  stack allocated by inline assembly is not counted, without any mark, if a branch stays in the function (C64);
  the order of the names in the symbol table decides which of two stack sizes counts, which name a cast call must use, and on Thumb
  whether the tool panics (a mapping symbol in front) (C100);
  a function that `main` never reaches can change the maximum printed for `main`: its call of an external `memcpy` makes the
  routine known, and the `llvm.memcpy` of `main` is then an edge to it, if its definition comes later (C101).
* Names and output: `--start foo` selects `foo::helper::h...` (C14); a backslash in a name breaks the label (C15); short names may
  coincide with other labels (C20) and shortening panics for undefined symbols and pointer types that look hashed (C21);
  symbols whose names are all tags panic; a call that closes a cycle can lower the number reported (C83); the MAX line of `top` does not mark lower bounds (C18).
* Wrapper and driver: without `--crate-name` the wrapper fails instead of running rustc, e.g. for `rustc -vV`, and it
  panics on any argument that is not UTF-8, which rustc itself would accept as a file name (C46); a compiler killed by a signal is reported as
  exit code -1, which the parent process sees as 255; `--name=value`
  forms are overlooked and extern options other than `noprelude` are taken for the name (C47); a carriage return at the end of
  a path is lost (C48); `--bin=-x` is passed as `--bin -x` (C50); the configured target wins over `--target` for the
  analysis although cargo builds for the flag (C51); a line on stderr that is not UTF-8 stops the tool; a tie
  of modification times is decided by the order of the directory (C49); a directory whose name ends with `.rs` is touched in place of a source file
  (C71), and with `src/main.rs` present that file is touched whatever artifact is built. Run as `cargo call-stack`, the tool takes the
  name of the subcommand for the start point: the start point of the README's example is refused, and without one the log says that it was not found (C87).

## Tests of the theorems

`/verif/seeded/LOG.jsonl` lists wrong versions of the model that were tried in a scratch copy: which definition was changed and how, the
claim it should break, the theorems that could no longer be proved. The proofs that fail in the copy are
replaced by `Admitted` and `Print Assumptions` then shows which property theorems rest on them.
