{"id": "C01", "title": "`max = n` is a tight upper bound on every call chain", "statement": "When the tool reports `max = n` for a function, then for every chain of calls in the call graph that starts at that function (of any length, through recursion too) the stack used by the functions on the chain adds up to at most n, whatever the functions with unknown usage really use; and some chain uses exactly n.", "quantifier": "every call graph, every function in it, every call chain from that function, every possible stack usage of the functions reported as `?`", "why_tests_cant": "Graphs, chains and the hidden usages are unbounded; the firmware tests inspect one label of one graph.", "anchors": ["src/main.rs: run (lines 1135-1215)", "src/main.rs: max_of, max, impl Add for Max"]}
{"id": "C02", "title": "`max >= n` is witnessed by a real call chain", "statement": "When the tool reports `max >= n` for a function, then whatever the functions of unknown usage really use, some chain of calls starting at that function uses at least n bytes. In particular a recursion group is never charged more than its members can really use on one chain.", "quantifier": "every call graph, every function, every possible usage of the unknown functions", "why_tests_cant": "Needs the existence of a chain in every graph, including all shapes of strongly connected components.", "anchors": ["src/main.rs: run (lines 1135-1215)"]}
{"id": "C03", "title": "`=` and `>=` are chosen exactly right", "statement": "The maximum of a function is reported as exact (`=`) if and only if every function reachable from it has known local usage and every reachable function that can (transitively) call itself uses zero bytes of stack; otherwise it is reported as a lower bound (`>=`).", "quantifier": "every call graph and every function", "why_tests_cant": "It is an if-and-only-if over reachability and cycles in arbitrary graphs.", "anchors": ["src/main.rs: run (lines 1138-1215)", "src/main.rs: Max, Local"]}
{"id": "C04", "title": "Every function gets a maximum and the analysis never panics", "statement": "If there is any stack usage information, the maximum stack usage pass gives every node of the call graph a maximum and none of its `expect(\"UNREACHABLE\")` calls can fire, whatever the shape of the graph.", "quantifier": "every call graph, with any number of self loops, parallel edges, cycles and disconnected parts", "why_tests_cant": "The order in which nodes are visited depends on the whole graph; a panic needs one unlucky graph.", "anchors": ["src/main.rs: run (lines 1135-1215)", "petgraph: kosaraju_scc, Topo, is_cyclic_directed"]}
{"id": "C05", "title": "The reported number is the most expensive chain, charging each recursion group once", "statement": "The number reported for a function (after `=` or `>=`) is the maximum, over all call chains starting at it, of the known local usages of functions on the chain, where out of each group of mutually recursive functions only one function is counted. This determines the number uniquely.", "quantifier": "every call graph, every function, every chain", "why_tests_cant": "A functional characterisation over unbounded graphs.", "anchors": ["src/main.rs: run (lines 1141-1197)", "src/main.rs: run (lines 1200-1214)"]}
{"id": "C06", "title": "Choice between the acyclic and the recursive pass is not observable", "statement": "On a call graph without recursion the pass written for recursive graphs and the pass written for non-recursive graphs give every function the same maximum; and the pass for non-recursive graphs is only ever used when the graph has no cycle.", "quantifier": "every acyclic call graph; every call graph for the second half", "why_tests_cant": "Two different traversals must agree on all graphs.", "anchors": ["src/main.rs: run (lines 1138-1215)"]}
{"id": "C07", "title": "Unbounded recursion is never reported as bounded", "statement": "If a function that uses stack (local > 0) can call itself again, directly or through others, then call chains from any function that reaches it have unbounded total usage, and the tool never reports `=` for such a function.", "quantifier": "every call graph with a cycle, every bound B", "why_tests_cant": "Needs chains of arbitrary length.", "anchors": ["src/main.rs: run (lines 1149-1160)"]}
{"id": "C08", "title": "A caller's maximum covers its callees", "statement": "If f calls g in the call graph then the number reported for f is at least the number reported for g, it is at least f's own local usage plus g's number unless f and g are mutually recursive, and if g is only a lower bound then so is f.", "quantifier": "every call graph and every edge in it", "why_tests_cant": "Relates the outputs for all pairs of nodes of all graphs.", "anchors": ["src/main.rs: run (lines 1162-1196)", "src/main.rs: max, impl Add for Max"]}
{"id": "C09", "title": "Maxima do not wrap around", "statement": "The reported number never silently wraps: if the known local usages in the graph add up to less than 2^64 bytes then all reported numbers are the true (mathematical) ones; in any case the number of a function is the true one exactly if it fits 64 bits.", "quantifier": "every call graph with u64 local usages", "why_tests_cant": "64-bit overflow cannot be reached by sampled firmware.", "anchors": ["src/main.rs: impl Add<Local> for Max, impl Add<Max> for Max (lines 1440-1464)"]}
{"id": "C10", "title": "SCC clusters are exactly the recursion groups", "statement": "The clusters drawn in the dot output are exactly the groups of mutually recursive functions (including single functions that call themselves): every function that can call itself is in exactly one cluster, two functions share a cluster iff each can reach the other, and no other function is in a cluster.", "quantifier": "every call graph", "why_tests_cant": "Correctness of an SCC computation on all graphs.", "anchors": ["src/main.rs: run (lines 1138-1150)", "src/main.rs: dot (lines 1274-1285)"]}
{"id": "C11", "title": "Results do not depend on node numbering, edge order or repeated edges", "statement": "Two runs whose call graphs have the same functions and the same caller/callee pairs report the same maximum for each function, even if the nodes are numbered differently, the edges were discovered in a different order, or an edge appears several times.", "quantifier": "every pair of graphs related by a renumbering of nodes", "why_tests_cant": "HashMap iteration order differs between runs; all orders must be covered.", "anchors": ["src/main.rs: run (lines 552-764, 1011-1065, 1135-1215)"]}
{"id": "C12", "title": "Start point keeps exactly what is reachable", "statement": "With a start point, the output graph contains one copy of each function reachable from it, with its attributes unchanged, every call edge between them with the same multiplicity, and nothing else.", "quantifier": "every call graph and every start node", "why_tests_cant": "Graph traversal over arbitrary graphs.", "anchors": ["src/main.rs: run (lines 1094-1130)", "petgraph: Dfs"]}
{"id": "C13", "title": "Start point does not change any maximum", "statement": "A function that survives the start point filter is reported with exactly the same maximum (number and `=`/`>=`) as in the unfiltered graph.", "quantifier": "every call graph, every start node, every function reachable from it", "why_tests_cant": "Compares two analyses on related graphs of any size; the filtered graph may even take the other pass.", "anchors": ["src/main.rs: run (lines 1068-1215)"]}
{"id": "C14", "title": "Start point resolution", "statement": "A start point that equals a symbol name selects that symbol; otherwise it selects a function only if exactly one symbol's demangled name is the start point followed by a hash; if there is no such symbol, or several, the graph is left unfiltered.", "quantifier": "every set of symbols, every start string, every demangling", "why_tests_cant": "Ranges over all name tables; prefix matching can capture unrelated names.", "anchors": ["src/main.rs: run (lines 1068-1092)"]}
{"id": "C15", "title": "Dot labels are well-formed quoted strings", "statement": "For every function name, the label written in the dot file is a well formed dot quoted string: it ends at the closing quote the tool wrote and reading it back gives the name, the maximum and the local usage.", "quantifier": "every symbol name", "why_tests_cant": "Names are arbitrary strings, including quotes and backslashes.", "anchors": ["src/main.rs: Escaper::write_char (1369-1385)", "src/main.rs: dot (1243-1263)"]}
{"id": "C16", "title": "The dot file lists each node, edge and cluster once and can be read back", "statement": "From the lines of the dot output one can read back, for each node in order, its maximum, local usage and dashed style, the exact list of edges and the exact list of clusters.", "quantifier": "every analysed call graph", "why_tests_cant": "A round trip over all graphs, including numbers of any size.", "anchors": ["src/main.rs: dot (1236-1288)", "src/main.rs: impl Display for Max, Local"]}
{"id": "C17", "title": "`--format top` lists every function once, largest local usage first", "statement": "The top output lists every function of the graph exactly once, in order of decreasing local usage, functions with equal usage in graph order, and functions of unknown usage as 0.", "quantifier": "every analysed call graph", "why_tests_cant": "Sorting is a property of all lists.", "anchors": ["src/main.rs: top (1290-1335)"]}
{"id": "C18", "title": "The MAX line of `--format top` is the largest maximum", "statement": "The first line of the top output shows the largest number among all functions' maxima; if every maximum in the graph is exact it bounds every call chain in the program.", "quantifier": "every analysed call graph and every call chain", "why_tests_cant": "Ranges over all graphs and chains.", "anchors": ["src/main.rs: top (1301-1311)"]}
{"id": "C19", "title": "Hash removal strips exactly the rustc hash", "statement": "Removing the hash of a demangled name removes exactly a trailing `::h` plus 16 characters, never anything else; it applies only to names longer than that; and it never panics, including on names with multi-byte characters.", "quantifier": "every byte string that is valid UTF-8", "why_tests_cant": "String slicing panics depend on character boundaries of arbitrary strings.", "anchors": ["src/main.rs: dehash (1496-1514)"]}
{"id": "C20", "title": "Shortened names stay unambiguous", "statement": "Two different functions of the program whose demangled names end in a hash never end up with the same label, and a name is shortened only if no other function shares the shortened form.", "quantifier": "every set of symbols and every demangling function", "why_tests_cant": "Counts over arbitrary symbol tables.", "anchors": ["src/main.rs: run (431-432, 506-509, 1217-1226)"]}
{"id": "C21", "title": "Name shortening does not panic", "statement": "The name shortening pass finishes for every call graph the tool can build; the table of short names has an entry for every node whose name carries a hash.", "quantifier": "every symbol table and every set of called symbols", "why_tests_cant": "A missing table entry panics; needs all ways a node can be created.", "anchors": ["src/main.rs: run (1218-1226)"]}
{"id": "C22", "title": "Outlined function recognition", "statement": "A symbol counts as produced by LLVM's outliner iff it is `OUTLINED_FUNCTION_` followed by a decimal number that fits in 64 bits (an optional plus sign is tolerated).", "quantifier": "every symbol name", "why_tests_cant": "All strings, including overflowing numbers.", "anchors": ["src/main.rs: is_outlined_function (1532-1540)"]}
{"id": "C23", "title": "BL targets are decoded correctly", "statement": "For every BL instruction at any position in a function, the recorded callee offset is the architectural branch target (address of the instruction plus 4 plus the signed offset encoded as in the ARM manual).", "quantifier": "all 2^24 offsets, all positions, both architecture versions", "why_tests_cant": "Bit-level decoding over the whole encoding space and any surrounding code.", "anchors": ["src/thumb.rs: analyze (521-546), sign_extend"]}
{"id": "C24", "title": "B targets are decoded correctly", "statement": "For every B instruction (encodings T1, T2, T3 and T4) the recorded offset is the architectural branch target.", "quantifier": "all offsets of all four encodings, all positions", "why_tests_cant": "Bit-level decoding over the whole encoding space.", "anchors": ["src/thumb.rs: analyze (133-167, 453-520)"]}
{"id": "C25", "title": "The decoder stays in step with the instruction stream", "statement": "The decoder advances by 2 bytes over every 16-bit instruction and by 4 bytes over every 32-bit instruction, as defined by the architecture, so it never misreads the second half of an instruction as an instruction.", "quantifier": "all 65536 first halfwords, both architecture versions, streams of any length", "why_tests_cant": "One wrong pattern desynchronises the rest of the function only for particular code.", "anchors": ["src/thumb.rs: analyze (84-384)"]}
{"id": "C26", "title": "Stack pointer decrements are counted exactly", "statement": "For straight line code the reported stack usage is the total by which PUSH, SUB SP, STMDB SP!, VPUSH and STR SP! instructions lower the stack pointer, with immediates decoded as in the ARM manual.", "quantifier": "every sequence of instructions, every register list and immediate", "why_tests_cant": "Immediate expansion and register lists have thousands of encodings.", "anchors": ["src/thumb.rs: analyze (279-291, 346-358, 388-452, 547-563), thumb_expand_imm"]}
{"id": "C27", "title": "Reported stack usage and `modifies SP` are consistent", "statement": "Whenever the machine code analysis reports a stack usage, it is non-zero iff it also reports that SP is modified (the sanity check in the driver cannot fire), and it reports no usage as soon as the function branches within itself.", "quantifier": "every byte string", "why_tests_cant": "A global invariant of a decoder loop over arbitrary bytes.", "anchors": ["src/thumb.rs: analyze", "src/main.rs: run (827-838)"]}
{"id": "C28", "title": "Literal pools never influence the analysis", "statement": "Bytes inside data regions delimited by mapping symbols have no effect on the calls, branches, indirect call flag or stack usage reported for a function.", "quantifier": "every function, every placement of data regions, every contents of them", "why_tests_cant": "Arbitrary data may look like any instruction.", "anchors": ["src/thumb.rs: analyze (53-82)"]}
{"id": "C29", "title": "Bit patterns mean what they say", "statement": "An instruction word is matched by a 16-character pattern iff it agrees with the pattern in every position that is 0 or 1.", "quantifier": "all halfwords and all patterns", "why_tests_cant": "2^16 words times 3^16 patterns.", "anchors": ["src/thumb.rs: matches (574-591)"]}
{"id": "C30", "title": "Printing and parsing of types are inverse", "statement": "Parsing the printed form of an LLVM type or signature gives the type back and leaves what follows it untouched; hence different signatures have different labels in the graph.", "quantifier": "every type of any nesting depth, every continuation", "why_tests_cant": "Recursive grammar, unbounded depth.", "anchors": ["src/ir/ty.rs: Display for Type, type_", "src/ir.rs: Display for FnSig"]}
{"id": "C31", "title": "Signature matching is sound and symmetric", "statement": "Two signatures match iff they have the same number of parameters, both or neither return a value, and corresponding types are equal or both pointers one of which is opaque; matching is reflexive and symmetric.", "quantifier": "every pair of signatures", "why_tests_cant": "All nested types.", "anchors": ["src/ir.rs: FnSig::loosely_equal", "src/ir/ty.rs: Type::loosely_equal"]}
{"id": "C32", "title": "No call is silently dropped by the IR parser", "statement": "If an LLVM IR module is accepted, then every statement line in a function body that contains a call is recorded as a call (direct, indirect, bitcast or inline asm); lines recorded as `Other` contain no `call` word.", "quantifier": "every text accepted as LLVM IR", "why_tests_cant": "The statement grammar has a catch-all alternative.", "anchors": ["src/ir/define.rs: stmt, other, parse", "src/ir.rs: items"]}
{"id": "C33", "title": "IR parse errors point at the offending line and never panic", "statement": "Parsing any text either succeeds having consumed all of it, or fails with the 1-based number of the line at which the first unparsable item starts; the `unreachable!` in the error path cannot be reached.", "quantifier": "every text", "why_tests_cant": "Arbitrary malformed input.", "anchors": ["src/ir.rs: parse, items (68-97)"]}
{"id": "C34", "title": "Direct calls are recorded with the right callee", "statement": "A direct call or invoke statement printed in LLVM syntax, with any attributes, any return type and any callee name (plain or quoted), is parsed to a direct call of exactly that callee.", "quantifier": "every callee name, return type and attribute list", "why_tests_cant": "Unbounded names and nested types.", "anchors": ["src/ir/define.rs: direct_call, assign, stmt", "src/ir.rs: function, name, attribute"]}
{"id": "C35", "title": "Indirect calls are recorded with the right signature", "statement": "An indirect call statement printed in LLVM syntax is parsed to an indirect call whose signature is the return type and the argument types.", "quantifier": "every return type, argument list and attributes", "why_tests_cant": "Unbounded lists and nested types.", "anchors": ["src/ir/define.rs: indirect_call, argument"]}
{"id": "C36", "title": "Function definitions keep their name and signature", "statement": "A definition line printed in LLVM syntax is parsed to a definition with exactly that name, parameter types and return type, followed by the parsed statements of its body.", "quantifier": "every name, signature and body", "why_tests_cant": "Unbounded grammar.", "anchors": ["src/ir/define.rs: parse, parameter"]}
{"id": "C37", "title": "Every direct call becomes an edge", "statement": "For every live function and every direct call in its body to a live function (under any alias name), the graph has an edge from the caller's node to the callee's node; calls to undefined symbols lead to a node with unknown stack usage.", "quantifier": "every program (IR, symbol tables, stack sizes), every iteration order of the hash maps", "why_tests_cant": "Ranges over all programs and all hash map orders.", "anchors": ["src/main.rs: run (552-764)"]}
{"id": "C38", "title": "Edges come only from calls", "statement": "Every edge between two real functions is justified by a direct call, a bitcast call, a recognised memory intrinsic or a machine code branch in the caller; no other edges exist.", "quantifier": "every program, every iteration order", "why_tests_cant": "Absence of spurious edges for all programs.", "anchors": ["src/main.rs: run (552-949)"]}
{"id": "C39", "title": "At most one edge between two functions", "statement": "The graph never has two edges from the same caller to the same callee, however often the call appears in the IR and in the machine code.", "quantifier": "every program, every iteration order", "why_tests_cant": "All combinations of repeated calls.", "anchors": ["src/main.rs: run (550, 617-622, 746-749, 916-947)", "src/main.rs: run (577-593)"]}
{"id": "C40", "title": "Indirect calls reach every candidate callee", "statement": "For every live function containing an indirect call and every live function whose signature matches the call, the graph has a path caller -> dashed node -> callee.", "quantifier": "every program, every iteration order", "why_tests_cant": "All programs.", "anchors": ["src/main.rs: run (514-543, 752-759, 1011-1065)"]}
{"id": "C41", "title": "Unknown callees make the result a lower bound", "statement": "If the program contains symbols without type information, any function that (transitively) performs an indirect call is reported with `>=`, never with `=`.", "quantifier": "every program", "why_tests_cant": "Combination of graph building and analysis over all programs.", "anchors": ["src/main.rs: run (538-543, 956-961, 1052-1055)"]}
{"id": "C42", "title": "One node per live function", "statement": "The graph has exactly one node for each address of the symbol table, all names (aliases) of an address lead to that node, its local usage is the one recorded for the chosen name, and functions removed by the linker get no node.", "quantifier": "every symbol table", "why_tests_cant": "All symbol tables and alias groups.", "anchors": ["src/main.rs: run (456-544)"]}
{"id": "C43", "title": "The graph does not depend on hash map iteration order", "statement": "Running the tool twice on the same program gives call graphs with the same functions and the same caller/callee pairs, regardless of the order in which hash maps are iterated.", "quantifier": "every program, every pair of iteration orders", "why_tests_cant": "The order is randomised per process; all orders must be compared.", "anchors": ["src/main.rs: run (436, 552, 753, 970-1009, 1011, 1048, 1062)"]}
{"id": "C44", "title": "Machine code calls become edges and local branches do not", "statement": "On thumb targets every BL and every B that leaves the function adds an edge to the symbol at the target address, B within the function adds none, and an unknown target stops the tool instead of being ignored.", "quantifier": "every program, every branch", "why_tests_cant": "All programs.", "anchors": ["src/main.rs: run (916-948)"]}
{"id": "C45", "title": "Stack size overrides follow the documented rule", "statement": "LLVM's stack size of a function is replaced by the machine code result only if the function contains inline assembly, or if it is an outlined function reported as 0; in every other case a disagreement stops the tool. Functions without LLVM data take the machine code result.", "quantifier": "every function, every combination of inputs", "why_tests_cant": "Decision table over unbounded numbers.", "anchors": ["src/main.rs: run (840-900)"]}
{"id": "C46", "title": "The rustc wrapper is transparent", "statement": "rustc is run with all the original arguments unchanged and in order after the injected flags: `-Zemit-stack-sizes` always and `--emit=llvm-ir` exactly for compiler_builtins; the exit code is passed through.", "quantifier": "every argument list", "why_tests_cant": "All argument lists.", "anchors": ["src/wrapper.rs: wrapper"]}
{"id": "C47", "title": "rustc arguments are understood as rustc does", "statement": "The crate name, out dir, extra filename and extern crates extracted by the wrapper are the values given on the command line (last one wins, `-C x` and `-Cx` alike), and a missing value or crate name is an error.", "quantifier": "every argument list", "why_tests_cant": "All argument lists.", "anchors": ["src/wrapper.rs: RustcArgs::parse"]}
{"id": "C48", "title": "Paths reported by the wrapper reach the driver", "statement": "Whatever else the build prints to stderr, the driver ends up with exactly the last reported compiler_builtins rlib and IR paths and echoes all other lines unchanged in order.", "quantifier": "every sequence of stderr lines", "why_tests_cant": "All interleavings of build output.", "anchors": ["src/main.rs: run (234-260)", "src/wrapper.rs: markers"]}
{"id": "C49", "title": "The newest IR file of the right crate is analysed", "statement": "Among the files in the output directory the driver picks one with extension .ll that belongs to the requested binary and has the latest modification time; a file of another crate is never picked.", "quantifier": "every directory listing in every order, every crate name and hash", "why_tests_cant": "Directory order is arbitrary.", "anchors": ["src/main.rs: run (271-308)"]}
{"id": "C50", "title": "The cargo command line matches the request", "statement": "The tool runs only if exactly one of --example and --bin is given, and the cargo command it runs contains exactly the requested target, features and artifact; --all-features overrides --features.", "quantifier": "every combination of options", "why_tests_cant": "All option strings.", "anchors": ["src/main.rs: run (130-203)"]}
{"id": "C51", "title": "The machine code analysis uses the target that was built", "statement": "The architecture used to decode machine code and to choose build-std is the one of the target cargo actually builds for.", "quantifier": "every combination of configured target and --target flag", "why_tests_cant": "All combinations of strings.", "anchors": ["src/main.rs: run (142-166, 353-361)"]}
{"id": "C52", "title": "Unsupported toolchains are refused", "statement": "Nothing is built unless the compiler's commit hash is the supported one or the override variable has the exact documented value.", "quantifier": "every toolchain hash and environment", "why_tests_cant": "All strings.", "anchors": ["src/main.rs: run (108-126)"]}
{"id": "C53", "title": "Symbol version suffixes are removed", "statement": "An undefined symbol `name@@VERSION` is treated as `name`; names without `@@` are unchanged.", "quantifier": "every symbol name and version", "why_tests_cant": "All strings.", "anchors": ["src/main.rs: run (407-418)"]}
{"id": "C54", "title": "Later definitions override earlier ones", "statement": "If a function is defined both in the application's IR and in compiler_builtins' IR, the latter is used; the same for stack sizes.", "quantifier": "every pair of modules", "why_tests_cant": "All programs.", "anchors": ["src/main.rs: run (337-351, 365-392)"]}
{"id": "C55", "title": "LLVM IR modules are read completely", "statement": "A text made of items (comments, target lines, types, globals, aliases, declarations, definitions, attributes, metadata, module assembly) each on its own line(s), in any order and number, is accepted and gives exactly those items in that order.", "quantifier": "every list of items, every way of writing each of them", "why_tests_cant": "Infinitely many modules.", "anchors": ["src/ir.rs: parse, items; src/ir/item.rs: item"]}
{"id": "C56", "title": "Calls through a cast lead to the function called", "statement": "For every live function whose body calls a bitcast function, under any name of it, the graph has an edge from the caller to the function cast.", "quantifier": "every program, every iteration order", "why_tests_cant": "All programs.", "anchors": ["src/main.rs: run (576-592)"]}
{"id": "C57", "title": "Memory intrinsics lead to the routines that implement them", "statement": "On targets without machine code analysis, a call of llvm.memcpy, llvm.memset or llvm.memmove leads to every function of the executable that may implement it.", "quantifier": "every program, every iteration order", "why_tests_cant": "All programs.", "anchors": ["src/main.rs: run (614-680)"]}
{"id": "C58", "title": "An exact maximum bounds every execution", "statement": "If the tool reports `max = n` for a function, then no chain of calls that an execution can make from it (direct calls, calls through casts and pointers, memory intrinsics, machine code branches) needs more than n bytes of stack.", "quantifier": "every program, every iteration order, every start point, every execution", "why_tests_cant": "End to end over all programs and all executions, including unbounded recursion.", "anchors": ["src/main.rs: run (337-1231)"]}
{"id": "C59", "title": "What the tool does not understand stops it", "statement": "If the graph is built, every call statement of every live function was understood: the callee is a function of the executable, a symbol known to be undefined or a known intrinsic; nothing else is skipped silently.", "quantifier": "every program", "why_tests_cant": "All programs.", "anchors": ["src/main.rs: run (569-764)"]}
{"id": "C60", "title": "A result is printed exactly on success", "statement": "The exit code is 0 exactly if a result was printed on stdout; the result is one complete text printed last; if the build fails nothing is printed and cargo's exit code is returned.", "quantifier": "every environment, option set and outcome of the child processes and files", "why_tests_cant": "Interplay of all failure points of a run.", "anchors": ["src/main.rs: main, run (84-1234)"]}
{"id": "C61", "title": "Printed maxima hold for the program that was built", "statement": "For every function, the `max = n` that a reader of the printed dot file finds bounds the stack usage of every execution of that function in the program made of the executable, the newest IR file of the requested binary and the reported compiler_builtins files.", "quantifier": "every environment, directory contents, program, iteration order, start point and execution", "why_tests_cant": "End to end over the whole tool.", "anchors": ["src/main.rs: run (84-1234); src/ir.rs; src/thumb.rs"]}
{"id": "C62", "title": "Branch instructions become edges", "statement": "Every BL instruction, and every B instruction whose target is outside of its function, is an edge of the call graph from the function that contains it to the function at the address which the instruction branches to; the machine code is a reason for an edge only if it has such an instruction.", "quantifier": "every program, code layout, instruction and iteration order", "why_tests_cant": "All instruction sequences; targets depend on every bit of the encodings and on the layout of the functions.", "anchors": ["src/main.rs: run (795-1003); src/thumb.rs: analyze"]}
{"id": "C63", "title": "Stack usage is what the instructions allocate", "statement": "For a function without an LLVM stack size and without a branch to itself the usage shown is the sum of what its instructions allocate; wherever the function is, it has not allocated more than the usage shown.", "quantifier": "every program, code layout and path through the code of the function", "why_tests_cant": "All paths, including loops.", "anchors": ["src/main.rs: run (819-909); src/thumb.rs: analyze"]}
{"id": "C64", "title": "An exact maximum bounds the machine", "statement": "While a function for which `max = n` is reported runs, instruction by instruction, the stack pointer is never more than n bytes below its value on entry, provided LLVM's stack sizes are right where the tool relies on them.", "quantifier": "every program, code layout, iteration order, start point and execution of the machine code", "why_tests_cant": "All executions of all programs, at the level of instructions.", "anchors": ["src/main.rs: run (337-1231); src/thumb.rs: analyze"]}
{"id": "C65", "title": "Printed maxima hold for the machine", "statement": "For every function, the exact `max = n` that a reader of the printed dot file finds bounds the stack that the machine uses, instruction by instruction, while the function runs in the executable that was built.", "quantifier": "every environment, directory contents, program, code layout, iteration order, start point and execution of the machine code", "why_tests_cant": "End to end over the whole tool and all executions of the machine code.", "anchors": ["src/main.rs: run (84-1234); src/ir.rs; src/thumb.rs"]}
{"id": "C66", "title": "The printed graph is the call graph of the program", "statement": "A reader of the printed dot file finds exactly one node per function of the program (or of the part below the start point), an edge for every call, bitcast use or branch in the IR and machine code and no other edge, the groups of mutually recursive functions as clusters, and maxima that are those which follow from the printed usages and edges.", "quantifier": "every environment, directory contents, program, iteration order and start point", "why_tests_cant": "End to end over the whole tool; all programs.", "anchors": ["src/main.rs: run (84-1234), dot (1236-1288); src/ir.rs; src/thumb.rs"]}
{"id": "C67", "title": "The printed list shows the functions of the program", "statement": "A reader of the printed `top` list finds exactly one row per function of the program (or of the part below the start point) with its usage, largest first, and on the MAX line the largest of the maxima, which follow from the usages and the calls.", "quantifier": "every environment, directory contents, program, iteration order and start point", "why_tests_cant": "End to end over the whole tool; all programs.", "anchors": ["src/main.rs: run (84-1234), top (1290-1335); src/ir.rs; src/thumb.rs"]}
{"id": "C68", "title": "The call graph is built exactly for programs the tool understands", "statement": "The tool builds the call graph, instead of stopping with a panic, exactly for the programs in which every symbol has a name that is not a mapping symbol, every call is of something with a name, every direct call is of a function or undefined symbol of the executable (or of `memcmp`, if no earlier statement calls that under a cast), every intrinsic is one of those the tool knows, and on Thumb targets every function has code which the decoder accepts, whose stack usage does not contradict LLVM's, and whose branches lead to functions of the executable.", "quantifier": "every program and iteration order", "why_tests_cant": "Both directions over all programs: no other assertion, index or lookup can fail, and none of these is missing.", "anchors": ["src/main.rs: run (337-1065); src/thumb.rs: analyze"]}
{"id": "C69", "title": "The tool succeeds exactly when it should", "statement": "The exit code is 0 exactly when the toolchain is accepted, one artifact is chosen, cargo and rustc answer, the build succeeds and reports compiler_builtins, the files can be read and parsed, and the program is one which the tool understands and whose names can be shortened.", "quantifier": "every environment, directory contents, program and iteration order", "why_tests_cant": "End to end over the whole tool; both directions.", "anchors": ["src/main.rs: main, run (84-1234)"]}
{"id": "C70", "title": "The output is complete or the tool fails", "statement": "What stdout receives is the whole graph or list of the program, or that text up to the first byte which stdout refuses; in the second case the exit code is 1 and the last message on stderr is the error of stdout.", "quantifier": "every environment, program, output format, and every pattern of write errors", "why_tests_cant": "Every position of an error in every output; in particular the text inside escaped labels.", "anchors": ["src/main.rs: run (1228-1231), dot (1236-1288), top (1290-1335), Escaper (1340-1386)"]}
{"id": "C71", "title": "A source file is touched before the build", "statement": "At most one file is touched, before cargo is started: `src/main.rs`, else `src/lib.rs`, else the first file of Rust source in a walk through `src`, or through the package if there is no `src`.", "quantifier": "every file system and environment", "why_tests_cant": "All directory contents and error patterns of the file system.", "anchors": ["src/main.rs: run (209-228)"]}
{"id": "C72", "title": "Files that cannot be read are named", "statement": "If the executable, the IR file, the object file, the IR or the archive of compiler_builtins cannot be read or parsed, nothing is printed on stdout, the exit code is 1 and the last message on stderr names the first such file and the reason.", "quantifier": "every environment, directory contents and file contents", "why_tests_cant": "All combinations of missing and malformed files.", "anchors": ["src/main.rs: run (262-392)"]}
{"id": "C73", "title": "Cargo runs the tool as wrapper of rustc", "statement": "Cargo, and no other program, is started with RUSTC_WRAPPER set to the executable of the tool and with the variable that makes the tool act as wrapper; in the verbose mode the command that is run, and nothing else, is shown.", "quantifier": "every environment and option", "why_tests_cant": "All runs, including those that stop early.", "anchors": ["src/main.rs: run (138-235)"]}
{"id": "C74", "title": "The log tells what there is to tell about the program", "statement": "A run that prints something writes to the log, before it prints, exactly the messages that there is a reason for: functions without usage or type information, inline assembly, intrinsics taken for instructions, replaced stack sizes, indirect calls that can not be bounded, the start point, missing figures; in a fixed order. The log does not change what is computed.", "quantifier": "every environment, program, iteration order and start point", "why_tests_cant": "All combinations of reasons; the messages depend on what was met earlier in the run.", "anchors": ["src/main.rs: run (500, 542, 569, 585, 701, 848, 861, 899, 907, 951, 957, 1025, 1058, 1087, 1131, 1137)"]}
{"id": "C75", "title": "Unknown stack usage is announced", "statement": "For each function of the executable whose stack usage remains unknown, and for no other name, the log has the warning that there is no stack usage information; it has it once.", "quantifier": "every program and iteration order", "why_tests_cant": "All programs and names.", "anchors": ["src/main.rs: run (537-543, 893-900)"]}
{"id": "C76", "title": "Assumptions are announced", "statement": "The log names for each function with inline assembly the first such assembly, each intrinsic that is taken for an instruction once, and every function for which LLVM's stack size is replaced, with both sizes.", "quantifier": "every program and iteration order", "why_tests_cant": "All programs, and all orders of definitions.", "anchors": ["src/main.rs: run (560-590, 695-705, 845-870)"]}
{"id": "C77", "title": "Calls that can not be bounded are announced", "statement": "Functions without type information, programs with such functions, and functions with an indirect call in the machine code that the IR does not explain are announced, once each, and no others.", "quantifier": "every program and iteration order", "why_tests_cant": "All programs and machine code.", "anchors": ["src/main.rs: run (565-572, 905-912, 945-960)"]}
{"id": "C78", "title": "A silent run is exact", "statement": "If a run writes nothing to the log, the maximum of a function is exact unless the function can reach a recursive function that uses stack.", "quantifier": "every program, iteration order and start point", "why_tests_cant": "A statement about all silent runs.", "anchors": ["src/main.rs: run (337-1215)"]}
{"id": "C79", "title": "A start point that is not found is announced", "statement": "The log says that the start point is missing exactly if no node, or more than one node, is meant by it; in the second case it lists these nodes in order.", "quantifier": "every program, demangler and start point", "why_tests_cant": "All sets of names.", "anchors": ["src/main.rs: run (1067-1133)"]}
{"id": "C80", "title": "The log of a run that stops", "statement": "A run that stops while the graph is built has announced exactly what there is to tell about the program up to the first thing that is not understood, prints nothing and fails; what has been announced does not depend on iteration orders, the demangler or the start point. A run that stops earlier announces nothing.", "quantifier": "every environment, program, iteration order and start point", "why_tests_cant": "All programs, and all places where the construction can stop.", "anchors": ["src/main.rs: run (500, 542, 569, 585, 701, 848, 861, 899, 907; panics and errors in between)"]}
{"id": "C81", "title": "The machine code of any function is read in one way, or refused for one of two reasons", "statement": "For every byte string and every list of mapping symbols, the analysis of a function reads the bytes from one end to the other: a data symbol starts a pool that is skipped up to the next thumb symbol or to the end, a halfword assigned to a 16-bit instruction other than BKPT stands alone, any other halfword starts a pair. It reports exactly the call targets, branch targets, indirect branches and stack usage of the instructions so read; it panics exactly if two data symbols follow each other where it reads, or the last halfword does not stand alone.", "quantifier": "every byte string shorter than 2^30, address, architecture and symbol list", "why_tests_cant": "2^16 halfwords and 2^32 pairs at every position, and any interleaving with mapping symbols.", "anchors": ["src/thumb.rs: analyze (6-572)"]}
{"id": "C82", "title": "A maximum depends only on what the function can reach", "statement": "If the part of one call graph that is reachable from a function looks the same as the part of another graph that is reachable from a function (same usages, same calls, under a one-to-one matching), both functions get the same maximum, exact or not. Callers, unrelated functions, numbering, order and repetition of edges have no influence.", "quantifier": "every two well-formed graphs with usages of 64 bits, every matching", "why_tests_cant": "Two arbitrary graphs and an arbitrary partial matching between them.", "anchors": ["src/main.rs: run (1135-1215)"]}
{"id": "C83", "title": "More calls or more stack never lower a maximum", "statement": "If a call graph gets additional functions, calls or stack usage, then no number that is reported for a function falls; a maximum that is exact in the larger graph is exact and not larger in the smaller one.", "quantifier": "every two well-formed graphs of which one contains the other, the charge in the larger one below 2^64", "why_tests_cant": "Pairs of arbitrary graphs; in particular edges that close cycles.", "anchors": ["src/main.rs: run (1135-1215)"]}
{"id": "C84", "title": "The maxima satisfy the call equations", "statement": "All members of a recursion group have the same maximum. Its number is the largest usage in the group plus the largest number among the functions outside of the group that it calls (zero if there are none). It is exact iff all members are known, use no stack if the group is recursive, and all functions called from the group have exact maxima.", "quantifier": "every well-formed graph with usages of 64 bits, every function", "why_tests_cant": "Arbitrary nesting of groups; the order in which the groups are processed.", "anchors": ["src/main.rs: run (1135-1215)"]}
{"id": "C85", "title": "The files analysed are those of the last compilation of compiler_builtins", "statement": "If the build's output contains the lines that the wrapper writes for each run of the compiler, between any other lines, and the tool succeeds, then the archive and the IR of compiler_builtins that enter the analysis are the ones named by the command lines of those runs: the archive of the last `--extern compiler_builtins=path` of the build, and `out-dir/compiler_builtins` + extra-filename + `.ll` of the last run that compiles compiler_builtins. Without such options and runs the tool does not succeed.", "quantifier": "every sequence of compiler runs, every interleaving with other lines, every file system and program", "why_tests_cant": "Two processes that only communicate through a line protocol; the sequence of compiler runs is unbounded.", "anchors": ["src/wrapper.rs: wrapper (25-58)", "src/main.rs: run (234-260)"]}
{"id": "C86", "title": "The command line is read exactly as documented", "statement": "The options of a run are exactly those that the command line spells: `--target`, `--bin`, `--example`, `--features`, `--format` (dot or top) with a value as the next word or after `=`, `--all-features`, `--verbose` or `-v`, and one start point, in any order, each at most once; after `--` only a start point can follow. `--help`, `-h`, `--version`, `-V` end the run with success; any other command line ends it with exit code 2. In both cases nothing is run, printed or changed. As wrapper, and with an unsupported toolchain, the tool does not look at the options.", "quantifier": "every list of byte strings as arguments", "why_tests_cant": "Unbounded argument lists; order, spelling and repetition of the options interact.", "anchors": ["src/main.rs: Args (42-82), run (128-130)"]}
{"id": "C87", "title": "A start point given to `cargo call-stack` selects the graph", "statement": "README: `cargo call-stack --example app main` shows the graph below `main`. cargo passes the name of the subcommand as first argument, so for every command line L the run of the tool with `call-stack` L has the effects and the exit code of the run with L.", "quantifier": "every command line, world and program", "why_tests_cant": "Needs every command line with and without the name of the subcommand, and every program.", "anchors": ["src/main.rs: Args (80-81), run (128-130, 1067-1133)", "README.md (173-190)"]}
{"id": "C88", "title": "Debug and release builds of the tool agree", "statement": "Built in debug mode, where Rust checks every addition, subtraction and multiplication of machine integers and `debug_assert!` is active, the tool prints for every program what a release build prints.", "quantifier": "every program, order of the hash maps, start point and output format", "why_tests_cant": "The checks fire for extreme addresses and usages only; a test suite runs one of the two builds.", "anchors": ["src/thumb.rs: analyze", "src/main.rs: run (383-390, 1006-1049, 1135-1215), Local and Max (1388-1486)"]}
{"id": "C89", "title": "The result does not depend on the addresses for which the program is linked", "statement": "If the symbols, mapping symbols and machine code of an executable are moved together by an even distance and stay below 2^32, the graph, the log, the output, the commands run and the exit code are the same: branch targets, code sizes, literal pools and names are found relative to the place of the code.", "quantifier": "every program, distance, environment, iteration order and start point", "why_tests_cant": "All programs at all addresses; wrap-around of 32-bit and 64-bit address arithmetic at every branch.", "anchors": ["src/main.rs: run (771-1008)", "src/thumb.rs: analyze (6-572)"]}
{"id": "C90", "title": "Runs on the same input show the same", "statement": "The tool keeps functions, symbols and types in hash maps, whose iteration order is different in every process. Two runs on the same files that differ in these orders only either both make a report or neither does; the reports show the same nodes, with their names, usages and maxima, as many edges between them, the same groups and the same start point, the list has the same lines, and the log has the same messages.", "quantifier": "every program, start point and output format, every pair of iteration orders, every environment", "why_tests_cant": "Iteration orders cannot be chosen from a test, and all orders of all programs are meant.", "anchors": ["src/main.rs: run (336-1231)", "src/ir.rs: parse"]}
{"id": "C91", "title": "Only what is linked counts", "statement": "Definitions and declarations of functions that are not in the executable, comments, labels, instructions other than calls, and the other items of a module (globals, types, aliases, attributes, metadata, module assembly) have no influence: if modules that can be read are changed in these only, and the linked functions are visited in the same order, a run of the tool does exactly the same, including log, output, error message and exit code.", "quantifier": "every pair of programs or environments that differ in this way, every start point and output format", "why_tests_cant": "All edits of all modules are meant; a test shows it for a few.", "anchors": ["src/main.rs: run (318-770)", "src/ir.rs: parse", "src/ir/item.rs: item"]}
{"id": "C92", "title": "The hashes in the names of functions do not matter", "statement": "rustc appends a hash to the names of functions, which changes from one compilation to the next. If the functions of a program are renamed one-to-one, without changing what the names mean to the tool (mapping symbols, outlined functions, intrinsics, memory routines, the name up to the hash), then a run ends in the same way and its graph has the same edges, usages, maxima and groups; if the renamed functions are the only ones of their names up to the hash, the printed text is the same. The messages that are logged are the same, with the new names.", "quantifier": "every program, renaming, start point, iteration order and output format", "why_tests_cant": "All renamings of all programs are meant; a test compares a few builds.", "anchors": ["src/main.rs: run (336-1231), dehash (1497-1514), is_outlined_function (1534-1540)"]}
{"id": "C93", "title": "What the tool says when it gives up before the build", "statement": "If rustc cannot be asked for its version or the configuration of the target, the toolchain is not supported, not exactly one of --example and --bin is given, the project or the path of the tool is not found, or no source file can be touched, then the tool does not start the build, touches no file, prints nothing on stdout and exits with 1; the last line on stderr names the first of these obstacles. There is no other reason to exit with 1 without a build.", "quantifier": "every environment and command line", "why_tests_cant": "Every combination of failures of the environment is meant; most of them cannot be provoked in a test.", "anchors": ["src/main.rs: main (84-92), run (103-231)"]}
{"id": "C94", "title": "The maxima that are reported are reached", "statement": "The number shown for a function, exact or as a lower bound, is the known stack usage of some chain of calls that the code of the program contains: calls by name, under a cast, by a memory intrinsic, through pointers of a matching type, or by branches of the machine code. So the tool does not overestimate, and where its exact maxima are upper bounds (C58) they are the largest usage among all executions.", "quantifier": "every program, start point and iteration order", "why_tests_cant": "All chains of all programs are meant; a test compares a few programs with numbers worked out by hand.", "anchors": ["src/main.rs: run (418-1216)", "src/thumb.rs: analyze"]}
{"id": "C95", "title": "How a run ends after the build was started", "statement": "The exit code, what stdout receives and what ends stderr are determined, for every run that starts the build, by the first of these that happens: cargo cannot be started (1 and an error); a line of its stderr is not text (1 and an error, after the lines before it); the build fails (the code of cargo, 1 if it was killed, and no further message); compiler_builtins was not reported (101, a panic); a file cannot be read or parsed (1 and an error, or 101 for a library); the symbol table cannot be read (1 and an error, unless what comes before is not understood, which is a panic); the program has no report (101); stdout refuses a byte (1 and an error, after the accepted part of the output); otherwise the code is 0, the whole output is on stdout and stderr is that of cargo.", "quantifier": "every environment and command line", "why_tests_cant": "The failures of the environment and their combinations cannot all be provoked in a test.", "anchors": ["src/main.rs: main (84-92), run (234-1233)"]}
{"id": "C96", "title": "Every run comes to an end", "statement": "If cargo, rustc, the file system and the libraries come to an end, so does the tool: the parser on any bytes, the reading of machine code, the construction of the graph, the filter by the start point, the search for recursion and the passes over the graph, with any recursion in the analysed program.", "quantifier": "every environment, command line, text and program", "why_tests_cant": "A test that does not end shows nothing but one input; termination on all inputs cannot be tested.", "anchors": ["src/main.rs: run (140-1216)", "src/ir.rs: parse", "src/thumb.rs: analyze", "src/wrapper.rs: wrapper"]}
{"id": "C97", "title": "The output format changes nothing but the text", "statement": "Two calls of the tool that differ only in `--format` start the same commands, touch the same files, log the same messages, copy the same lines and have the same exit code; if they succeed, the dot file and the list are of the same graph. For names without backslash and line break, reading both texts gives: the rows of the list are the nodes of the dot file with their usages (0 if unknown), and the first line of the list is the largest of the maxima in the dot file. (The list does not show which numbers are exact.)", "quantifier": "every environment whose stdout accepts everything, every command line", "why_tests_cant": "Tests compare the formats on a few programs.", "anchors": ["src/main.rs: run (1228-1233), dot (1236-1288), top (1290-1331)"]}
{"id": "C98", "title": "The report below a start point is the part of the whole report", "statement": "If the program has a report, it has one below every start point, and that one is the part of the whole report that the start point reaches: the same nodes with the same names, usages and maxima, all edges between them as often, and exactly the groups of mutually recursive functions that are reached, complete. A start point that is not found changes nothing. The run with `--start` starts the same commands, touches the same files and succeeds if the run without it does.", "quantifier": "every program, order of the hash maps and start point; every environment whose stdout accepts everything", "why_tests_cant": "Tests compare the two reports on a few programs; group charges and shortened names could depend on functions outside of the part.", "anchors": ["src/main.rs: run (1067-1226)"]}
{"id": "C99", "title": "An exact maximum is reported exactly if the executions are bounded", "statement": "In a program all of whose callees are known (no symbol outside of the executable is called, no function without type information exists, no code calls through a register unseen), the maximum of a function is reported as exact if and only if the stack usages of all executions of the function are known and have a common bound; the exact number is then the largest of them. Recursion is thus told as a lower bound exactly if it can use stack without limit. A run that prints no warning and whose functions called by name are all in the executable is one of such a program. In any program the maximum is exact if and only if the executions of the function have a bound and none of them calls anything that is not known.", "quantifier": "for all programs, orders, start points and functions; all chains of calls of any length", "why_tests_cant": "the condition ranges over executions of unbounded length; no finite set of runs shows that a bound exists or that none does", "anchors": ["src/main.rs:1118-1230, src/main.rs:770-1065"]}
{"id": "C100", "title": "The order of the names of a function does not matter", "statement": "If the symbol table lists the names of the functions in another order, and the functions still go by the same names and have the same types, the report and the log are the same. This holds for any order if at each address there is one name, or exactly one name with a stack size, and at most one name with a definition (or, without one, with a declaration). A successful run then does exactly the same. Otherwise the order can change the maxima (two names with sizes), the edges (calls through casts) or stop a run (mapping symbol in front, on Thumb).", "quantifier": "all programs with distinct keys, all orders of the names at each address, all iteration orders, targets, start symbols and output formats; all worlds", "why_tests_cant": "The order is that of the symbol table of the executable, which the linker chooses; a test sees one.", "anchors": ["src/main.rs:456-545, 552-565, 735-755, 798-803"]}
{"id": "C101", "title": "Functions that cannot be reached do not matter", "statement": "The maximum of a function depends only on the functions that it can reach. If these are found in another program too, at whatever addresses, with the same sizes, statements and jumps, and the names and pointer types that they use mean the same there, the same maximum is printed. In particular the functions that cannot be reached can be given other bodies, sizes and machine code, and new functions can be added. Otherwise, when some function calls a memory routine outside of the executable, the memory intrinsics of functions that do not reach it change their maxima.", "quantifier": "all programs with distinct keys, all functions, all pairs of iteration orders, all placements of the reachable functions in the other program", "why_tests_cant": "A test compares two programs; the claim is about every program that agrees on the reachable part.", "anchors": ["src/main.rs:360-1160"]}
{"id": "C102", "title": "Programs that do more have no smaller exact maxima", "statement": "If what a function can reach does at most what certain functions of another program do (same or more statements and jumps, same or more stack, possibly several functions folded into one), and that program gets an exact maximum, then the maximum of the function is exact too and not larger. In particular, adding statements to functions and raising stack sizes never lowers an exact maximum. It can lower a lower bound: closing a circle of calls turns 16 into at least 8.", "quantifier": "all pairs of programs with distinct keys, all functions, all iteration orders, all placements", "why_tests_cant": "A test compares two programs; monotonicity is about all pairs.", "anchors": ["src/main.rs:360-1160"]}
{"id": "C103", "title": "Missing stack sizes never make a wrong exact maximum", "statement": "If some of the stack sizes of a program are missing, every maximum that is still printed as exact is the one printed with all sizes, and lower bounds do not exceed the maxima printed with all sizes. On Thumb this includes functions whose usage is then taken from the machine code. It holds unless a function is then known by another of its names, or the function without its size was made by the outliner: there the printed exact maximum can change.", "quantifier": "all programs with distinct keys, all sublists of the stack sizes, all functions, all iteration orders, all start points", "why_tests_cant": "A test removes the sizes of some functions of one program; the claim is about all programs and all choices.", "anchors": ["src/main.rs:360-1160"]}
{"id": "C104", "title": "Maxima follow the stack sizes", "statement": "If some functions use more stack and the code stays the same, no maximum grows by more than the sum of what is added; for one function, by no more than what is added to it, however often it is called. Whether a maximum is exact depends on which usages are known, not on the numbers, except for recursive functions that use nothing. If all usages are multiples of some number (as they are when the stack is aligned), so are the maxima.", "quantifier": "all call graphs and all programs with distinct keys, all changes of the sizes, all iteration orders, all start points", "why_tests_cant": "A test changes some sizes of one program.", "anchors": ["src/main.rs:1135-1232"]}
{"id": "C105", "title": "Functions put at one address keep their maxima", "statement": "If the linker puts functions of the same type, the same statements and the same size at one address, then every function has an exact maximum exactly if it had one before, and it is the same. More generally, functions of two programs that do the same and call related functions have the same exact maxima, even if one function of one program is related to several of the other.", "quantifier": "all pairs of programs with distinct keys, all iteration orders, all start points", "why_tests_cant": "A test folds some functions of one program.", "anchors": ["src/main.rs:360-1160"]}
{"id": "C106", "title": "What a silent run vouches for", "statement": "If a run logs nothing, there are five ways in which it may have overlooked calls: of memcmp under a second name, by memory intrinsics where machine code is not read, of formatting functions that are only declared, of functions by a second type, and by functions whose code is not read. There are no others: an exact maximum of a silent run bounds every execution by functions that lose no calls in these ways. Each of the five can make an exact maximum of a silent run too small.", "quantifier": "all programs with distinct keys, all iteration orders, all start points, all executions", "why_tests_cant": "Tests see the log of some runs; that nothing else is overlooked silently is a statement about all programs.", "anchors": ["src/main.rs:420-1065, 1067-1232"]}
{"id": "C107", "title": "Machine code that calls by address only", "statement": "On Thumb targets, an exact maximum bounds the stack in use at any time of an execution of the machine code, whatever the LLVM IR of the functions says, as long as their code does not branch to addresses in registers: direct calls are read from the code, so that memcmp under a second name, cast functions, memory intrinsics and inline assembly are not overlooked there. Only functions that branch to registers must avoid the constructs which the tool overlooks; for these the bound can fail.", "quantifier": "all programs with distinct keys, all layouts of the modelled instructions, all iteration orders, all start points, all executions of the machine", "why_tests_cant": "Tests look at the graphs of some programs; that no other calls of the code are missing is a statement about all code and all its executions.", "anchors": ["src/main.rs: run (770-953)", "src/thumb.rs: analyze"]}
