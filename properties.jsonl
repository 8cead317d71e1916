{"id": "C01", "title": "Wrapper stack order", "statement": "For every function name, following calls from the outermost wrapper inwards (each wrapper calling what gotcha_get_wrappee returns for its own handle) visits every wrapper ever installed for that name exactly once: each newly installed wrapper is placed just outside the first wrapper whose tool has, at that moment, a strictly lower priority (innermost if there is none), and the relative order of the wrappers already installed never changes.", "quantifier": "all histories of gotcha_wrap / gotcha_set_priority / dlopen, any number of tools, bindings and function names, any int priorities (each binding with its own handle variable and its own wrapper)", "why_tests_cant": "The order depends on the whole interleaving of wraps and priority changes by independently developed tools; tests exercise three tools with seven priority triples.", "anchors": ["src/gotcha.c:rewrite_wrapper_orders", "src/gotcha.c:insert_at_head", "src/gotcha.c:insert_after_pos", "src/gotcha.c:gotcha_get_wrappee"]}
{"id": "C02", "title": "Higher priority is always outside", "statement": "If no tool's priority changes after it has wrapped something, then on every function's stack a wrapper of higher priority is always outside a wrapper of lower priority, and among equal priorities the one wrapped first is outermost.", "quantifier": "all histories of wraps in which priorities are set before wrapping, any priorities", "why_tests_cant": "The number of orderings and priority assignments is unbounded; the equal-priority tests are commented out in test/priority/CMakeLists.txt.", "anchors": ["src/gotcha.c:rewrite_wrapper_orders", "docs/api.rst"]}
{"id": "C03", "title": "Documented tie rule for equal priorities", "statement": "docs/api.rst: if several tools have the same priority, they are wrapped in FIFO order with the first tool being the innermost wrapper.", "quantifier": "all pairs of tools with equal priority wrapping a common function", "why_tests_cant": "No test distinguishes the two orders (test/stack adds 1 and 2, which commute).", "anchors": ["docs/api.rst", "src/gotcha.c:rewrite_wrapper_orders"]}
{"id": "C04", "title": "Changing a priority does not disturb installed stacks", "statement": "gotcha_set_priority never changes any GOT slot, any handle's wrappee, or any installed wrapper stack; it only changes what gotcha_get_priority returns for that tool and where future bindings of that tool are inserted.", "quantifier": "all reachable states, all tool names (existing or new), all int values", "why_tests_cant": "A frame property over all memory and all states.", "anchors": ["src/gotcha.c:gotcha_set_priority", "src/gotcha.c:gotcha_configure_int", "src/tool.c:reorder_tool", "src/tool.c:remove_tool_from_list"]}
{"id": "C05", "title": "Call sites are redirected to the outermost wrapper", "statement": "When gotcha_wrap returns, in every loaded library accepted by the library filter every relocation slot whose symbol name is a wrapped function holds the outermost wrapper of that function's stack.", "quantifier": "all histories of gotcha_wrap/dlopen/set_priority over any link map, any number of libraries and relocations (names other than main)", "why_tests_cant": "Quantifies over all link maps and all histories; GOT state cannot be sampled exhaustively.", "anchors": ["src/gotcha.c:gotcha_wrap", "src/gotcha.c:update_all_library_gots", "src/gotcha.c:update_library_got", "src/gotcha.c:update_lib_bindings"]}
{"id": "C06", "title": "GOTCHA writes only relocation slots of wrapped functions", "statement": "gotcha_wrap and gotcha's dlopen processing change no memory word except slots (library load address + relocation offset) of relocations whose symbol name is wrapped, in libraries accepted by the filter, and the value written is always the wrapper pointer of an installed binding of that very name.", "quantifier": "all states, all bindings, all link maps, all addresses", "why_tests_cant": "A frame property: 'nothing else changes' ranges over the whole address space.", "anchors": ["src/gotcha.c:update_lib_bindings", "src/gotcha.c:writeAddress", "src/elf_ops.h:FOR_EACH_PLTREL"]}
{"id": "C07", "title": "Libraries loaded later are redirected too", "statement": "When dlopen (called through GOTCHA's interception) returns, every relocation slot naming a wrapped function in every newly loaded library accepted by the filter holds that function's outermost wrapper.", "quantifier": "all histories, all sets of newly loaded libraries (not mapped where a previously tracked link_map lived, and whose constructors do not call GOTCHA)", "why_tests_cant": "Depends on the history of generations, filters and wraps before the dlopen.", "anchors": ["src/gotcha_dl.c:dlopen_wrapper", "src/gotcha.c:update_all_library_gots", "src/gotcha_utils.c:add_library"]}
{"id": "C08", "title": "Functions missing at wrap time are bound at dlopen", "statement": "A function that no loaded library exported when it was wrapped stays pending; at the first dlopen after which some loaded library exports it, the innermost wrapper of its stack gets as wrappee the address exported by the first such library in link order, and this happens for every pending function at once; functions still missing stay pending.", "quantifier": "all sets of pending names, all stacks built meanwhile, all later libraries", "why_tests_cant": "The iteration deletes entries of the table it is iterating; correctness must hold for every table content and order.", "anchors": ["src/gotcha_dl.c:per_binding", "src/gotcha_dl.c:dlopen_wrapper", "src/hash.c:foreach_hash_entry", "src/hash.c:removefrom_hashtable", "src/gotcha.c:prepare_symbol"]}
{"id": "C09", "title": "Return code of gotcha_wrap", "statement": "gotcha_wrap returns GOTCHA_FUNCTION_NOT_FOUND if and only if at least one of the requested functions is not exported by any loaded library, and GOTCHA_SUCCESS otherwise.", "quantifier": "all states and all binding tables", "why_tests_cant": "Depends on the history: another tool may have wrapped the same missing function before.", "anchors": ["src/gotcha.c:gotcha_wrap", "src/gotcha.c:prepare_symbol", "src/gotcha.c:rewrite_wrapper_orders"]}
{"id": "C10", "title": "The innermost wrappee is the original function", "statement": "Once a wrapped function has been found, gotcha_get_wrappee on the innermost wrapper's handle returns the address of the function in the first library (in link order) that exported it, and stays that value for the rest of the run unless a new wrapper is inserted below it; before it has been found the returned pointer is not a usable value.", "quantifier": "all histories with fresh handles and wrappers", "why_tests_cant": "Stability over all future operations.", "anchors": ["src/gotcha.c:prepare_symbol", "src/gotcha.c:gotcha_get_wrappee", "src/tool.c:add_binding_to_tool"]}
{"id": "C11", "title": "Wrapping the same bindings again is harmless", "statement": "Passing an already-wrapped binding (same wrapper, same handle) to gotcha_wrap again leaves the stack working: every wrapper's wrappee is still a function other than itself and the chain still ends in the original function.", "quantifier": "all histories in which a binding table is passed twice (possibly under another tool name)", "why_tests_cant": "The unit tests re-wrap the same table but never call through it afterwards.", "anchors": ["src/gotcha.c:rewrite_wrapper_orders", "src/gotcha.c:insert_after_pos", "src/tool.c:add_binding_to_tool"]}
{"id": "C12", "title": "Wrapping main does not affect other bindings of the same call", "statement": "If a gotcha_wrap call binds main for the first time together with other functions, the other functions' call sites are redirected as they would be without the main entry.", "quantifier": "all binding tables containing main and other names, all link maps", "why_tests_cant": "test/wrap_main binds only main.", "anchors": ["src/gotcha.c:rewrite_wrapper_orders", "src/gotcha.c:update_library_got", "src/translations.c:libc_main_wrappers"]}
{"id": "C13", "title": "A wrapped main is entered through the wrappers", "statement": "If main has been wrapped before the C runtime calls __libc_start_main, the program's main is entered through all wrappers of main, outermost first.", "quantifier": "all sets of tools wrapping main with any priorities", "why_tests_cant": "test/wrap_main uses one tool with the default priority.", "anchors": ["src/translations.c:gotcha_internal_libc_start_main", "src/translations.c:gotcha_internal_main", "src/gotcha.c:rewrite_wrapper_orders"]}
{"id": "C14", "title": "Handles are assigned and stable", "statement": "After gotcha_wrap returns, every handle variable passed in denotes its own binding (never NULL, never shared), and no later GOTCHA operation with other handle variables changes it.", "quantifier": "all histories", "why_tests_cant": "Stability over all future operations by other tools.", "anchors": ["src/tool.c:add_binding_to_tool", "src/gotcha.c:setBindingAddressPointer", "src/gotcha.c:gotcha_wrap"]}
{"id": "C15", "title": "dlsym of a wrapped function returns its outermost wrapper", "statement": "dlsym called through GOTCHA for a wrapped function whose real address is the function GOTCHA wrapped returns the outermost wrapper of its stack.", "quantifier": "all reachable states, all handles, all names, any number of tools on the stack", "why_tests_cant": "test/dlopen uses a single tool.", "anchors": ["src/gotcha_dl.c:dlsym_wrapper"]}
{"id": "C16", "title": "dlsym is transparent for functions that are not wrapped", "statement": "For a name that no tool has wrapped and a handle other than RTLD_NEXT, dlsym through GOTCHA returns exactly what the real dlsym returns, and changes no GOTCHA state; for a wrapped name that resolves to a different, non-NULL function it returns that function.", "quantifier": "all reachable states, handles, names", "why_tests_cant": "Ranges over all names and states.", "anchors": ["src/gotcha_dl.c:dlsym_wrapper"]}
{"id": "C17", "title": "dlsym(RTLD_NEXT) searches after the caller", "statement": "For a name that is not wrapped, dlsym(RTLD_NEXT, name) through GOTCHA selects the first library that exports name strictly after the calling library in link order, and NULL if there is none.", "quantifier": "all link maps, all caller addresses inside a mapped segment, all names", "why_tests_cant": "Ranges over all link maps and segment layouts.", "anchors": ["src/gotcha_dl.c:gotchas_dlsym_rtld_next_lookup", "src/gotcha_dl.c:lib_header_callback"]}
{"id": "C18", "title": "Filtered-out libraries are never modified", "statement": "A library that the active filter rejects at the time of an operation has none of its relocation slots changed by that operation.", "quantifier": "all operations, states, filters", "why_tests_cant": "Frame property for all libraries.", "anchors": ["src/gotcha.c:update_library_got", "src/library_filters.c:libraryFilterFunc"]}
{"id": "C19", "title": "Meaning of the built-in filters", "statement": "gotcha_filter_libraries_by_name(s) accepts exactly the libraries whose name contains s; gotcha_only_filter_last accepts exactly the last library of the link map; gotcha_restore_library_filter_func accepts all; a user function is consulted as is; the latest call wins.", "quantifier": "all sequences of filter calls, all strings, all link maps", "why_tests_cant": "Substring search over all strings.", "anchors": ["src/library_filters.c:trueIfNameMatches", "src/library_filters.c:trueIfLast", "src/library_filters.c:gotcha_restore_library_filter_func", "src/libc_wrappers.c:gotcha_strstr"]}
{"id": "C20", "title": "No library is wrongly considered up to date", "statement": "A loaded, accepted library is skipped as already up to date only if all of its slots for wrapped functions already hold the outermost wrappers.", "quantifier": "all histories, including more than 2^32 gotcha_wrap calls", "why_tests_cant": "The generation counter is a 32-bit unsigned int: 2^32 wraps cannot be tested.", "anchors": ["src/gotcha_utils.c:current_generation", "src/gotcha.c:update_library_got"]}
{"id": "C21", "title": "Unloading and reloading a library keeps it wrapped", "statement": "After dlclose and a new dlopen of a library, its call sites to wrapped functions are redirected.", "quantifier": "all histories with dlclose, including reuse of the link_map address", "why_tests_cant": "Address reuse by the loader is not controllable from a test.", "anchors": ["src/gotcha_utils.c:get_library", "src/gotcha.c:update_library_got", "src/gotcha_dl.c:dlopen_wrapper"]}
{"id": "C22", "title": "A constructor may call gotcha_wrap during dlopen", "statement": "If a library being dlopened calls gotcha_wrap from its constructor, the call sites of that library to functions wrapped earlier are still redirected when dlopen returns.", "quantifier": "all histories with wraps inside dlopen", "why_tests_cant": "Order-dependent interaction of two code paths.", "anchors": ["src/gotcha_dl.c:dlopen_wrapper", "src/gotcha.c:gotcha_wrap", "src/gotcha.c:update_library_got"]}
{"id": "C23", "title": "Libraries loaded behind GOTCHA's back are redirected at the next dlopen", "statement": "A library loaded without going through GOTCHA's dlopen is fully redirected (for all wrapped functions) after the next intercepted dlopen, whatever gotcha_wrap calls happened in between.", "quantifier": "all histories mixing intercepted and non-intercepted loads", "why_tests_cant": "History-dependent.", "anchors": ["src/gotcha_dl.c:dlopen_wrapper", "src/gotcha.c:update_library_got"]}
{"id": "C24", "title": "Priority read-back", "statement": "After gotcha_set_priority(t, v), gotcha_get_priority(t) succeeds and yields v until the next gotcha_set_priority(t, _), whatever else happens; a tool never given a priority reads -1; setting one tool's priority never changes another's.", "quantifier": "all histories, all tool names, all int values", "why_tests_cant": "All interleavings of tools.", "anchors": ["src/gotcha.c:gotcha_set_priority", "src/gotcha.c:gotcha_get_priority", "src/tool.c:get_configuration_value"]}
{"id": "C25", "title": "Unknown tools are reported", "statement": "gotcha_get_priority on a name never used in gotcha_wrap or gotcha_set_priority returns GOTCHA_INVALID_TOOL and does not write the output; on a used name it returns GOTCHA_SUCCESS.", "quantifier": "all histories and names", "why_tests_cant": "All histories.", "anchors": ["src/tool.c:get_configuration_value", "src/tool.c:get_tool"]}
{"id": "C26", "title": "Tool registry integrity", "statement": "The registry lists each tool name used so far exactly once, loses none, and is ordered by non-decreasing priority, after any sequence of tool creations and priority changes.", "quantifier": "all sequences of create / set_priority", "why_tests_cant": "Linked-list surgery must be right for every list shape.", "anchors": ["src/tool.c:create_tool", "src/tool.c:reorder_tool", "src/tool.c:remove_tool_from_list", "src/tool.c:get_tool"]}
{"id": "C27", "title": "API calls terminate without memory faults", "statement": "On a process with well-formed libraries, any sequence of gotcha_wrap, gotcha_set_priority, gotcha_get_priority, filter and intercepted dlopen calls terminates: no null dereference, no division by zero, no out-of-bounds table access, no endless probing or list cycle, recursion depth at most two.", "quantifier": "all well-formed processes, all call sequences", "why_tests_cant": "Termination and absence of faults over all inputs.", "anchors": ["src/gotcha.c:gotcha_wrap", "src/gotcha_utils.c:gotcha_init", "src/hash.c", "src/tool.c"]}
{"id": "C28", "title": "The hash table is a map", "statement": "Starting from a created table, lookup returns the data most recently added under an equal key and not removed since, fails (-1) for keys not present; add returns 0; remove returns 0 exactly when the key was present; other keys are unaffected.", "quantifier": "all sequences of add (of keys not present), remove and lookup; all hash functions (in particular all collisions); all table sizes, across growth and tombstones", "why_tests_cant": "Collision patterns, tombstones and growth interact; the unit test uses one key sequence.", "anchors": ["src/hash.c:addto_hashtable", "src/hash.c:lookup_hashtable", "src/hash.c:removefrom_hashtable", "src/hash.c:insert", "src/hash.c:lookup"]}
{"id": "C29", "title": "Duplicate adds behave as a multiset", "statement": "If a key is added several times, every copy stays in the table; lookup returns the data of one of the copies and fails only if there is none; each remove deletes exactly one copy with that key and leaves everything else.", "quantifier": "all sequences of add, remove and lookup", "why_tests_cant": "Which copy is found depends on probe order and tombstones.", "anchors": ["src/hash.c:insert", "src/hash.c:lookup", "src/hash.c:removefrom_hashtable"]}
{"id": "C30", "title": "Enumeration visits each entry exactly once", "statement": "foreach_hash_entry calls the callback exactly once for each entry present, newest first as long as the table has not been regrown, and stops at the first nonzero result which it returns.", "quantifier": "all reachable tables", "why_tests_cant": "The doubly linked list threads through array slots and must stay consistent with the array.", "anchors": ["src/hash.c:foreach_hash_entry", "src/hash.c:insert", "src/hash.c:removefrom_hashtable", "src/hash.c:grow_hashtable"]}
{"id": "C31", "title": "Entries may be deleted while enumerating", "statement": "If the callback removes the entry it is given, foreach_hash_entry still visits every entry that was present at the start exactly once, and afterwards exactly the removed ones are gone.", "quantifier": "all reachable tables, all choices of which entries to remove", "why_tests_cant": "Iterate-and-delete idiom: depends on stale links in tombstones.", "anchors": ["src/hash.c:foreach_hash_entry", "src/hash.c:removefrom_hashtable", "src/gotcha_dl.c:per_binding"]}
{"id": "C32", "title": "The table never fills up and probing terminates", "statement": "Before every insertion at least half of the slots are not in use, so insertion always finds a free slot, growth terminates, keeps all entries, and at least doubles the size; a lookup inspects each slot at most once.", "quantifier": "all reachable tables of nonzero size", "why_tests_cant": "Termination for all states, including tables with no empty slot left (tombstones only).", "anchors": ["src/hash.c:addto_hashtable", "src/hash.c:grow_hashtable", "src/hash.c:insert", "src/hash.c:lookup"]}
{"id": "C33", "title": "Each library is tracked separately", "statement": "The per-library record found for a link_map is the one that was added for that very link_map.", "quantifier": "all sets of link_maps, all addresses and names", "why_tests_cant": "Requires a 32-bit hash collision and a particular address order.", "anchors": ["src/gotcha_utils.c:link_map_cmp", "src/gotcha_utils.c:link_map_hash", "src/gotcha_utils.c:get_library", "src/gotcha_utils.c:add_library"]}
{"id": "C34", "title": "Symbol lookup is sound", "statement": "When the symbol lookup in a library returns an index, that symbol's name is exactly the requested name.", "quantifier": "all libraries (any contents of the hash tables), all names", "why_tests_cant": "All binary contents.", "anchors": ["src/elf_ops.c:lookup_gnu_hash_symbol", "src/elf_ops.c:lookup_elf_hash_symbol"]}
{"id": "C35", "title": "GNU hash lookup is complete", "statement": "For a library whose DT_GNU_HASH table is well formed in the sense of the GNU ABI, the lookup finds every symbol covered by the table.", "quantifier": "all well-formed GNU hash tables, all symbol names (any byte values)", "why_tests_cant": "All names, including bytes >= 0x80.", "anchors": ["src/elf_ops.c:gnu_hash_func", "src/elf_ops.c:lookup_gnu_hash_symbol"]}
{"id": "C36", "title": "The newest version of a symbol is selected", "statement": "When a library defines several versions of a symbol, the lookup returns one with the largest version index (hidden bit ignored); without version information it returns the first match in chain order.", "quantifier": "all version tables", "why_tests_cant": "test/symver has two versions.", "anchors": ["src/elf_ops.c:lookup_gnu_hash_symbol", "src/elf_ops.c:lookup_elf_hash_symbol"]}
{"id": "C37", "title": "SysV hash lookup is complete", "statement": "For a library whose DT_HASH table is well formed, the lookup finds every symbol covered by the table, and the hash used is the one of the System V ABI with a result below 2^28.", "quantifier": "all well-formed tables, all names", "why_tests_cant": "All names and tables; most test systems only have GNU hash.", "anchors": ["src/elf_ops.c:elf_hash", "src/elf_ops.c:lookup_elf_hash_symbol"]}
{"id": "C38", "title": "Every PLT/GOT relocation is processed", "statement": "For every library whose dynamic section describes PLT relocations and/or ordinary relocations, each relocation of both tables of the library's relocation flavour is offered exactly once for redirection, with its own offset and symbol name.", "quantifier": "all dynamic sections", "why_tests_cant": "All combinations of dynamic tags.", "anchors": ["src/elf_ops.h:INIT_DYNAMIC", "src/elf_ops.h:FOR_EACH_PLTREL", "src/elf_ops.h:FOR_EACH_PLTREL_INT"]}
{"id": "C39", "title": "Functions are resolved in link order", "statement": "The address GOTCHA binds for a function is that of the first library in link order (the vdso excepted) that exports the name with nonzero size; the address is the symbol value plus the load address; gnu-hash is consulted before sysv-hash.", "quantifier": "all link maps and names", "why_tests_cant": "All link maps.", "anchors": ["src/gotcha.c:lookup_exported_symbol", "src/gotcha.c:prepare_symbol"]}
{"id": "C40", "title": "The wrappee behaves as the function it replaces", "statement": "The address handed to a wrapper as wrappee is the address a direct call would have reached, for every exported function.", "quantifier": "all exported function symbols, including IFUNC symbols and symbols without size", "why_tests_cant": "Depends on symbol kinds chosen by library authors.", "anchors": ["src/gotcha.c:lookup_exported_symbol", "src/elf_ops.h:GOTCHA_CHECK_VISIBILITY"]}
{"id": "C41", "title": "Memory to be patched is made writable first", "statement": "Before slots of a library with a DT_PLTGOT are rewritten, the pages made writable are page aligned, cover the whole RELRO segment of that library and the first page of its PLT GOT, and nothing outside the pages of these two regions.", "quantifier": "all load addresses, segment sizes, and power-of-two page sizes (no address wrap-around)", "why_tests_cant": "Arithmetic over all addresses.", "anchors": ["src/gotcha.c:mark_got_writable", "src/gotcha.c:find_relro_boundary", "src/gotcha_utils.h:BOUNDARY_BEFORE"]}
{"id": "C42", "title": "Internal string comparison decides equality and order", "statement": "gotcha_strcmp returns 0 exactly for equal strings, and gotcha_strncmp exactly when the first n bytes agree; the sign of the result is that of the C library functions.", "quantifier": "all strings, all n", "why_tests_cant": "All strings.", "anchors": ["src/libc_wrappers.c:gotcha_strcmp", "src/libc_wrappers.c:gotcha_strncmp"]}
{"id": "C43", "title": "Internal substring search", "statement": "gotcha_strstr returns non-NULL exactly when the (nonempty) needle occurs in the haystack, and then points to the first occurrence in the haystack.", "quantifier": "all strings", "why_tests_cant": "All strings.", "anchors": ["src/libc_wrappers.c:gotcha_strstr"]}
{"id": "C44", "title": "Internal getenv", "statement": "gotcha_getenv(name) returns the value of the first environment entry of the form name=value, and NULL if there is none.", "quantifier": "all environments and names", "why_tests_cant": "All environments.", "anchors": ["src/libc_wrappers.c:gotcha_getenv"]}
{"id": "C45", "title": "Internal atoi", "statement": "gotcha_atoi returns the value of the leading decimal digits, negated once per leading '-', for every value that fits an int, without overflow.", "quantifier": "all strings", "why_tests_cant": "All digit strings; overflow only at the boundary.", "anchors": ["src/libc_wrappers.c:gotcha_atoi"]}
{"id": "C46", "title": "Decimal printing round-trips", "statement": "Printing an unsigned or signed long in decimal yields its canonical decimal representation (no leading zeros), within the buffer, and reading it back gives the number.", "quantifier": "all 64-bit values and buffer sizes", "why_tests_cant": "2^64 values.", "anchors": ["src/libc_wrappers.c:ulong_to_str", "src/libc_wrappers.c:slong_to_str"]}
{"id": "C47", "title": "Hexadecimal printing round-trips", "statement": "Printing an unsigned long in hexadecimal yields its canonical representation in the requested case, within the buffer, and reading it back with the maps parser gives the number and length.", "quantifier": "all 64-bit values, both cases, all buffer sizes", "why_tests_cant": "2^64 values.", "anchors": ["src/libc_wrappers.c:ulong_to_hexstr", "src/gotcha_auxv.c:read_hex"]}
{"id": "C48", "title": "Debug printf prints what the format says", "statement": "gotcha_int_printf writes exactly the expansion of the format and returns its length.", "quantifier": "all formats, all argument lists of matching types, any output length", "why_tests_cant": "Buffer boundary effects only show at particular lengths.", "anchors": ["src/libc_wrappers.c:gotcha_int_printf", "src/libc_wrappers.c:add_to_buffer"]}
{"id": "C49", "title": "Internal malloc returns disjoint memory", "statement": "All blocks handed out by gotcha_malloc and not yet freed are pairwise disjoint, disjoint from allocator metadata, lie in memory obtained from mmap, are 8-byte aligned and at least as large as requested.", "quantifier": "all sequences of malloc, free, realloc with in-bounds user writes; all sizes", "why_tests_cant": "All allocation histories; the tests use one pattern.", "anchors": ["src/libc_wrappers.c:gotcha_malloc", "src/libc_wrappers.c:split_allocation", "src/libc_wrappers.c:gotcha_free"]}
{"id": "C50", "title": "Block contents are preserved", "statement": "What the program stored in a live block stays unchanged until the program overwrites or frees it, whatever other allocator calls happen; gotcha_realloc preserves the old contents.", "quantifier": "all sequences of malloc, free, realloc and in-bounds user writes", "why_tests_cant": "All allocation histories.", "anchors": ["src/libc_wrappers.c:gotcha_malloc", "src/libc_wrappers.c:gotcha_realloc", "src/libc_wrappers.c:gotcha_free"]}
{"id": "C51", "title": "Internal memory and string primitives", "statement": "gotcha_memcpy and gotcha_memset change exactly the n destination bytes; gotcha_strlen/gotcha_strnlen return the length (capped); gotcha_strncat appends at most n bytes of the source and terminates the result; none accesses memory outside the arguments' extent.", "quantifier": "all memories, arguments and sizes", "why_tests_cant": "All sizes; out-of-bounds reads do not show in tests.", "anchors": ["src/libc_wrappers.c:gotcha_memcpy", "src/libc_wrappers.c:gotcha_memset", "src/libc_wrappers.c:gotcha_strlen", "src/libc_wrappers.c:gotcha_strnlen", "src/libc_wrappers.c:gotcha_strncat"]}
{"id": "C52", "title": "Page size comes from the auxiliary vector", "statement": "gotcha_getpagesize returns the AT_PAGESZ value of the process's auxiliary vector, 4096 if it cannot be read or has none, and the same value on each call.", "quantifier": "all auxiliary vectors that fit the 4096-byte buffer, all read chunkings", "why_tests_cant": "All chunkings of read(2).", "anchors": ["src/gotcha_auxv.c:parse_auxv_contents", "src/gotcha_auxv.c:get_auxv_pagesize", "src/libc_wrappers.c:gotcha_getpagesize"]}
{"id": "C53", "title": "The vdso and only the vdso is skipped", "statement": "The library recognised as the vdso is the one whose image the kernel mapped as vdso; at most one library is ever treated as the vdso and the answer never changes.", "quantifier": "all link maps and auxiliary vectors", "why_tests_cant": "Depends on address layout.", "anchors": ["src/gotcha_auxv.c:is_vdso", "src/gotcha_auxv.c:get_vdso_from_auxv", "src/gotcha_auxv.c:get_vdso_from_aliases", "src/gotcha_auxv.c:get_vdso_from_maps"]}
{"id": "C54", "title": "Parsing /proc/self/maps", "statement": "For every well-formed maps line, the parser extracts the begin and end address and the pathname exactly; the vdso search finds the line named [vdso].", "quantifier": "all address ranges, permissions, offsets, inodes and names that fit the line buffer", "why_tests_cant": "All line contents.", "anchors": ["src/gotcha_auxv.c:get_vdso_from_maps", "src/gotcha_auxv.c:read_line", "src/gotcha_auxv.c:read_hex", "src/gotcha_auxv.c:read_word"]}
{"id": "C55", "title": "Version macros order versions lexicographically", "statement": "GOTCHA_GET_VERSION compares as (major, minor, patch) lexicographically for minor < 1000 and patch < 100, and the MAJOR/MINOR/PATCH macros recover the components.", "quantifier": "all versions in range", "why_tests_cant": "Unbounded domain.", "anchors": ["cmake/gotcha_config.h.in"]}
{"id": "C56", "title": "Debug level from the environment", "statement": "Debug output is enabled exactly if GOTCHA_DEBUG is set, with the level given by its value and at least 1.", "quantifier": "all environments", "why_tests_cant": "All environment values.", "anchors": ["src/gotcha_utils.c:debug_init"]}
{"id": "C57", "title": "Changing the library filter never leaves a stale library", "statement": "If the library filter changes so that a previously rejected library becomes accepted, then after the next gotcha_wrap or dlopen the library's call sites to all wrapped functions are redirected.", "quantifier": "all histories with filter changes", "why_tests_cant": "Depends on the interleaving of filter changes, wraps and loads.", "anchors": ["src/library_filters.c:gotcha_set_library_filter_func", "src/gotcha.c:update_library_got", "src/gotcha.c:gotcha_wrap"]}
{"id": "C58", "title": "Freed memory is reused", "statement": "After a block of n bytes was freed, a request of at most n bytes succeeds without asking the kernel for memory; freeing or reallocating NULL is harmless, as in the C library.", "quantifier": "all sequences of malloc, free, realloc with in-bounds user writes", "why_tests_cant": "All allocation histories and free-list shapes.", "anchors": ["src/libc_wrappers.c:gotcha_malloc", "src/libc_wrappers.c:gotcha_free", "src/libc_wrappers.c:gotcha_realloc"]}
{"id": "C59", "title": "The list of known libraries is well formed", "statement": "After any history, walking library_list visits every library record exactly once, the most recently recorded first, and following prev_lib from any record leads back to the one visited before it.", "quantifier": "all histories of API calls, loads and unloads", "why_tests_cant": "Depends on arbitrary histories.", "anchors": ["src/gotcha_utils.c:add_library", "src/gotcha.c:update_library_got"]}
{"id": "C60", "title": "The registry of bindings holds what the tools wrapped", "statement": "After any history get_bindings lists the arrays passed to gotcha_wrap (apart from GOTCHA's own), newest first, each element pointing back to its table and to the user's binding; each tool lists exactly its own arrays, newest first; and looking a function name up in the table of an array with distinct names gives that array's element, and nothing for other names.", "quantifier": "all histories, all arrays of bindings and tools", "why_tests_cant": "All histories and array sizes.", "anchors": ["src/tool.c:add_binding_to_tool", "src/tool.c:get_bindings", "src/tool.c:get_tool_bindings"]}
{"id": "C61", "title": "Removing a library forgets exactly that library", "statement": "After any sequence of recording and removing libraries, the list holds exactly the libraries recorded and not removed since, newest first, with consistent links, and get_library finds exactly these; removing an unknown library changes nothing.", "quantifier": "all sequences of get_library/add_library/remove_library on any libraries", "why_tests_cant": "All sequences, and all coincidences of hash values.", "anchors": ["src/gotcha_utils.c:remove_library", "src/gotcha_utils.c:add_library", "src/gotcha_utils.c:get_library"]}
{"id": "C62", "title": "A failed assertion reports where and what", "statement": "gotcha_assert_fail writes 'file:line: function: Assertion `expression' failed.' and a newline to standard error, for every file name, line, function and expression. The assertion in the code never fails.", "quantifier": "all strings and all line numbers", "why_tests_cant": "The code only runs when something else is broken; it is excluded from coverage.", "anchors": ["src/libc_wrappers.c:gotcha_assert_fail"]}
{"id": "C63", "title": "gotcha_open passes on the mode", "statement": "gotcha_open passes the mode argument to the kernel whenever the flags make the kernel use it, and reads no argument otherwise.", "quantifier": "all flags and modes", "why_tests_cant": "GOTCHA itself only opens files for reading.", "anchors": ["src/libc_wrappers.c:gotcha_open"]}
{"id": "C64", "title": "Running out of memory is reported", "statement": "If GOTCHA cannot get memory during a call, the call does not crash: gotcha_wrap and gotcha_set_priority return GOTCHA_INTERNAL and nothing has been installed; if they return anything else, everything they promise holds. Without such failures the result does not depend on the allocator.", "quantifier": "all histories of calls, all sequences of answers of the allocator", "why_tests_cant": "Failures of the allocator have to be injected, at every allocation and in every combination; the error paths are excluded from coverage.", "anchors": ["src/gotcha.c:gotcha_wrap", "src/gotcha.c:gotcha_set_priority", "src/tool.c:create_tool", "src/tool.c:add_binding_to_tool", "src/hash.c:create_hashtable", "src/hash.c:grow_hashtable", "src/gotcha_utils.c:add_library", "src/gotcha_utils.c:setup_hash_tables"]}
{"id": "C65", "title": "Only writable memory is written", "statement": "Whenever GOTCHA rewrites a relocation slot, the memory of the slot is writable at that moment: the loader left it writable, or GOTCHA has had it made writable since the library was loaded. A slot whose pages cannot be made writable is left alone.", "quantifier": "all histories of loading, unloading and calls, all layouts of the libraries in memory, all answers of mprotect", "why_tests_cant": "A store to a read-only page kills the process; whether it happens depends on how each library was linked (RELRO, with or without a PLT) and on the kernel's answers.", "anchors": ["src/gotcha.c:mark_got_writable", "src/gotcha.c:find_relro_boundary", "src/gotcha.c:update_library_got", "src/gotcha.c:update_lib_bindings"]}
{"id": "C66", "title": "GOTCHA's own layer is the innermost", "statement": "On a stack on which GOTCHA itself has a wrapper (dlopen, dlsym), GOTCHA's own wrapper lies directly outside the original function and the wrappers of all tools lie outside it, ordered by priority (docs/api.rst: \"The lowest layer is the system call followed by GOTCHA layer and finally other tools based on priority\").", "quantifier": "for all processes, all histories in which priorities are set before wrapping, and all tools and priorities", "why_tests_cant": "Depends on the combination of priorities of all tools that wrap dlopen or dlsym; the tests do not wrap them with more than one tool.", "anchors": ["docs/api.rst", "src/gotcha.c:gotcha_init", "src/tool.c:get_configuration_value", "src/gotcha.c:rewrite_wrapper_orders"]}
{"id": "C67", "title": "Wrapped functions can be called while GOTCHA is at work", "statement": "While a call of GOTCHA is under way, other threads and signal handlers can call wrapped functions: after each of GOTCHA's stores, every wrapper that was installed before or that some GOT slot holds by then has a wrappee, and following the wrappees - even at different moments - leads through wrappers of that function, each at most once and in the order of the final stack, to the original function.", "quantifier": "all histories, all operations, every moment between two stores, all interleavings of the wrappee lookups of a call with the stores", "why_tests_cant": "The windows are a few instructions long; a test would have to stop GOTCHA between any two stores.", "anchors": ["src/gotcha.c:gotcha_wrap", "src/gotcha.c:insert_at_head", "src/gotcha.c:insert_after_pos", "src/gotcha.c:prepare_symbol", "src/gotcha.c:update_all_library_gots", "src/gotcha_dl.c:per_binding", "src/gotcha_dl.c:dlopen_wrapper"]}
{"id": "C68", "title": "Names with a meaning", "statement": "Every wrapper in a chain is one a client asked for, under the function name it gave and the tool name it gave ('[UNSPECIFIED]' for NULL), or one of GOTCHA's own four of tool 'gotcha': those of dlopen and dlsym appear with the first API call, those of __libc_start_main and main once somebody wraps main, and nothing else ever appears.", "quantifier": "all histories, all function and tool names", "why_tests_cant": "A misspelt name shows only when the one function or tool concerned is used; the absence of further wrappers concerns all names.", "anchors": ["src/gotcha.c:gotcha_wrap", "src/gotcha_utils.c:gotcha_init", "src/translations.c:main_wrappers", "src/gotcha_dl.c:dl_binds"]}
{"id": "C69", "title": "Tool names belong to the caller", "statement": "A tool is identified by the string given as its name at the time of the call: what the program later writes into the buffer that held the name changes neither which tool a name means nor any priority or return code.", "quantifier": "all histories of API calls and of writes to the buffers that hold the names", "why_tests_cant": "Tests give tool names as string literals, which never change.", "anchors": ["src/tool.c:create_tool", "src/tool.c:get_tool", "src/gotcha.c:gotcha_set_priority"]}
{"id": "C70", "title": "From ELF tables to calls", "statement": "Every word that the relocation tables of a loaded, accepted library (read according to the ELF format) name for a wrapped function leads a call through all wrappers installed for this function, each once, and then into the function of this name that a loaded library's symbol table contains; GOTCHA changes no other word of memory.", "quantifier": "all histories, all libraries with well-formed tables, all function names", "why_tests_cant": "Needs every possible layout of dynamic sections, hash tables and relocation tables together with every history of wraps, loads and unloads.", "anchors": ["src/elf_ops.h:FOR_EACH_PLTREL", "src/gotcha.c:lookup_exported_symbol", "src/gotcha.c:update_lib_bindings", "src/gotcha.c:gotcha_wrap"]}
{"id": "C72", "title": "First API calls of several threads", "statement": "Several threads call gotcha_wrap, gotcha_set_priority or gotcha_get_priority, with or without GOTCHA being initialised: no call crashes, and when all calls have returned, the state of GOTCHA and the return values are those of making the calls one after the other in some order.", "quantifier": "all processes, all numbers of threads and calls, all schedules (at the granularity of the parts of gotcha_init)", "why_tests_cant": "The window between setting the flag and creating the tables is a few instructions; a test hits it rarely, and a passing test says nothing about other schedules.", "anchors": ["src/gotcha_utils.c:gotcha_init", "src/gotcha_utils.c:setup_hash_tables", "src/gotcha_dl.c:handle_libdl", "src/gotcha.c:gotcha_wrap", "src/gotcha.c:gotcha_set_priority", "src/gotcha.c:gotcha_get_priority"]}
{"id": "C73", "title": "dlsym and reference counts", "statement": "A call of dlsym, which goes through GOTCHA's wrapper, leaves every library's reference count as it is, with any handle including RTLD_NEXT: the program's dlclose calls unload the same libraries as without GOTCHA.", "quantifier": "all processes, all handles and names, all sequences of lookups, all reference counts", "why_tests_cant": "A leaked reference shows only when a program counts on a library being unloaded; the number of lookups is unbounded.", "anchors": ["src/gotcha_dl.c:dlsym_wrapper", "src/gotcha_dl.c:gotchas_dlsym_rtld_next_lookup"]}
{"id": "C71", "title": "Debug messages are printed as their formats say, and only when asked for", "statement": "Without GOTCHA_DEBUG no message is written and no argument of a message is read. With it, each message that the level enables is written to standard error in one piece, with the text the C standard's printf gives for its format and arguments: every format asks for exactly the arguments passed, with their types, and the library answers a name or file name that is NULL like any other.", "quantifier": "all messages of the library, all debug levels, all arguments and memories", "why_tests_cant": "The messages depend on the level, on the failing path that reaches them and on the arguments; most of them are never seen in a test, and a wrong argument type shows only for some values.", "anchors": ["src/gotcha_utils.h:debug_printf", "src/gotcha_utils.h:error_printf", "src/gotcha.c:gotcha_wrap", "src/gotcha_dl.c:dlopen_wrapper"]}
{"id": "C74", "title": "The bindings array is used in place", "statement": "GOTCHA does not copy the array given to gotcha_wrap (docs/api.rst). A program that leaves the elements it has given to gotcha_wrap alone sees exactly what it would see if they had been copied: the same return values, function tables, handles and slots, whatever it does with other elements of its arrays. Overwriting a given element changes no slot and no wrappee at once; but when it was the outermost wrapper of a function, the next library loaded with dlopen is redirected to the wrapper that the element now holds.", "quantifier": "all processes, all arrays, all sequences of stores, API calls, loads and unloads; the last part when all wrapped functions have been found", "why_tests_cant": "Tests use constant global arrays; what a reused array does depends on when libraries are loaded later.", "anchors": ["src/tool.c:add_binding_to_tool", "src/gotcha.c:gotcha_wrap", "src/gotcha.c:update_lib_bindings", "src/gotcha_dl.c:dlopen_wrapper"]}
{"id": "C75", "title": "A dlopen that brings nothing changes nothing", "statement": "Once a dlopen has returned, the work GOTCHA does at the end of further dlopens makes no store, no mprotect call and changes no wrappee, handle or record, if meanwhile nothing was wrapped, no library has come and none is accepted by the filter that was not; a dlopen that fails or names a library already loaded therefore costs the process nothing.", "quantifier": "all processes whose libraries have distinct link_map hashes, all histories, and any priority changes, unloads and writes by the program in between", "why_tests_cant": "A test sees that nothing visible broke after a repeated dlopen, not that no record, wrappee or slot was touched for any history before it.", "anchors": ["src/gotcha_dl.c:dlopen_wrapper", "src/gotcha_dl.c:per_binding", "src/gotcha.c:update_all_library_gots", "src/gotcha.c:update_library_got", "src/gotcha.c:prepare_symbol"]}
{"id": "C76", "title": "What becomes of a function depends only on what concerns it", "statement": "Two histories with the same loads, filters, priorities and calls, whose calls of gotcha_wrap have the same bindings of a function n but arbitrary bindings of other functions, give n the same wrappers in the same order, the same original function, the same wrappees and the same content of its call sites.", "quantifier": "all functions n other than __libc_start_main (which main brings along), all pairs of such histories of all processes", "why_tests_cant": "It compares two executions; a test would have to run every program twice with all choices of the other bindings.", "anchors": ["src/gotcha.c:gotcha_wrap", "src/gotcha.c:rewrite_wrapper_table", "src/gotcha.c:update_lib_bindings", "src/tool.c:add_binding_to_tool"]}
{"id": "C77", "title": "Grouping and order of gotcha_wrap calls", "statement": "Binding functions in one call of gotcha_wrap or in several consecutive calls by the same tool, and exchanging two consecutive calls that have no function in common, makes no difference: wrappers, their order, original functions, wrappees and the content of the call sites are the same, every call reports what it reported before, and a call that was split reports the first failure of its parts.", "quantifier": "all histories of all processes, any number of such regroupings anywhere in the history; main and __libc_start_main count as one function", "why_tests_cant": "It compares executions with all partitions and orders of the bindings; a test would have to run each of them.", "anchors": ["src/gotcha.c:gotcha_wrap", "src/gotcha.c:rewrite_wrapper_table", "src/gotcha.c:rewrite_wrapper_orders", "src/tool.c:add_binding_to_tool"]}
{"id": "C78", "title": "Tool names and priority values matter only by identity and order", "statement": "Renaming the tools of a history and replacing the priorities by others in the same order changes nothing but the priorities that gotcha_get_priority reads back: every call faults or succeeds as before with the same code, and memory, written words, outermost wrappers, wrappees and the answers of dlsym are the same.", "quantifier": "all histories of all processes, all injective renamings of tools that leave 'gotcha' and '[UNSPECIFIED]' alone, all strictly increasing maps of priorities that fix the default -1", "why_tests_cant": "It compares every execution with infinitely many renamed ones.", "anchors": ["src/tool.c:create_tool", "src/tool.c:get_tool", "src/tool.c:get_configuration_value", "src/tool.c:get_priority", "src/gotcha.c:rewrite_wrapper_table", "src/gotcha.c:gotcha_set_priority"]}
{"id": "C79", "title": "What memory held before makes no difference", "statement": "Whatever the words of memory hold when the process starts and after each load and unload - the function, the dynamic linker's resolver stub, or anything else - every call returns the same, writes the same values to the same words in the same order, and leaves the same wrappers, wrappees and dlsym answers; a word that GOTCHA writes holds the same afterwards, every other word is left as it was.", "quantifier": "all histories of all processes and all contents of memory; in particular lazy and eager binding", "why_tests_cant": "It compares executions over all contents of all slots.", "anchors": ["src/gotcha.c:update_lib_bindings", "src/gotcha.c:prepare_symbol", "src/gotcha.c:gotcha_wrap_impl", "src/gotcha_dl.c:dlsym_wrapper"]}
{"id": "C80", "title": "Asking for a priority leaves no trace", "statement": "A call of gotcha_get_priority after GOTCHA was first used changes nothing: without it, the state afterwards and the results of all other calls, before and after it, are the same.", "quantifier": "all processes, all histories, all places after the first call of the API", "why_tests_cant": "It compares executions that differ by one call at any place.", "anchors": ["src/gotcha.c:gotcha_get_priority", "src/tool.c:get_configuration_value", "src/gotcha.c:gotcha_init"]}
{"id": "C81", "title": "The filter's name belongs to the caller", "statement": "The library filter set by gotcha_filter_libraries_by_name is the string given at the time of the call: what the program later writes into the buffer that held it changes neither which libraries GOTCHA modifies nor any result.", "quantifier": "all histories of API calls, library loads and writes to buffers", "why_tests_cant": "Tests give the name as a string literal, which never changes.", "anchors": ["src/library_filters.c:gotcha_filter_libraries_by_name", "src/library_filters.c:trueIfNameMatches", "src/gotcha.c:update_all_library_gots"]}
{"id": "C82", "title": "Lookups while a table changes", "statement": "Between any two stores to a hash table made by an insertion or a removal, every lookup answers as it did before the operation or as it will after it. In particular, a signal handler that calls dlsym while gotcha_wrap puts a new outermost wrapper on a function gets the previous or the new outermost wrapper.", "quantifier": "all tables reachable by any history of insertions, removals and lookups, all keys, all moments between the stores; for dlsym all processes and all histories of API calls and library loads", "why_tests_cant": "A test cannot stop the program between two chosen stores, for every store and every state of the table.", "anchors": ["src/hash.c:insert", "src/hash.c:grow_hashtable", "src/hash.c:removefrom_hashtable", "src/gotcha.c:insert_at_head", "src/gotcha_dl.c:dlsym_wrapper"]}
{"id": "C83", "title": "A tool is its place in the order of priorities", "statement": "Tools matter only through the order of their priorities at the moment something is wrapped. Take two histories with the same gotcha_wrap calls, library loads and filters in the same order, which call GOTCHA for the first time at the same place. The gotcha_wrap calls may be made by other tools, and priorities may be set and asked for in any way. If, whenever something is wrapped, the tools of this and of the earlier calls, and GOTCHA's own tool, have priorities in the same order in both histories, then both histories have the same effects: the same memory, call sites, mprotect calls, wrappees, handles and results of dlsym, the same return values of gotcha_wrap, and the same crash if there is one. In particular, of several settings of a priority between two wrappings only the last counts, and as long as no priority is set it does not matter which tools call gotcha_wrap.", "quantifier": "all pairs of such histories, all tool names and priorities, all processes with a page size of at least 48, also those in which GOTCHA crashes", "why_tests_cant": "A statement about pairs of executions; a test compares a few chosen pairs.", "anchors": ["src/gotcha.c:gotcha_wrap", "src/gotcha.c:rewrite_wrapper_orders", "src/tool.c:create_tool", "src/tool.c:get_tool", "src/tool.c:reorder_tool", "src/tool.c:get_priority", "src/gotcha.c:gotcha_set_priority"]}
{"id": "C84", "title": "Calls of gotcha_wrap by several threads at once", "statement": "When several threads call gotcha_wrap at once, with GOTCHA initialised, no call crashes and every call returns what it would have returned had the threads' bindings been made one at a time in some order that keeps each thread's own order; afterwards every function has the outermost wrapper, every handle the wrappee, that this order gives, no binding is lost or doubled, and whatever is called later behaves the same; the call sites of every function bound are redirected, as they are when the calls are made one after the other.", "quantifier": "all processes, all histories, any number of threads and bindings, all schedules of the stages of the calls (set-up, each binding, update of the call sites)", "why_tests_cant": "The outcome depends on the interleaving; tests make their calls from one thread.", "anchors": ["src/gotcha.c:gotcha_wrap", "src/gotcha.c:rewrite_wrapper_orders", "src/gotcha.c:update_all_library_gots", "src/gotcha.c:update_library_got", "src/tool.c:add_binding_to_tool", "src/tool.c:create_tool"]}
{"id": "C85", "title": "gotcha_wrap while other threads load libraries or set priorities", "statement": "Calls of gotcha_wrap may overlap with one another and with dlopen, gotcha_set_priority, gotcha_get_priority, the library filter and the unloading of libraries in other threads. At every moment the process is as if the bindings and the other calls had been made one after the other in some order: nothing faults, every call returns what it would return there, the outermost wrappers and the wrappees are those of that sequence, and everything stored into the program is a wrapper of a function in a slot of that function. And the call sites of every wrapped function lead to its outermost wrapper once all the calls have returned.", "quantifier": "all processes, all histories, any number of threads and bindings, all schedules of the stages of gotcha_wrap and of whole other calls", "why_tests_cant": "Which call site is left out depends on a dlopen hitting the interval between the start of gotcha_wrap and its last stage; tests never load a library from one thread while another wraps.", "anchors": ["src/gotcha.c:gotcha_wrap", "src/gotcha.c:update_all_library_gots", "src/gotcha.c:update_library_got", "src/gotcha_dl.c:dlopen_wrapper", "src/tool.c:add_binding_to_tool", "src/gotcha.c:gotcha_set_priority"]}
{"id": "C86", "title": "Wrappers and handle variables matter only by identity", "statement": "Put the wrapper functions of a process, GOTCHA's own ones included, at other addresses, and use other handle variables, such that different ones stay different and the functions exported by the libraries stay where they are. Then the process behaves in the same way: every API call returns the same and faults in the same way if at all, the same pages are made writable, the same slots are written in the same order with the moved wrappers, and memory, wrappees, outermost wrappers and results of dlsym are the moved ones.", "quantifier": "all processes, all histories, all injective maps of addresses and handle variables that leave exported functions in place", "why_tests_cant": "Quantifies over pairs of runs in different address space layouts; a test sees the one layout its build and loader happened to choose.", "anchors": ["src/gotcha.c:gotcha_wrap", "src/gotcha.c:rewrite_wrapper_orders", "src/gotcha.c:update_lib_bindings", "src/gotcha.c:setInternalBindingAddressPointer", "src/gotcha.c:gotcha_get_wrappee", "src/tool.c:add_binding_to_tool", "src/gotcha_dl.c:dlsym_wrapper"]}
{"id": "C87", "title": "The cost of a lookup is bounded by the contents", "statement": "After any sequence of additions, removals and lookups, a lookup in a hash table looks at most at one slot more than have been used since the table was created or last grown, hence never at more than the additions so far plus one, and without removals at most at one more than there are entries; the search for a free slot looks at most at one slot more than there are entries, removals or not; and the table's size stays below four times the largest number of entries it ever had, or the size it was created with. In the table of wrapped functions a lookup therefore looks at most at one slot more than there are different function names wrapped so far, however often functions are wrapped again and reordered. In contrast, slots freed by removals are not given back: for every table size there is a history after which the table is empty and every unsuccessful lookup looks at every slot until the table grows.", "quantifier": "all key types, hash functions, page sizes, initial sizes and operation sequences; all histories of API calls, loads and unloads; all names looked up", "why_tests_cant": "A bound on work over unboundedly many operations; tests check results, not the number of slots inspected, and slow lookups after long churn return correct results.", "anchors": ["src/hash.c:lookup", "src/hash.c:insert", "src/hash.c:addto_hashtable", "src/hash.c:removefrom_hashtable", "src/hash.c:grow_hashtable", "src/gotcha.c:rewrite_wrapper_orders", "src/gotcha_dl.c:dlsym_wrapper"]}
{"id": "C88", "title": "Lookups in one thread while another adds and removes entries", "statement": "While one thread adds keys to a hash table and removes others, and the table does not grow, a lookup in another thread, whose reads are interleaved with the single stores of the additions and removals in any way, never crashes, ends after at most five reads per slot and one more, and returns what a lookup at some one moment between its start and its end would return: it finds every key that was there before and is not removed, every key whose addition was finished before it started, and no key whose addition had not begun when it ended. This requires that the keys removed have another hash value than the key looked up and that this hash value is not 0. In particular dlsym in one thread finds a function that was wrapped before while gotcha_wrap in another thread enters new functions and replaces the entries of other functions. If an addition makes the table grow there is always an interleaving in which the lookup crashes, and for every key there is an interleaving in which its lookup crashes alongside its removal, so dlsym of a function alongside a second gotcha_wrap of the same function can crash.", "quantifier": "all key types, hash functions, table histories, lists of additions and removals and interleavings of single reads and stores, seen in program order; all histories of API calls, loads and unloads for the table of wrapped functions", "why_tests_cant": "Depends on the order of single memory accesses of two threads; a test meets a handful of interleavings and the window between two stores is a few instructions.", "anchors": ["src/hash.c:lookup", "src/hash.c:lookup_hashtable", "src/hash.c:insert", "src/hash.c:addto_hashtable", "src/hash.c:removefrom_hashtable", "src/hash.c:grow_hashtable", "src/gotcha.c:rewrite_wrapper_orders", "src/gotcha_dl.c:dlsym_wrapper"]}
{"id": "C89", "title": "A pass over all entries in one thread while another adds and removes entries", "statement": "While one thread adds entries to a hash table and the table does not grow, foreach_hash_entry in another thread, whose reads are interleaved with the single stores of the additions in any way, never crashes, ends after at most three reads per entry and one more, and gives its callback exactly the entries the table had at some one moment between its start and its end, each once, the latest first, with key and data: all entries that were there before, all whose addition was finished before it started, and none whose addition had not begun when it ended. In particular dlopen in one thread looks at every function that is wrapped and has no original yet, once each, while gotcha_wrap in another thread enters further functions. For every entry there is an interleaving with its removal in which the callback is given a null key and null data, on which dlopen's callback crashes, so two calls of dlopen in two threads can crash. If an addition makes the table grow there is an interleaving in which the callback is given nothing at all, so that dlopen overlooks all waiting functions, and one in which the walk reads outside the table.", "quantifier": "all key types, hash functions, table histories, lists of additions and interleavings of single reads and stores, seen in program order; all histories of API calls, loads and unloads for the table of functions not found", "why_tests_cant": "Depends on the order of single memory accesses of two threads; the window in which the list is being relinked is a few instructions.", "anchors": ["src/hash.c:foreach_hash_entry", "src/hash.c:insert", "src/hash.c:addto_hashtable", "src/hash.c:removefrom_hashtable", "src/hash.c:grow_hashtable", "src/gotcha_dl.c:per_binding", "src/gotcha_dl.c:dlopen_wrapper", "src/gotcha.c:gotcha_wrap"]}
{"id": "C90", "title": "Two threads add an entry each to the same table at the same time", "statement": "When two threads add an entry each to the same hash table, and the table has room for both, then whatever the interleaving of their single reads and stores neither thread crashes, each returns after at most one step per slot and twelve more, and afterwards both entries are in the table: each key is found and a pass over the table gives both entries, once each, and ends. In particular two functions not found yet that are wrapped in two threads are both looked at by the next dlopen.", "quantifier": "all key types, hash functions, table histories, pairs of entries and interleavings of single reads and stores, seen in program order; all histories of API calls, loads and unloads for the table of functions not found", "why_tests_cant": "Depends on the order of single memory accesses of two threads; a lost link shows only when a later dlopen overlooks a function.", "anchors": ["src/hash.c:insert", "src/hash.c:addto_hashtable", "src/hash.c:foreach_hash_entry", "src/hash.c:lookup_hashtable", "src/gotcha.c:gotcha_wrap", "src/gotcha_dl.c:dlopen_wrapper"]}
{"id": "C91", "title": "One thread adds an entry to a table while another one removes an entry", "statement": "When one thread adds an entry to a hash table that has room for it while another thread removes an entry, then whatever the interleaving of their single reads and stores neither thread crashes, the addition returns after at most one step per slot and twelve more and the removal after at most sixteen, and afterwards a pass over the table gives the new entry and the others except the removed one, each with its key and data. In particular a function that is wrapped while dlopen takes another one, now found, off the table of functions not found is looked at by the next dlopen, which does not crash.", "quantifier": "all key types, hash functions, table histories, entries added and removed and interleavings of single reads and stores, seen in program order; all histories of API calls, loads and unloads for the table of functions not found", "why_tests_cant": "Depends on the order of single memory accesses of two threads; the damage shows only when a later dlopen goes over the table.", "anchors": ["src/hash.c:insert", "src/hash.c:addto_hashtable", "src/hash.c:removefrom_hashtable", "src/hash.c:foreach_hash_entry", "src/gotcha.c:gotcha_wrap", "src/gotcha_dl.c:per_binding"]}
{"id": "C92", "title": "Two threads remove an entry each of the same table at the same time", "statement": "When two threads remove an entry each of the same hash table, of the same key or of two keys, then whatever the interleaving of their single reads and stores neither thread crashes, each returns after at most sixteen steps, at most one of them reports that it removed a given entry, and afterwards the count of the table is the number of its entries, a pass over it gives exactly the entries not removed, and a further entry can be added. In particular two dlopen calls in two threads that find functions waiting to be found leave the table of functions not found in order.", "quantifier": "all key types, hash functions, table histories, pairs of keys and interleavings of single reads and stores, seen in program order; all histories of API calls, loads and unloads for the table of functions not found", "why_tests_cant": "Depends on the order of single memory accesses of two threads; a count that is off shows only when a later addition computes the size of the table.", "anchors": ["src/hash.c:removefrom_hashtable", "src/hash.c:addto_hashtable", "src/hash.c:foreach_hash_entry", "src/hash.c:lookup", "src/gotcha_dl.c:per_binding", "src/gotcha_dl.c:dlopen_wrapper"]}
{"id": "C93", "title": "One thread adds an entry for which the table grows while another one removes an entry", "statement": "When one thread adds an entry to a hash table that must grow for it while another thread removes an entry, then whatever the interleaving, if the removal reports success its key is not found afterwards, every other key and the new one are found with their data, the count of the table is the number of its entries, and no thread writes to the array that the growth has given back. In particular a function that dlopen has found and takes off the table of functions not found does not wait any more afterwards, even if gotcha_wrap makes the table grow at the same time.", "quantifier": "all key types, hash functions, table histories after which the next addition grows the table, entries added and removed and interleavings, seen in program order, the growth and the search of the removal being one step each; all histories of API calls, loads and unloads for the table of functions not found", "why_tests_cant": "Needs the growth of the table to fall between the search of a removal and its stores; the stores go to memory that is still mapped, so nothing is seen at the time.", "anchors": ["src/hash.c:addto_hashtable", "src/hash.c:grow_hashtable", "src/hash.c:destroy_hashtable", "src/hash.c:removefrom_hashtable", "src/gotcha_dl.c:per_binding", "src/gotcha_dl.c:dlopen_wrapper"]}
{"id": "C94", "title": "Two threads add an entry each to a table that grows", "statement": "When two threads add entries with different new keys to a hash table that must grow, then whatever the interleaving, both keys and all others are found with their data afterwards, a pass over the table meets each entry once, and no thread writes to an array that a growth has given back or stores a pointer to it in the table. In particular, of two functions that two gotcha_wrap calls enter into the table of functions not found at the same time, both wait afterwards.", "quantifier": "all key types, hash functions, table histories after which the next addition grows the table, pairs of new entries and interleavings, seen in program order, the decision about growth and the growth being one step each; all histories of API calls, loads and unloads for the table of functions not found", "why_tests_cant": "Needs two threads to decide about growth before either has grown the table, which happens at a few sizes only; the stores go to memory that is still mapped, so nothing is seen at the time.", "anchors": ["src/hash.c:addto_hashtable", "src/hash.c:grow_hashtable", "src/hash.c:destroy_hashtable", "src/hash.c:insert", "src/gotcha.c:gotcha_wrap"]}
