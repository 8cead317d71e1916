# Formal model of LLNL/GOTCHA in Rocq (Coq 8.16.1)

Everything is in `rocq/theories` (logical name `Verif`). The model is executable Gallina, written function by
function from `/repo/src`; every definition cites file and lines. Proofs are about the model only; the tie to the
C code is the reading of the source recorded in those citations.

## Layout

| File | Content |
|---|---|
| `Base.v`, `ListFacts.v`, `Demo.v` | outcomes (`Ok`/`Fault`), machine integers, list-as-array helpers, C strings; the sample process used in examples |
| `Hash*.v`, `SpecHash.v`, `PropsHash.v` | `src/hash.c` |
| `Elf*.v`, `SpecElf.v`, `PropsElf.v` | `src/elf_ops.[ch]`, `lookup_exported_symbol`, `mark_got_writable` |
| `Tool*.v` (properties in `PropsCore.v`) | `src/tool.c`, priority API |
| `CoreModel.v`, `Core*.v`, `SpecCore.v`, `SpecRun.v`, `PropsCore*.v` | `src/gotcha.c`, `src/gotcha_dl.c`, `src/gotcha_utils.c`, `src/translations.c`, `src/library_filters.c` |
| `SpecSync.v`, `CoreSync*.v`, `CoreTogether.v`, `CoreStall.v`, `CoreShare.v`, `CoreWrapAround.v`, `PropsSync*.v`, `PropsStall.v`, `PropsShare.v` | redirection of relocation slots over whole histories |
| `CoreMicro*.v`, `CoreReg.v`, `CoreProt.v`, `LibList*.v`, `SpecReg.v`, `PropsReg.v` | bookkeeping over whole histories: library list, tables of bindings, mprotect calls, `remove_library` |
| `LibcModel.v`, `SpecLibc.v`, `LibcProofs*.v`, `PropsLibc.v` | string, number and printf part of `src/libc_wrappers.c`, `debug_init` |
| `AuxvModel.v`, `SpecAuxv.v`, `AuxvProofs*.v`, `PropsAuxv*.v` | `src/gotcha_auxv.c` |
| `FailModel.v`, `SpecFail.v`, `FailProofs*.v`, `PropsFail.v`, `PropsFail2.v` | the functions that allocate, again, for processes in which `gotcha_malloc` may return NULL |
| `SpecWrit.v`, `CoreWrit*.v`, `PropsWrit.v` | page permissions: what the loader and mprotect make writable, against the log of mprotect calls and stores |
| `LibListLaw.v`, `PropsRec.v` | the record of libraries for arbitrary hash values |
| `TraceModel.v`, `SpecTrace.v`, `Trace*.v`, `PropsTrace.v` | the operations again, with the list of the single stores that other threads can see |
| `SpecE2E.v`, `PropsE2E.v` | from raw ELF tables to the functions a call passes |
| `RefCount.v`, `PropsRefCount.v` | dlsym with a dynamic linker that keeps reference counts |
| `MsgModel.v`, `SpecMsg.v`, `MsgProofs.v`, `PropsMsg.v` | the messages of `debug_printf`, `debug_bare_printf`, `error_printf` |
| `SpecOnly.v`, `CoreIdle.v`, `OnlyProofs.v`, `PropsIdle.v` | dlopens that bring nothing; two histories that agree on one function |
| `SpecGroup.v`, `CommuteProofs.v`, `PropsGroup.v` | grouping of bindings into calls and order of calls |
| `SpecRename.v`, `RenameProofs.v`, `PropsRename.v` | renamed tools, rescaled priorities, queries |
| `SpecMemory.v`, `MemoryProofs.v`, `PropsMemory.v` | other contents of memory |
| `ArrModel.v`, `SpecArr.v`, `ArrProofs.v`, `ArrProofs2.v`, `PropsArr.v` | the arrays of bindings by reference |
| `ThreadModel.v`, `ThreadProofs.v`, `PropsThread.v` | several threads making API calls, gotcha_init in parts |
| `RefModel.v`, `SpecRef.v`, `RefProofs.v`, `RefLaw.v`, `PropsRef.v` | tool names kept by reference in buffers the program may write |
| `FilterRef.v`, `SpecFilterRef.v`, `PropsFilterRef.v` | the filter's name kept by reference |
| `HashMoments.v`, `SpecMoments.v`, `MomentProofs.v`, `PropsMoments.v` | the single stores of insertions and removals in a hash table |
| `SpecTools.v`, `ToolsProofs.v`, `PropsTools.v` | histories with other tools and other calls that set priorities |
| `OverlapModel.v`, `SpecOverlap.v`, `OverlapProofs.v`, `OverlapProofs2.v`, `OverlapProofs3.v`, `PropsOverlap.v` | calls of gotcha_wrap by several threads, cut into their stages |
| `MixModel.v`, `SpecMix.v`, `MixProofs.v`, `MixProofs2.v`, `PropsMix.v` | the same interleaved with whole other calls: dlopen, priorities, filter, unloading |
| `SpecMove.v`, `MoveProofs.v`, `PropsMove.v` | wrappers and handle variables at other addresses |
| `SpecCost.v`, `CostProofs.v`, `CostTable.v`, `PropsCost.v` | how many slots of a hash table the operations look at |
| `RaceCores.v`, `RaceModel.v`, `SpecRace.v`, `RaceProofs.v`, `PropsRace.v` | a lookup interleaved, read by read, with the stores of additions and removals made by another thread |
| `WalkModel.v`, `WalkProofs.v`, `PropsWalk.v` | foreach_hash_entry interleaved, read by read, with the stores of additions and removals made by another thread |
| `DuelModel.v`, `DuelProofs.v`, `PropsDuel.v` | two calls of addto_hashtable in two threads, interleaved access by access |
| `TugModel.v`, `TugProofs.v`, `PropsTug.v` | addto_hashtable in one thread and removefrom_hashtable in another, interleaved access by access |
| `ReapModel.v`, `ReapProofs.v`, `PropsReap.v` | two calls of removefrom_hashtable in two threads, interleaved access by access; the growth loop of addto_hashtable on 64-bit numbers |
| `SeekModel.v`, `SeekProofs.v`, `PropsSeek.v` | the calls of C91 and C92 with the search of a removal (lookup) read by read as well |
| `StaleModel.v`, `StaleProofs.v`, `PropsStale.v` | addto_hashtable growing the table in one thread, removefrom_hashtable in another, with the array that the growth gives back |
| `TwinModel.v`, `TwinProofs.v`, `PropsTwin.v` | addto_hashtable in two threads with the decision about growth and the growth as separate steps, and the array that a growth gives back |
| `PropsSerial.v` | C90, C91 and C92 when one call follows the other, and with the two threads exchanged |
| `TestsCore.v`, `TestsLibc.v` | the repository's own tests (`/repo/test`) replayed on the model and compared with what they expect; they check the model, no property rests on them |
| `PropsLayer.v` | where GOTCHA's own wrappers lie in the stacks |
| `AllocModel.v`, `SpecAlloc.v`, `AllocProofs*.v`, `PropsAlloc.v` | malloc/free/realloc of `src/libc_wrappers.c` |

`Spec*.v` files hold the independent specifications the theorems in `Props*.v` refer to.

## Modelling decisions

* Undefined behaviour, null dereference, division by zero, out-of-bounds access and non-termination are the
  distinct outcome `Fault reason`; "no fault" is a theorem, not an assumption.
* Pointers into a table or heap are indices (`option nat`, `None` = NULL); function/GOT addresses are `Z`.
* Linked lists (hash entries, binding chains, tool list, malloc free list) are modelled with explicit next/prev
  fields in a heap, not as Coq lists.
* An uninitialised pointer field is the distinct value `Uninit`.
* Loops are structural recursion on explicit fuel, exhaustion is `Fault`.
* 32/64-bit wrap-around is written out where the code relies on it.
* glibc (dlopen, dlsym, mmap, read) is an argument (oracle) of the operation that calls it.
* malloc is assumed to succeed outside `AllocModel.v` and `FailModel.v`. `FailModel.v` repeats the allocating functions
  with the allocator's answers as an argument; `C64_enough_memory` ties it to the core model.
* Sequential execution: GOTCHA has no locking; concurrency is not modelled.

## Properties: what is modelled, how it is proved

| Id | Plan |
|---|---|
| C01, C02, C04, C10, C14 | state machine in `CoreModel.v`; invariant relating binding chains (next/wrappee pointers, handles) to an abstract per-function stack; refinement by induction over operations |
| C03, C09, C11, C12, C13, C15, C20-C23, C33, C35, C40 | expected to be false in general for the code as written: `_refuted` theorem with a computed witness, plus `_partial` theorem under the exact condition that saves it |
| C05, C06, C07, C18 | GOT memory as a map from addresses to values; invariant "every tracked accepted library is in sync", plus frame lemmas |
| C08, C31 | iterate-and-delete lemma of the hash table, lifted to pending bindings |
| C16, C17 | `dlsym_wrapper` with the real dlsym as oracle |
| C19 | filters as data, evaluated on link map entries |
| C24-C26 | tool list with next pointers, representation predicate, refinement to a finite map |
| C27 | no-`Fault` theorem over all operation sequences |
| C28-C32 | array + linked-list invariant; refinement to map / multiset; unbounded hash functions |
| C34-C39 | ELF tables as lists; well-formedness predicates from the ABI; loops by induction on chains |
| C41 | arithmetic on page ranges; invariant "a record marked writable had its mprotect calls" over micro steps of every operation (`CoreMicro.v`); the state logs mprotect calls and GOT stores in order |
| C64 | a monad of allocator answers; "as the model, or a crash after a NULL" is a congruence; gotcha_wrap by cases on its first five allocations |
| C65 | permissions are a function of the loader's choices, the kernel's answers and the log (the code ignores the answers, so the model needs no change); invariant over micro steps: a page of a loaded library is writable iff the loader left it so or the library is marked and GOTCHA asks for the page |
| C66 | corollary of C01/C02: the stack is sorted by priority, ties by age, and GOTCHA's own wrapper is the oldest of priority -1 |
| C67 | every operation also yields its stores to handle variables, wrappee fields and GOT slots in program order (`TraceModel.v`); erasing them gives the core model (`C67_stores_make_the_operation`); simulation of every prefix by a growing abstract stack |
| C68 | membership in `installed` by induction on the history; names and numbers are literals in `PropsNames.v` and `SpecAuxv.v`, not the model's constants |
| C69 | the core model with explicit name buffers (`RefModel.v`): simulation by the core model while no given buffer is written; invariant "a tool in buffer b is called what b holds" for the law |
| C70 | composition of C01, C05, C10, C34-C38 over a vocabulary with the ELF numbers written out (`SpecE2E.v`) |
| C71 | the list of all 67 messages with the types of their arguments (`MsgModel.v`); which arguments a format asks for, as a relation (`SpecMsg.v`); induction on it gives an expansion in the sense of C48, and for a string that cannot be read a fault; messages longer than the buffer: `C71_any_length_law` |
| C72 | calls cut at the parts of gotcha_init, arbitrary schedules (`ThreadModel.v`); simulation by the sequential run of the calls in the order in which they did their work; more fuel for nested calls never changes a result |
| C73 | dlsym_wrapper over an arbitrary stateful linker (`RefCount.v`); glibc's counts as one instance; induction on the number of lookups |
| C74 | the core model with explicit arrays and a pointer to an element for every internal binding (`ArrModel.v`); simulation by the core model while no given element is written; the law from the exact effect of update_all_library_gots (C05) with changed bindings |
| C75 | after dlopen_finish every library is tracked, every accepted one current and every missing function still missing (C20, C08); each step of a second dlopen_finish then returns the state it was given |
| C76 | simulation of two abstract runs: bindings of other functions, and GOTCHA's own for main, leave the stack and original of n alone; then C01/C05/C10 on both sides |
| C77 | state transformers of the abstract machine (use of a tool, one binding, GOTCHA's own bindings for main) that commute up to the order of the tools; insertion depends on tools only through their priorities; then as C76 |
| C78 | a map of states that renames tools and rescales priorities commutes with every function of the core model (`omap`), so with `run` |
| C79 | relation of two states that differ in memory only; every function of the core model writes the same words (`orel`) |
| C80 | gotcha_get_priority returns the state it was given once GOTCHA is initialised |
| C81 | the core model with explicit buffers for the filter's name (`FilterRef.v`): simulation by a history with extra filter calls |
| C82 | insertion and removal as lists of single stores to the table (`HashMoments.v`); all of them make the operation (`C82_stores_make_the_operation`); what a lookup reads is compared after every prefix |
| C83 | pairs of histories related by `paired`; `alike` compares faults, results other than those of the priority calls, and the whole state except the registry of tools and which tool a table of bindings belongs to |
| C84 | calls of gotcha_wrap cut at the iterations of their loop and the update of the call sites, arbitrary schedules (`OverlapModel.v`); the unfinished bindings of all threads are the pending ones of the core invariant; simulation by the bindings in the order in which they were placed |
| C85 | steps of C84 and whole other calls in any order (`MixModel.v`); the linear sequence is computed from the schedule alone (`in_line` in `SpecMix.v`), every other call preserves the core invariant with pending bindings |
| C86 | pairs of runs; the second has all wrapper addresses mapped by one injection and all handle variables by another (`moving` in `SpecMove.v`); simulation through the whole core model |
| C87 | no second copy of the loops: the number of slots looked at is the fuel with which the modelled loop ends (`lookup_within`, `probe_within` in `SpecCost.v`); pigeonhole on the slots passed; the table of wrapped functions has no tombstone after any history |
| C88 | lookup_hashtable as a machine that makes one read per step (`rstep`; alone it is the modelled lookup, `C88_reader`), addto_hashtable and removefrom_hashtable store by store (`C88_writer`); entries of the hash value looked up, once in use, stay as they are, slots never become EMPTY again, and entries not in use have hash value 0 until a new one is written (`blank`), so what the reader has passed had no match when it started and what it finds is the entry of its key |
| C89 | foreach_hash_entry as a machine that makes one read per step (`fstep`; alone it is the modelled loop, `C89_alone`) beside the writer of C88; what lies ahead of the walk is a chain of entries that no store of an addition changes, because the new entry's slot is not in the chain and the head is stored last |
| C90 | addto_hashtable as a machine that makes one access per step (`istep`; alone it is the modelled function, `C90_alone`), two of them on one table; no crash by an invariant on positions and on the count; the laws by explicit schedules for an arbitrary table |
| C91 | removefrom_hashtable as a machine that makes one access per step after its search (`dstep`; alone it is the modelled function, `C91_alone`) beside the machine of C90; no crash by the invariant of C90 and, until the search of the removal, that slots in use have a key; the laws by explicit schedules for an arbitrary table |
| C92 | two of the machines of C91 on one table; no crash by the invariant that a slot in use without key has a hash value that the other thread does not look for; the laws by explicit schedules for an arbitrary table |
| C91, C92 | the same with the search split into its reads: no crash by adding to the invariants that an entry whose status, or hash value, the search has read still has a key; the laws carry over since every interleaving with the search as one step is one in which its reads follow each other |
| C93 | the machines of C90 and C91 with a second array: from the growth on, a removal that holds an entry goes on in the array given back; the law by the invariant that its remaining steps leave everything of the table but the count |
| C94 | the machine of C90 with its first step split in three and, for each thread, the array its entry lies in once the other one has grown the table; the law by an explicit schedule for an arbitrary table; with room for both entries the invariant of C90 |
| C59-C61 | invariants on the linked records over micro steps / operation sequences |
| C42-C48, C56 | byte-list strings; algebraic laws and round trips |
| C49, C50 | word-addressed memory with in-band headers and free list; invariant over traces with user writes |
| C51 | byte memory with bounds |
| C52-C54 | parsers over byte/word lists |
| C55 | arithmetic |

## Trusted base

* Coq 8.16.1's kernel, including `vm_compute`.
* `Print Assumptions` stands under every property theorem of the `Props*.v` files and reports "Closed under the
  global context" for each: no axiom is used, not even of the standard library. (Loading the standard library's
  `lia` brings the opaque constants of `Coq.ssr.ssrunder` into the environment; no theorem depends on them.)
* The reading of the C code: that each model definition says what the cited lines say. Simplifications stand in the
  comment of each definition. The main ones:
  - one thread inside GOTCHA at a time (the code has no locks); what other threads and signal handlers see when they
    only call wrapped functions is the subject of C67, with atomic stores seen in program order. Lookups
    of GOTCHA's dlsym wrapper between the stores to the table of functions are the subject of C82, again with atomic
    stores in program order; a lookup itself is one step there, and one step per read in C88; so is a pass over all entries in C89. In C90 two additions are interleaved access by access, a growth being one step. In C91 an addition and a removal are, the search of the removal being one step. In C92 two removals are, likewise. In the theorems C91_search_* and C92_search_* the search, too, makes one read per step. In C93 the growth of the table is one step, a growth that meets an entry with its key cleared stops the run (the code copies such an entry), and so does the store that would make the head of the table point into the array given back. In C94 the decision about growth and the growth are one step each, and the run stops in the same two cases.
    API calls of several threads are the subject of C72, with each of the parts of gotcha_init and the work after it
    as one step; in C84 the set-up, each binding and the update of the call sites of a gotcha_wrap are steps, in C85 also whole other calls;
  - tool names and the filter's name are copied (not in `RefModel.v` and `FilterRef.v`); the bindings array given to `gotcha_wrap` is copied (not in `ArrModel.v`), and its names, handles and wrappers are not NULL;
  - allocation succeeds in the core model (not in `FailModel.v`);
  - glibc, the dynamic linker and the kernel are oracles: their answers are arguments of the operation;
  - x86-64: 64-bit pointers, little endian, signed `char`, ELF64 with RELA or REL; the PPC64 function descriptor
    code and the code for platforms without `_dl_runtime_resolve` are not modelled;
  - debug output (`debug_printf`, `error_printf`) has no effect on the state; its content is the subject of C71, where a NULL
    string stops the process.

The repository's own integration and unit tests are replayed on the model in `TestsCore.v` and `TestsLibc.v`; the model does what they expect,
and fails one of the two cases that test/priority has commented out (two tools of equal priority, C03).

Not modelled: `src/example`, where in the code each debug message is reached (`MsgModel.v` lists all of them), the build with glibc instead of the internal functions for C42-C56.

## Where the code disagrees with a property

Each has a theorem `..._refuted` with a concrete witness, and a `_partial` theorem for the condition that saves it.

| Property | What happens |
|---|---|
| C03 | among equal priorities the first tool is outermost, the documentation says innermost |
| C05, C07, C33 | two loaded libraries whose link_map addresses hash alike share one record, one is never redirected |
| C09 | only the first binding of a missing name is reported |
| C11 | wrapping again with the same binding makes the wrapper its own wrappee (endless recursion) or leaves its wrappee handle unset; `C11_rewrap_law` proves this of every re-wrap |
| C12 | wrapping main together with others: the nested calls for main mark every library as up to date, so the others are not redirected anywhere; `C12_main_together_law` proves this of every such call |
| C13 | wrappers of main with priority above the internal tool's are skipped |
| C15 | dlsym returns the original function, unwrapped, if two or more wrappers are stacked on it (`C15_two_wrappers`); exact law `C15_dlsym_law` |
| C20 | the 32-bit generation counter wraps around after 2^32 wraps |
| C21 | a library reloaded at the link_map address of an unloaded one keeps the old record, so no slot of it is redirected until the next gotcha_wrap (`C21_reload_law`, from `C20_stall_law`) |
| C23 | a library loaded behind GOTCHA's back is marked current by a gotcha_wrap that redirects only its own functions (`C22_constructor_law`, for every such history) |
| C22 | functions wrapped earlier are not redirected if a constructor inside dlopen wraps a new function (`C22_constructor_law`) |
| C32 | a table of size 0 divides by zero (GOTCHA creates one, for a gotcha_wrap without bindings, but does not use it) |
| C35 | names with bytes above 127 hash wrongly (signed char); `C35_all_names_law` says exactly which names are found, `C35_high_bytes_law` that no name is whose number of such bytes is not a multiple of 32 |
| C38 | the DT_RELA table of a library without DT_PLTREL is skipped (`C38_flavour_law`) |
| C40 | IFUNC symbols: the resolver's address is taken; symbols of size 0 are ignored (`C40_selected_law`) |
| C41 | a library reloaded at the link_map address of an unloaded one is rewritten without a new mprotect |
| C42 | sign of `gotcha_strcmp` for proper prefixes and bytes above 127 (`C42_sign_law`) |
| C43 | `gotcha_strstr` returns a pointer into the needle |
| C45, C56 | `gotcha_atoi` overflows on every ten-digit number |
| C46 | LONG_MIN overflows; a buffer of the exact size is rejected |
| C48 | output beyond 4096 bytes gets a wrong byte at each multiple of 4096; `%c` of NUL; what write does not take is lost; all formats: `C48_all_formats_law` |
| C49, C50 | requests near 2^64 wrap around; requests above 2^63 are not refused but get a smaller block (`C49_huge_law`) |
| C51 | `gotcha_strnlen` reads one byte too far, `gotcha_strncat` ignores the end of the source (`C51_strnlen_law`, `C51_strncat_law`) |
| C52 | (beyond the property) auxiliary vectors over 4096 bytes are read out of bounds |
| C53 | another library with the same name or the same dynamic offset is taken for the vdso; `C53_choice_law` says which one is |
| C54 | path names with blanks are cut (`C54_any_name_law`). A read interrupted by a signal advances the position in the line: one old byte stays in it (`C54_interrupt_law`), so the vdso can be missed (`C54_interrupt_refuted`). Lines that do not fit are taken for several (`C54_long_line_law`) |
| C57 | functions wrapped before a filter change are not redirected in newly accepted libraries once a new function is wrapped (`C57_filter_law`) |
| C58 | `gotcha_free(NULL)` and `gotcha_realloc(NULL, n)` crash |
| C63 | `gotcha_open` passes mode 0 for O_TMPFILE |
| C64 | most results of `gotcha_malloc` are used without a check (`C64_wrap_law`, `C64_set_priority_law`); a failure to wrap dlopen during initialisation is ignored (`C64_init_law`, `C64_silent_refuted`) |
| C65 | a library without DT_PLTGOT (-fno-plt, full RELRO) has its read-only slots rewritten without mprotect (`C65_no_pltgot_refuted`); the result of mprotect is ignored and a refused call is not repeated |
| C66 | docs/api.rst: "The lowest layer is the system call followed by GOTCHA layer and finally other tools"; GOTCHA's own tool has the default priority -1, so a tool of priority -1 or less that wraps dlopen lies inside GOTCHA's own wrapper (`C66_innermost_refuted`) |
| C67 | a handle variable that is used again is NULL for a moment while its wrapper is still being called (`C67_reused_handle_refuted`) |
| C69 | a tool's name is the caller's pointer: overwriting the buffer renames the tool, its priority passes to a name nobody set one for (`C69_overwritten_law`). docs/api.rst:82-83 warns only of the bindings array |
| C81 | the filter's name is the caller's pointer: overwriting the buffer changes the filter (`C81_read_law`, `C81_refuted`). docs/api.rst:138-146 does not say so |
| C82 | removefrom_hashtable clears the key while the entry is still in use (src/hash.c:188-191), and grow_hashtable empties the table before the new one is in place (src/hash.c:112-113): dlsym in a signal handler that interrupts gotcha_wrap crashes or returns the unwrapped function (`C82_dlsym_law`, `C82_unwrapped_law`, `C82_growth_law`, `C82_refuted`) |
| C71 | with GOTCHA_DEBUG set, dlopen(NULL, …) and gotcha_wrap with a NULL tool name print the NULL string (`C71_dlopen_null_refuted`, `C71_tool_null_refuted`): the internal printf reads address 0, glibc's prints "(null)". "0x%p" prints 0x twice (`C71_prefix_twice_refuted`). "Symbol %s was found in program" (src/gotcha.c:117) is printed when it was not found; "Wrapping main" (:151) and the RTLD_NEXT error (src/gotcha_dl.c:83) have no line end |
| C72 | gotcha_initialized is set before the tables exist: a second thread's first gotcha_wrap crashes (`C72_early_call_law`); two threads that both find it clear set up the tables twice, and the functions wrapped in between are forgotten (`C72_both_initialise_law`, `C72_both_initialise_refuted`) |
| C84 | the generation counter is bumped when gotcha_wrap is entered and read when the call sites are updated (src/gotcha.c:434, :376-389): if two threads enter before either updates, the first update marks every library as up to date for both and the second thread's functions are never redirected, though its call returns success (`C84_second_update_law`, `C84_sites_refuted`) |
| C85 | the same with dlopen: GOTCHA's part of dlopen (src/gotcha_dl.c:144-149) updates the call sites and marks every library with the current generation, so a gotcha_wrap that had started in another thread redirects nothing at its end (`C85_update_law`, `C85_dlopen_refuted`) |
| C87 | removefrom_hashtable leaves a TOMBSTONE that a lookup has to pass (src/hash.c:136-148, :181-200) and only growth clears them, but growth looks at the number of entries alone (src/hash.c:167): a table through which enough different keys have passed makes every unsuccessful lookup inspect every slot, even when it is empty (`C87_worn_law`, `C87_entries_refuted`). GOTCHA removes for good only from the table of functions not found yet |
| C88 | grow_hashtable sets table_size to 0 in the live table (src/hash.c:112, :117-126): a lookup in another thread that starts then divides by zero (`C88_growth_law`). removefrom_hashtable clears the key before the status (src/hash.c:188-191): a lookup of the key being removed, or of a key with the same hash value or with hash value 0, can hand a null key to strcmp (`C88_removal_law`, `C88_rewrap_law_partial`, `C88_ex_zero`). Otherwise the order of the stores in insert (src/hash.c:67-70, status last) keeps lookups safe, provided neither compiler nor processor reorders them, which the C code does not ask for |
| C89 | removefrom_hashtable clears key and data of an entry that other threads may be at (src/hash.c:188-189): two calls of dlopen in two threads can make per_binding dereference a null binding (`C89_removal_law`, `C89_dlopen_law_partial`). An entry removed and entered again in the same slot sends a walk back to the start of the list, so entries are handed out twice (`C89_ex_twice`). grow_hashtable empties the live table, so a walk that starts then sees no entry, and one under way leaves the table (`C89_growth_law`) |
| C90 | insert chooses a slot and links it in without any lock (src/hash.c:63-83). Two additions at the same time: the second head store drops the other entry from the list, so that dlopen never looks at that function (`C90_lost_law`, `C90_overlooked_law_partial`); if both choose the same slot, one entry is overwritten and the other becomes its own successor, so that the next pass of dlopen never ends (`C90_endless_law`, `C90_hang_law_partial`); entry_count can end up one too small (`C90_ex_count`) |
| C91 | insert and removefrom_hashtable change the links without any lock (src/hash.c:64-83, 181-200). An addition that has read the head before the removal of that entry links the cleared entry back in: every later pass is handed an entry without key and data, on which per_binding crashes (`C91_ghost_law`, `C91_dlopen_law_partial`). A removal that has read the head before an addition stores its own new head over it: the added function is never looked at by dlopen (`C91_dropped_law`) |
| C92 | removefrom_hashtable takes no lock (src/hash.c:181-200). Two dlopen calls that find the same waiting function: the second can meet the entry with its key cleared and crash (`C92_crash_law`); or both remove it, entry_count is lowered twice and, if it was the only one, wraps around, so that the loop at src/hash.c:167 of the next gotcha_wrap that enters a function never ends (`C92_twice_law`, `C92_endless_law`). If they remove neighbours, a cleared entry stays linked in and the next dlopen crashes on it (`C92_ghost_law`, `C92_dlopen_law_partial`) |
| C93 | removefrom_hashtable keeps a pointer to its entry while addto_hashtable in another thread may replace and free the array (src/hash.c:112-113). Its stores then go to freed memory: the entry stays in the table though the removal returns 0, and entry_count is one too small (`C93_lost_law`, `C93_dlopen_law_partial`). If the entry is the latest, table->head can end up pointing into the freed array (`C93_head_law`, `C93_ex_head`). gotcha_free (src/libc_wrappers.c:126-132) keeps its list link in the first word of the freed array, which is the key of slot 0, so clearing the key of that slot cuts the list of free blocks (not modelled) |
| C94 | addto_hashtable decides about growth, grows and inserts without any lock (src/hash.c:166-175). If two threads decide before either has grown the table, it is grown twice to the same size, and the second growth frees the array in which the first thread has its slot: the entry is lost, and head->prev and head are then made to point into the freed array (src/hash.c:81-82; `C94_lost_law`, `C94_wrap_law_partial`) |
| C73 | dlsym(RTLD_NEXT, …) opens the library that has the function and never closes it: each call adds a reference (`C73_pinned_law`, `C73_counts_refuted`) |
| C61 | removing a library whose hash value is that of another one removes the other's record |

## Tests against wrong programs

`seeded/LOG.jsonl` lists the edits of model definitions that were tried in a scratch copy, and the theorems that
failed to prove.
