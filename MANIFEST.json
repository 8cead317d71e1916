{
 "claims": [
  {
   "property": "C01",
   "status": "proved",
   "theorems": [
    "C01_stack_order",
    "C01_order_kept",
    "C01_new_wrapper",
    "C01_first_main"
   ],
   "note": "All histories with fresh bindings (own handle and wrapper per binding); reused bindings are C11."
  },
  {
   "property": "C02",
   "status": "proved",
   "theorems": [
    "C02_higher_priority_outside"
   ],
   "note": ""
  },
  {
   "property": "C03",
   "status": "partial",
   "theorems": [
    "C03_fifo_ties_refuted",
    "C02_higher_priority_outside"
   ],
   "note": "The documented rule is false of the code: among equal priorities the first tool is the outermost wrapper (witness); C02 gives the actual rule."
  },
  {
   "property": "C04",
   "status": "proved",
   "theorems": [
    "C04_set_priority_frame"
   ],
   "note": "Once GOTCHA is initialised; the first API call of a process also binds dlopen and dlsym."
  },
  {
   "property": "C05",
   "status": "partial",
   "theorems": [
    "C05_redirected_partial",
    "C05_stack_partial",
    "C05_call_partial",
    "C05_collision_refuted",
    "C05_collision_law"
   ],
   "note": "Proved for orderly histories (distinct link map hash values, no wrap during a load, main wrapped alone, stable filter, fewer than 2^32-4 wraps); false for two libraries with the same hash value (witness; C05_collision_law: in every history the hidden library is never written)."
  },
  {
   "property": "C06",
   "status": "proved",
   "theorems": [
    "C06_writes_only_slots",
    "C06_stores_only_slots"
   ],
   "note": "Any history, fresh or not; final memory and every single store."
  },
  {
   "property": "C07",
   "status": "partial",
   "theorems": [
    "C07_dlopen_partial",
    "C07_collision_refuted",
    "C05_collision_law"
   ],
   "note": "Proved for distinct link map hash values and fewer than 2^32-4 wraps; false for a new library whose hash value is that of another one (witness; C05_collision_law: never written in any history)."
  },
  {
   "property": "C08",
   "status": "proved",
   "theorems": [
    "C08_bound_at_dlopen"
   ],
   "note": ""
  },
  {
   "property": "C09",
   "status": "partial",
   "theorems": [
    "C09_return_code_partial",
    "C09_return_code_refuted"
   ],
   "note": "The 'if' direction is false (second binding of a missing name, main; witness). Exact condition proved."
  },
  {
   "property": "C10",
   "status": "proved",
   "theorems": [
    "C10_innermost_wrappee",
    "C10_original_stays"
   ],
   "note": ""
  },
  {
   "property": "C11",
   "status": "partial",
   "theorems": [
    "C11_rewrap_law",
    "C11_rewrap_refuted"
   ],
   "note": "False of the code: the wrapper becomes its own wrappee, or its wrappee handle stays unset. The law holds in every history, for every tool and priority, so the property never holds."
  },
  {
   "property": "C12",
   "status": "partial",
   "theorems": [
    "C12_main_apart_partial",
    "C12_main_together_law",
    "C12_main_together_refuted"
   ],
   "note": "False of the code: in every calm history, the other functions of a call that first wraps main are not redirected anywhere. Proved when main is already wrapped or wrapped by a call of its own."
  },
  {
   "property": "C13",
   "status": "partial",
   "theorems": [
    "C13_main_entry",
    "C13_main_wrappers_entered_partial",
    "C13_main_wrappers_entered_refuted"
   ],
   "note": "False if a tool's priority is above -1 (witness); exact set of wrappers entered proved."
  },
  {
   "property": "C14",
   "status": "proved",
   "theorems": [
    "C14_handles_stable"
   ],
   "note": ""
  },
  {
   "property": "C15",
   "status": "partial",
   "theorems": [
    "C15_dlsym_wrapped_partial",
    "C15_dlsym_law",
    "C15_two_wrappers",
    "C15_dlsym_wrapped_refuted"
   ],
   "note": "False for functions wrapped by two tools: dlsym returns the original, unwrapped (proved for every history). Exact law proved; the property holds for a single wrapper."
  },
  {
   "property": "C16",
   "status": "proved",
   "theorems": [
    "C16_dlsym_transparent",
    "C16_dlsym_other_function"
   ],
   "note": ""
  },
  {
   "property": "C17",
   "status": "proved",
   "theorems": [
    "C17_dlsym_next"
   ],
   "note": ""
  },
  {
   "property": "C18",
   "status": "proved",
   "theorems": [
    "C18_rejected_untouched",
    "C18_no_store"
   ],
   "note": "Slots of a rejected library that are not also slots of an accepted one."
  },
  {
   "property": "C19",
   "status": "proved",
   "theorems": [
    "C19_filters",
    "C19_latest_filter"
   ],
   "note": ""
  },
  {
   "property": "C20",
   "status": "partial",
   "theorems": [
    "C20_current_partial",
    "C20_stall_law",
    "C20_wraparound_refuted"
   ],
   "note": "False after 2^32 wraps (witness); proved for orderly histories. Law: a library that counts as up to date gets no store until the next gotcha_wrap, even if reloaded."
  },
  {
   "property": "C21",
   "status": "partial",
   "theorems": [
    "C21_reload_partial",
    "C21_reload_law",
    "C21_reload_refuted"
   ],
   "note": "False if the link_map address is reused: then no slot of the reloaded library is redirected until the next gotcha_wrap (law, witness). Proved otherwise."
  },
  {
   "property": "C22",
   "status": "partial",
   "theorems": [
    "C22_constructor_partial",
    "C22_constructor_law",
    "C22_constructor_refuted"
   ],
   "note": "False for functions wrapped earlier: never redirected until the next gotcha_wrap if the constructor wraps a new function (law, witness); functions wrapped by the constructor are redirected."
  },
  {
   "property": "C23",
   "status": "partial",
   "theorems": [
    "C23_next_dlopen_partial",
    "C22_constructor_law",
    "C23_wrap_between_refuted"
   ],
   "note": "False with a gotcha_wrap of a new function in between (law C22_constructor_law, witness); proved without."
  },
  {
   "property": "C24",
   "status": "proved",
   "theorems": [
    "C24_read_back",
    "C24_default",
    "C24_other_tools"
   ],
   "note": "Any history."
  },
  {
   "property": "C25",
   "status": "proved",
   "theorems": [
    "C25_unknown_tools"
   ],
   "note": "GOTCHA's own tool name counts as used after the first API call."
  },
  {
   "property": "C26",
   "status": "proved",
   "theorems": [
    "C26_registry"
   ],
   "note": "Any history."
  },
  {
   "property": "C27",
   "status": "proved",
   "theorems": [
    "C27_no_faults",
    "C27_dlsym_no_faults"
   ],
   "note": "Any history on well-formed libraries; dlsym for fresh bindings."
  },
  {
   "property": "C28",
   "status": "proved",
   "theorems": [
    "C28_hash_table_is_a_map",
    "C28_strcmp_adequate",
    "C28_destroyed"
   ],
   "note": "Any hash function, any comparison adequate on the key domain, any nonzero initial size, any trace adding absent keys."
  },
  {
   "property": "C29",
   "status": "proved",
   "theorems": [
    "C29_hash_table_is_a_bag"
   ],
   "note": "Nondeterministic bag specification; final enumeration equals the bag."
  },
  {
   "property": "C30",
   "status": "proved",
   "theorems": [
    "C30_enumeration_exactly_once"
   ],
   "note": "Callbacks that do not modify the table; newest-first order as long as the number of adds cannot trigger growth."
  },
  {
   "property": "C31",
   "status": "proved",
   "theorems": [
    "C31_delete_while_enumerating"
   ],
   "note": ""
  },
  {
   "property": "C32",
   "status": "proved",
   "theorems": [
    "C32_never_full",
    "C32_zero_size_refuted"
   ],
   "note": "Size 0 is excluded: such a table divides by zero (witness given); GOTCHA never creates one."
  },
  {
   "property": "C33",
   "status": "partial",
   "theorems": [
    "C33_own_record_partial",
    "C33_collision_refuted",
    "C33_collision_law"
   ],
   "note": "False for equal hash values (witness; C33_collision_law: the hidden library is always found under the first one's record); proved for distinct ones."
  },
  {
   "property": "C34",
   "status": "proved",
   "theorems": [
    "C34_lookup_sound",
    "C34_exported_sound"
   ],
   "note": "Arbitrary table contents."
  },
  {
   "property": "C35",
   "status": "partial",
   "theorems": [
    "C35_gnu_hash_complete_partial",
    "C35_gnu_hash_complete_refuted",
    "C35_all_names_law",
    "C35_high_bytes_law"
   ],
   "note": "False for names with bytes above 127 (signed char in the hash, witness given); proved for plain names (all ASCII names among them) and symbols whose version index is not 0. The laws say for every byte name whether it is found."
  },
  {
   "property": "C36",
   "status": "proved",
   "theorems": [
    "C36_version_gnu",
    "C36_version_sysv"
   ],
   "note": "Full characterisation of the symbol returned, for both tables; names that are not plain are never found in the GNU table (C35_all_names_law)."
  },
  {
   "property": "C37",
   "status": "proved",
   "theorems": [
    "C37_sysv_complete",
    "C37_sysv_hash_is_abi"
   ],
   "note": "Symbols with version index 0 (local) excepted."
  },
  {
   "property": "C38",
   "status": "partial",
   "theorems": [
    "C38_relocations_partial",
    "C38_relocations_refuted",
    "C38_flavour_law"
   ],
   "note": "False for libraries without DT_PLTREL, whose DT_RELA table is skipped (witness given); proved for all others; the law says for every dynamic section which tables are processed."
  },
  {
   "property": "C39",
   "status": "proved",
   "theorems": [
    "C39_library_lookup",
    "C39_link_order",
    "C39_library_high_law",
    "C39_link_order_law"
   ],
   "note": "Plain names (all ASCII names among them, see C35); the laws cover all byte names, of which the GNU table finds the plain ones only."
  },
  {
   "property": "C40",
   "status": "partial",
   "theorems": [
    "C40_wrappee_is_call_target_partial",
    "C40_ifunc_refuted",
    "C40_zero_size_refuted",
    "C40_selected_law"
   ],
   "note": "False for IFUNC and zero-size symbols (witnesses given); proved for the rest; the law gives the result for every selected symbol."
  },
  {
   "property": "C41",
   "status": "partial",
   "theorems": [
    "C41_writable_pages",
    "C41_before_rewriting_partial",
    "C41_only_got",
    "C41_reload_refuted"
   ],
   "note": "Exact set of pages for one library; over all histories, every GOT store is to a library whose pages were passed to mprotect before that store, if different libraries seen have different hash values; a library loaded again at the same link_map address is rewritten without a new mprotect (witness)."
  },
  {
   "property": "C42",
   "status": "partial",
   "theorems": [
    "C42_equal",
    "C42_prefix",
    "C42_prefix_strings",
    "C42_sign_partial",
    "C42_sign_refuted",
    "C42_signed_char_refuted",
    "C42_value_law",
    "C42_sign_law"
   ],
   "note": "Equality proved; the sign is wrong for proper prefixes and for bytes above 127 (witnesses; the laws give the value for all strings)."
  },
  {
   "property": "C43",
   "status": "partial",
   "theorems": [
    "C43_found_partial",
    "C43_pointer_refuted",
    "C43_empty_refuted",
    "C43_empty_law"
   ],
   "note": "Occurrence and first position proved; the pointer returned is into the needle (witness)."
  },
  {
   "property": "C44",
   "status": "proved",
   "theorems": [
    "C44_getenv"
   ],
   "note": "Names shorter than 2^31."
  },
  {
   "property": "C45",
   "status": "partial",
   "theorems": [
    "C45_form",
    "C45_value_partial",
    "C45_ten_digits_overflow",
    "C45_refuted"
   ],
   "note": "Proved up to nine digits; every number of ten digits overflows, also those that fit (witness)."
  },
  {
   "property": "C46",
   "status": "partial",
   "theorems": [
    "C46_canonical",
    "C46_unsigned",
    "C46_signed_partial",
    "C46_read_back_partial",
    "C46_long_min_refuted",
    "C46_exact_fit_refuted",
    "C46_long_min_law"
   ],
   "note": "All values but LONG_MIN, whose negation overflows (witness); a buffer of the exact size is rejected (witness)."
  },
  {
   "property": "C47",
   "status": "proved",
   "theorems": [
    "C47_hex",
    "C47_read_back",
    "C47_read"
   ],
   "note": "Reading uses the parser of /proc/self/maps."
  },
  {
   "property": "C48",
   "status": "partial",
   "theorems": [
    "C48_printf_partial",
    "C48_any_length_partial",
    "C48_long_refuted",
    "C48_nul_char_refuted",
    "C48_long_min_refuted",
    "C48_all_formats_law",
    "C48_formats_covered",
    "C48_pieces_unique",
    "C48_short_write_law",
    "C48_short_write_refuted"
   ],
   "note": "Exact up to 4096 bytes if the kernel takes them; beyond, the code prints a wrong byte at each multiple of 4096 (witness, exact law proved). The laws cover all formats and short writes, whose rest is lost."
  },
  {
   "property": "C49",
   "status": "partial",
   "theorems": [
    "C49_no_fault_partial",
    "C49_blocks_partial",
    "C49_null_partial",
    "C49_huge_refuted",
    "C49_huge_law"
   ],
   "note": "Requests up to 2^63-2^33 bytes. A request near 2^64 wraps to 0 and returns a block of no bytes (witness). Law: with a non-empty free list whose first element has s bytes, no request above 2^63+s is refused; the block is too small."
  },
  {
   "property": "C50",
   "status": "partial",
   "theorems": [
    "C50_preserved_partial",
    "C50_read_back_partial",
    "C50_realloc_partial",
    "C50_huge_refuted",
    "C50_huge_law"
   ],
   "note": "Requests up to 2^63-2^33 bytes; a request near 2^64 overwrites a live block (witness). Law: with a non-empty free list, a request of 2^64-k bytes that returns overwrites the two words k bytes before the block handed out, whatever they belong to."
  },
  {
   "property": "C51",
   "status": "partial",
   "theorems": [
    "C51_memset",
    "C51_memcpy",
    "C51_strlen",
    "C51_strnlen_partial",
    "C51_strnlen_refuted",
    "C51_strncat_partial",
    "C51_strncat_refuted",
    "C51_strnlen_law",
    "C51_strncat_law"
   ],
   "note": "strnlen reads one byte too many, strncat copies n bytes whatever the length of the source (witnesses, and laws for all inputs)."
  },
  {
   "property": "C52",
   "status": "proved",
   "theorems": [
    "C52_pagesize",
    "C52_no_entry",
    "C52_unreadable",
    "C52_final",
    "C52_long_refuted"
   ],
   "note": "Page sizes below 2^32. Beyond the quantifier, a longer vector is read out of bounds (witness)."
  },
  {
   "property": "C53",
   "status": "partial",
   "theorems": [
    "C53_at_most_one",
    "C53_alias_partial",
    "C53_auxv_partial",
    "C53_maps_partial",
    "C53_none",
    "C53_choice_law",
    "C53_choice_covers",
    "C53_refuted",
    "C53_name_refuted"
   ],
   "note": "At most one library and a constant answer proved. The right one only if no earlier library has the same dynamic offset or an alias name (witnesses). The law says which library is taken in every world whose two files are well formed or unreadable."
  },
  {
   "property": "C54",
   "status": "partial",
   "theorems": [
    "C54_line_partial",
    "C54_read_line_partial",
    "C54_search_partial",
    "C54_any_name_law",
    "C54_interrupt_law",
    "C54_long_line_law",
    "C54_gaps_cover",
    "C54_spaces_refuted",
    "C54_interrupt_refuted"
   ],
   "note": "Names without white space and reads without EINTR; both others go wrong (witnesses). The laws: every name is cut at its first white space; every interruption leaves one old byte in the line; longer lines are split after 4095 bytes and interruptions."
  },
  {
   "property": "C55",
   "status": "proved",
   "theorems": [
    "C55_order",
    "C55_components"
   ],
   "note": ""
  },
  {
   "property": "C56",
   "status": "partial",
   "theorems": [
    "C56_level_partial",
    "C56_refuted",
    "C56_overflow_law"
   ],
   "note": "Proved for values of at most nine digits; ten overflow in gotcha_atoi (witness). Build with FORCE_NO_LIBC."
  },
  {
   "property": "C57",
   "status": "partial",
   "theorems": [
    "C05_call_partial",
    "C57_filter_law",
    "C57_filter_refuted"
   ],
   "note": "False for functions wrapped before the change: a gotcha_wrap of a new function marks the library and leaves them (law, witness); functions wrapped after it are redirected."
  },
  {
   "property": "C58",
   "status": "partial",
   "theorems": [
    "C58_reuse",
    "C58_null_refuted"
   ],
   "note": "Reuse proved; NULL makes gotcha_free and gotcha_realloc crash (proved for all heaps)."
  },
  {
   "property": "C59",
   "status": "proved",
   "theorems": [
    "C59_library_list"
   ],
   "note": "All histories."
  },
  {
   "property": "C60",
   "status": "proved",
   "theorems": [
    "C60_all_bindings",
    "C60_tool_bindings",
    "C60_binding_hash"
   ],
   "note": "All histories."
  },
  {
   "property": "C61",
   "status": "partial",
   "theorems": [
    "C61_remove_library_partial",
    "C61_records_law",
    "C61_collision_refuted"
   ],
   "note": "For libraries with distinct hash values; with equal ones another library's record can be removed (witness)."
  },
  {
   "property": "C62",
   "status": "proved",
   "theorems": [
    "C62_message",
    "C62_never_fails"
   ],
   "note": "Message as passed to write; the process then sends itself SIGABRT. The only assertion in the code (libc_wrappers.c:405) never fails."
  },
  {
   "property": "C63",
   "status": "partial",
   "theorems": [
    "C63_mode_partial",
    "C63_tmpfile_refuted",
    "C63_tmpfile_law"
   ],
   "note": "False for O_TMPFILE (witness, law); proved for all other flags."
  },
  {
   "property": "C64",
   "status": "partial",
   "theorems": [
    "C64_enough_memory",
    "C64_wrap_law",
    "C64_set_priority_law",
    "C64_get_priority",
    "C64_dlopen_law",
    "C64_init_law",
    "C64_wrap_refuted",
    "C64_set_priority_refuted",
    "C64_handle_refuted",
    "C64_silent_refuted"
   ],
   "note": "False (four witnesses). Proved: independence of the allocator without failures; after initialisation, exactly which failures are reported, that nothing is installed then, and that all others crash or do no harm; the same for gotcha_init, with three tables more. Failures during the nested calls for main: no law."
  },
  {
   "property": "C65",
   "status": "partial",
   "theorems": [
    "C65_stores_law",
    "C65_writable_partial",
    "C65_no_pltgot_refuted",
    "C65_mprotect_refuted",
    "C65_no_retry_refuted",
    "C41_reload_refuted"
   ],
   "note": "False (witnesses: a library without DT_PLTGOT, a refused mprotect, no second attempt, a library loaded again). Proved: if mprotect is always granted and no library is loaded twice, exactly which pages are writable at each store."
  },
  {
   "property": "C66",
   "status": "partial",
   "theorems": [
    "C66_layer_law",
    "C66_innermost_partial",
    "C66_dlopen_first",
    "C66_innermost_refuted"
   ],
   "note": "False for tools of priority -1 (the default) or less: their wrappers of dlopen lie inside GOTCHA's own (witness). Proved: exactly which wrappers lie outside, and that the rule holds if all priorities are above -1."
  },
  {
   "property": "C67",
   "status": "partial",
   "theorems": [
    "C67_stores_make_the_operation",
    "C67_every_moment",
    "C67_slots_at_every_moment",
    "C67_calls_while_at_work",
    "C67_reused_handle_refuted"
   ],
   "note": "Proved if every binding has its own handle variable and wrapper; false if a handle variable is used again (witness). Stores are atomic and seen in program order; concurrent calls of GOTCHA's own functions (also through its dlsym wrapper) are not covered. A function missing when wrapped may be without original until dlopen's lookup."
  },
  {
   "property": "C68",
   "status": "proved",
   "theorems": [
    "C68_names",
    "C68_unnamed_tool",
    "C68_own_tool",
    "C68_numbers"
   ],
   "note": "For histories in which every binding has its own handle variable and wrapper; C68_unnamed_tool in every state."
  },
  {
   "property": "C69",
   "status": "partial",
   "theorems": [
    "C69_kept_names_partial",
    "C69_overwritten_law",
    "C69_refuted"
   ],
   "note": "False: create_tool keeps the caller's pointer, so a tool changes its name with the buffer (witness; law for every history before). Proved for histories that do not write to a buffer after giving it as a name: same results and same faults as with copied names."
  },
  {
   "property": "C70",
   "status": "partial",
   "theorems": [
    "C70_slots",
    "C70_exports_sound",
    "C70_exports_complete_partial",
    "C70_call_partial",
    "C70_call_refuted",
    "C70_only_calls"
   ],
   "note": "A call through f's slot passes no wrapper if f is wrapped in the call that first wraps main (witness). Calls: in orderly histories (see C05, whose refutations apply) and for functions other than main; completeness of the lookup for plain names and symbols of nonzero size (see C35, C40). The slots, soundness of the lookup and that nothing else is written are proved without restriction."
  },
  {
   "property": "C71",
   "status": "partial",
   "theorems": [
    "C71_types",
    "C71_printed_partial",
    "C71_any_length_law",
    "C71_gate",
    "C71_silent",
    "C71_null_law",
    "C71_dlopen_null_refuted",
    "C71_tool_null_refuted",
    "C71_prefix_twice_refuted"
   ],
   "note": "Proved: all formats fit their arguments, all levels, silence without GOTCHA_DEBUG. False for NULL strings: dlopen(NULL) and a NULL tool name stop the process once GOTCHA_DEBUG is set (law for all messages, witnesses). A message above 4096 bytes has the byte at each multiple of 4096 replaced by its first (C71_any_length_law; see C48). The build with FORCE_NO_LIBC."
  },
  {
   "property": "C72",
   "status": "partial",
   "theorems": [
    "C72_one_thread",
    "C72_after_init_partial",
    "C72_early_call_law",
    "C72_both_initialise_law",
    "C72_both_initialise_refuted"
   ],
   "note": "False: a thread that finds the flag set while another is still creating the tables calls a null function pointer (law for every process), and two threads that both find it clear lose the wrappings made in between (law, and witness with a library loaded later). Proved for every schedule once GOTCHA is initialised or one thread completes gotcha_init first; the work after gotcha_init is one step."
  },
  {
   "property": "C73",
   "status": "partial",
   "theorems": [
    "C73_same_answers",
    "C73_other_handles_partial",
    "C73_next_calls",
    "C73_pinned_law",
    "C73_counts_refuted"
   ],
   "note": "False for RTLD_NEXT: each lookup of a function that is not wrapped opens the library that has it and never closes it (law for every history and every number of lookups; witness). Proved for all other handles and any linker."
  },
  {
   "property": "C74",
   "status": "proved",
   "theorems": [
    "C74_kept",
    "C74_not_at_once",
    "C74_by_reference",
    "C74_put_back",
    "C74_stored_law",
    "C74_reuse_shows"
   ],
   "note": "The arrays explicit in ArrModel.v, with pointers from the internal bindings to their elements."
  },
  {
   "property": "C75",
   "status": "proved",
   "theorems": [
    "C75_nothing_new"
   ],
   "note": "GOTCHA's state is exactly the same afterwards. Without a dlopen before it the work need not be empty (example C75_first)."
  },
  {
   "property": "C76",
   "status": "partial",
   "theorems": [
    "C76_outermost",
    "C76_wrappees",
    "C76_sites_partial",
    "C76_sites_refuted"
   ],
   "note": "Wrappers, original and wrappees proved. Call sites: false if main is wrapped along with n in one of the histories (witness; see C12); proved for orderly histories."
  },
  {
   "property": "C77",
   "status": "partial",
   "theorems": [
    "C77_split_codes",
    "C77_swap_codes",
    "C77_outermost",
    "C77_wrappees",
    "C77_sites_partial",
    "C77_sites_refuted"
   ],
   "note": "Codes, wrappers, originals and wrappees proved. Call sites: false if main is bound together with other functions (witness; see C12); proved for orderly histories."
  },
  {
   "property": "C78",
   "status": "proved",
   "theorems": [
    "C78_renamed",
    "C78_observed"
   ],
   "note": ""
  },
  {
   "property": "C79",
   "status": "proved",
   "theorems": [
    "C79_memory",
    "C79_observed",
    "C79_writes"
   ],
   "note": "Memory is word-addressed as in the core model."
  },
  {
   "property": "C80",
   "status": "proved",
   "theorems": [
    "C80_query"
   ],
   "note": ""
  },
  {
   "property": "C81",
   "status": "partial",
   "theorems": [
    "C81_kept_name_partial",
    "C81_read_law",
    "C81_refuted"
   ],
   "note": "False: gotcha_filter_libraries_by_name keeps the caller's pointer, so the filter changes with the buffer (witness; exact law for every history: each write to the buffer of the present filter is a new filter). Proved for histories that do not write to the buffer while it is the filter's name."
  },
  {
   "property": "C82",
   "status": "partial",
   "theorems": [
    "C82_add_partial",
    "C82_remove_partial",
    "C82_dlsym_partial",
    "C82_stores_make_the_operation",
    "C82_head_stores",
    "C82_growth_law",
    "C82_removal_law",
    "C82_dlsym_law",
    "C82_unwrapped_law",
    "C82_refuted"
   ],
   "note": "False: while an entry is removed its key is NULL and its status still INUSE, so a lookup of that key crashes; between removal and insertion dlsym finds the function unwrapped; while a table grows every lookup crashes (laws for every table and every history, and a witness). Proved: an insertion that does not grow the table is atomic for all lookups, and a removal for keys of another hash value, not 0; dlsym of such functions is not disturbed by a new outermost wrapper."
  },
  {
   "property": "C83",
   "status": "proved",
   "theorems": [
    "C83_order_of_tools",
    "C83_observed",
    "C83_only_the_last",
    "C83_no_priorities"
   ],
   "note": ""
  },
  {
   "property": "C84",
   "status": "partial",
   "theorems": [
    "C84_undisturbed",
    "C84_overlap_partial",
    "C84_wrappees_partial",
    "C84_second_update_law",
    "C84_sites_refuted",
    "C84_atomic_refuted"
   ],
   "note": "The claim about call sites is false: once one of the calls that have entered has updated the call sites, no other of them stores anything (law for every process, schedule and number of threads in which no call is the first to bind main; witness). A call is not atomic: no order of the whole calls need give the same wrappers (witness). Proved for every schedule: no fault, the return codes, outermost wrappers, wrappees and all later calls are those of some merge of the calls cut into single bindings. Partial also because a stage of a call (set-up, one binding, update of the call sites) is one step, so races within a stage are not modelled."
  },
  {
   "property": "C85",
   "status": "partial",
   "theorems": [
    "C85_runs",
    "C85_in_line",
    "C85_mix_partial",
    "C85_wrappees_partial",
    "C85_update_law",
    "C85_dlopen_refuted"
   ],
   "note": "The claim about call sites is false: if a dlopen ends while a call of gotcha_wrap is between its first and its last stage, the update made for dlopen marks every library as up to date and the call of gotcha_wrap redirects nothing, though it returns success (law for every process, schedule and number of threads in which no call is the first to bind main; witness). The rest is proved at every moment of every schedule, also before the calls have returned. Partial also because a stage of gotcha_wrap, and each other call, is one step (dlopen: two)."
  },
  {
   "property": "C86",
   "status": "proved",
   "theorems": [
    "C86_moved",
    "C86_dlsym"
   ],
   "note": "For every history, well-formed or not; faults included."
  },
  {
   "property": "C87",
   "status": "proved",
   "theorems": [
    "C87_cost",
    "C87_functions",
    "C87_worn_law",
    "C87_entries_refuted"
   ],
   "note": "The last two theorems prove the contrast stated at the end of the property."
  },
  {
   "property": "C88",
   "status": "partial",
   "theorems": [
    "C88_reader",
    "C88_writer",
    "C88_race",
    "C88_present",
    "C88_removal_law",
    "C88_growth_law",
    "C88_functions_partial",
    "C88_new_functions_partial",
    "C88_rewrap_law_partial"
   ],
   "note": "The claims about the table are proved. For dlsym alongside gotcha_wrap, the theorems named _partial cover the lookup of the name and the changes of the table of wrapped functions; the rest of dlsym and of gotcha_wrap and reordering by the compiler or the processor are missing."
  },
  {
   "property": "C89",
   "status": "partial",
   "theorems": [
    "C89_alone",
    "C89_walk",
    "C89_removal_law",
    "C89_growth_law",
    "C89_pending_partial",
    "C89_dlopen_law_partial"
   ],
   "note": "The claims about the table are proved, for a callback that changes nothing. For dlopen alongside gotcha_wrap or another dlopen, the theorems named _partial cover the pass over the table of functions not found and the changes of that table; a callback that finds a function and removes it while the other thread adds, the rest of both calls, and reordering by the compiler or the processor are missing."
  },
  {
   "property": "C90",
   "status": "partial",
   "theorems": [
    "C90_alone",
    "C90_serial",
    "C90_symmetric",
    "C90_safe",
    "C90_lost_law",
    "C90_endless_law",
    "C90_overlooked_law_partial",
    "C90_hang_law_partial"
   ],
   "note": "Proved: no crash and both calls return, in every interleaving. False: for every table and any two entries there is an interleaving after which a pass sees only one of the two, and, if both are searched for from the same slot (as with the same key), one after which one entry is overwritten and a pass never ends (laws). The theorems named _partial cover the changes of the table of functions not found, not the rest of the two gotcha_wrap calls. Additions for which the table grows are in C94; reordering by the compiler or the processor is missing."
  },
  {
   "property": "C91",
   "status": "partial",
   "theorems": [
    "C91_alone",
    "C91_serial",
    "C91_safe",
    "C91_ghost_law",
    "C91_dropped_law",
    "C91_dlopen_law_partial",
    "C91_search_alone",
    "C91_search_safe",
    "C91_search_law"
   ],
   "note": "Proved: no crash and both calls return, in every interleaving. False: for every table, its latest entry being removed and any entry being added, there is an interleaving after which every pass meets an entry without key and data, and one after which no pass meets the new entry (laws). C91_dlopen_law_partial covers the changes of the table of functions not found, not the rest of gotcha_wrap and dlopen. The C91_search theorems have the search of the removal access by access too; in the others it is one step. Additions during which the table grows are C93; reordering by the compiler or the processor is missing."
  },
  {
   "property": "C92",
   "status": "partial",
   "theorems": [
    "C92_serial",
    "C92_symmetric",
    "C92_safe",
    "C92_crash_law",
    "C92_twice_law",
    "C92_endless_law",
    "C92_ghost_law",
    "C92_dlopen_law_partial",
    "C92_search_safe",
    "C92_search_law"
   ],
   "note": "Proved: for keys with different hash values other than 0 no crash, and both calls return, in every interleaving. False: for every table and every key in it there is an interleaving of two removals of that key in which one crashes, and one after which both report success and the count is one too small, so that, if it was the only entry, the next addition never ends; for the latest two entries one after which every pass meets an entry without key and data (laws). C92_dlopen_law_partial covers the changes of the table of functions not found, not the rest of the two dlopen calls. The C92_search theorems have the searches access by access too; in the others a search is one step. Reordering by the compiler or the processor is missing."
  },
  {
   "property": "C93",
   "status": "partial",
   "theorems": [
    "C93_serial",
    "C93_lost_law",
    "C93_head_law",
    "C93_dlopen_law_partial"
   ],
   "note": "Proved: one call after the other, in either order, does what the two functions do. False otherwise: for every table that grows for the next entry, every key in it and every new entry there is an interleaving in which the removal writes to the array given back and reports success while its key is still there, and after which the count is one too small (C93_lost_law), and for the latest entry one in which the removal is left about to make the head of the table an entry of the array given back (C93_head_law). C93_dlopen_law_partial covers the changes of the table of functions not found, not the rest of gotcha_wrap and dlopen. The growth and the search of the removal are one step each; the contents of the memory given back, which a store to slot 0 can damage as its first word links the free list, and reordering by the compiler or the processor are missing."
  },
  {
   "property": "C94",
   "status": "partial",
   "theorems": [
    "C94_serial",
    "C94_symmetric",
    "C94_safe",
    "C94_search_law",
    "C94_lost_law",
    "C94_wrap_law_partial"
   ],
   "note": "Proved: one call after the other, in either order, does what two calls of the function do, and with room for both entries no interleaving crashes, grows the table or leaves a thread in an array given back; a growth just before the search of the other thread does no harm (C94_search_law). False otherwise: for every table that grows for the next entry and every two new entries there is an interleaving in which both threads decide to grow the table, the second one grows it when the first one has chosen its slot, and the first one fills a slot of the array given back and is left about to store a pointer to it in the table; its key is not found then (C94_lost_law). The run ends there: what follows depends on the memory given back, which is not modelled. C94_wrap_law_partial covers the changes of the table of functions not found, not the rest of the two gotcha_wrap calls. The decision about growth and the growth are one step each; reordering by the compiler or the processor is missing."
  }
 ]
}