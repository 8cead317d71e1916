(** GOTCHA's messages: debug_printf, debug_bare_printf and error_printf (src/gotcha_utils.h:47-74), in the build in
    which gotcha_dbg_printf is GOTCHA's own printf to standard error (src/libc_wrappers.h:87-88). *)
From Verif Require Import Base LibcModel.
From Coq Require String.
Import String.StringSyntax.
Open Scope string_scope.
Open Scope list_scope.
Open Scope Z_scope.

(** the types of the arguments.  unsigned long stands also for size_t and ElfW(Addr). *)
Inductive kind := KInt | KUInt | KULong | KPtr | KStr.
(** the macro and its level *)
Inductive gate := Debug (level : Z) | Bare (level : Z) | Error.
(** [g_line] is the line on which the call starts; __LINE__ in a call of several lines is left to the compiler. *)
Record msg := mkMsg { g_file : cstr; g_line : Z; g_gate : gate; g_fmt : cstr; g_args : list kind }.

(** debug_level >= lvl, src/gotcha_utils.h:49 and :58; if (debug_level), :68 *)
Definition enabled (debug_level : Z) (g : gate) : bool :=
  match g with Debug l | Bare l => debug_level >=? l | Error => negb (debug_level =? 0) end.
(** the format with the prefix of the macro, src/gotcha_utils.h:50, :59-61, :69-71 *)
Definition full_fmt (g : msg) : cstr :=
  match g_gate g with
  | Bare _ => g_fmt g
  | Debug _ => of_string "[%d/%d][%s:%u] - " ++ g_fmt g
  | Error => of_string "ERROR [%d/%d][%s:%u] - " ++ g_fmt g
  end.
Definition prefix_args (g : gate) (tid pid file line : Z) : list Z :=
  match g with Bare _ => [] | _ => [tid; pid; file; line] end.
(** A message: the calls of write.  [format] points to the format with its prefix; [file] is SHORT_FILE__; each
    argument is a 64-bit slot. *)
Definition emit (m : bytes) (debug_level : Z) (g : msg) (format tid pid file line : Z) (args buf : list Z) : outcome (list (list Z)) :=
  if enabled debug_level (g_gate g) then
    do ' (calls, _) <- gotcha_int_printf m format (prefix_args (g_gate g) tid pid file line ++ args) buf; Ok calls
  else Ok [].

(** All messages of src/gotcha.c, src/gotcha_dl.c, src/gotcha_utils.c and src/tool.c.  The types are those of the arguments'
    declarations, not those the format asks for. *)
Definition messages : list msg :=
  [mkMsg (of_string "gotcha.c") 38 (Debug 3) (of_string "Updating binding address pointer at %p to %p" ++ [10]) [KPtr; KPtr];
   mkMsg (of_string "gotcha.c") 50 (Debug 3) (of_string "Updating binding address pointer at %p to %p" ++ [10]) [KPtr; KPtr];
   mkMsg (of_string "gotcha.c") 59 (Debug 2) (of_string "Skipping VDSO library at 0x%lx with name %s" ++ [10]) [KULong; KStr];
   mkMsg (of_string "gotcha.c") 63 (Debug 2) (of_string "Searching for exported symbols in %s" ++ [10]) [KStr];
   mkMsg (of_string "gotcha.c") 67 (Debug 3) (of_string "Library %s does not export or import symbols" ++ [10]) [KStr];
   mkMsg (of_string "gotcha.c") 73 (Debug 3) (of_string "Checking GNU hash for %s in %s" ++ [10]) [KStr; KStr];
   mkMsg (of_string "gotcha.c") 78 (Debug 3) (of_string "Checking ELF hash for %s in %s" ++ [10]) [KStr; KStr];
   mkMsg (of_string "gotcha.c") 83 (Debug 3) (of_string "%s not found in %s" ++ [10]) [KStr; KStr];
   mkMsg (of_string "gotcha.c") 87 (Debug 3) (of_string "Symbol %s found but not exported in %s" ++ [10]) [KStr; KStr];
   mkMsg (of_string "gotcha.c") 92 (Debug 2) (of_string "Symbol %s found in %s at 0x%lx" ++ [10]) [KStr; KStr; KULong];
   mkMsg (of_string "gotcha.c") 103 (Debug 2) (of_string "Looking up exported symbols for %s" ++ [10]) [KStr];
   mkMsg (of_string "gotcha.c") 107 (Debug 3) (of_string "Creating new library object for %s" ++ [10]) [KStr];
   mkMsg (of_string "gotcha.c") 117 (Debug 1) (of_string "Symbol %s was found in program" ++ [10]) [KStr];
   mkMsg (of_string "gotcha.c") 151 (Debug 2) (of_string "Wrapping main with Gotcha's internal wrappers") [];
   mkMsg (of_string "gotcha.c") 158 (Debug 2) (of_string "gotcha_rewrite_wrapper_orders for binding %s in tool %s of priority %d" ++ [10]) [KStr; KStr; KInt];
   mkMsg (of_string "gotcha.c") 169 (Debug 2) (of_string "Adding new entry for %s to hash table" ++ [10]) [KStr];
   mkMsg (of_string "gotcha.c") 176 (Debug 2) (of_string "New binding priority %d is greater than head priority %d, adding to head" ++ [10]) [KInt; KInt];
   mkMsg (of_string "gotcha.c") 188 (Debug 3) (of_string "Comparing binding for new insertion %d to binding for tool %s at %d" ++ [10]) [KInt; KStr; KInt];
   mkMsg (of_string "gotcha.c") 199 (Debug 3) (of_string "Tool is already inserted.  Skipping binding rewrite" ++ [10]) [];
   mkMsg (of_string "gotcha.c") 203 (Debug 2) (of_string "Inserting binding after tool %s" ++ [10]) [KStr];
   mkMsg (of_string "gotcha.c") 220 (Debug 3) (of_string "Remapped call to %s at 0x%lx in %s to wrapper at 0x%p" ++ [10]) [KStr; KULong; KStr; KPtr];
   mkMsg (of_string "gotcha.c") 298 (Debug 3) (of_string "Setting library %s GOT and PLT table from %p to +%lu to writeable" ++ [10]) [KStr; KPtr; KULong];
   mkMsg (of_string "gotcha.c") 307 Error (of_string "GOTCHA attempted to mark both GOT and PLT GOT tables as writable and was unable to do so, calls to wrapped functions may likely fail." ++ [10]) [];
   mkMsg (of_string "gotcha.c") 316 (Debug 3) (of_string "Setting library %s GOT and PLT table from %p to +%lu to writeable" ++ [10]) [KStr; KPtr; KULong];
   mkMsg (of_string "gotcha.c") 324 Error (of_string "GOTCHA attempted to mark both GOT and PLT GOT tables as writable and was unable to do so, calls to wrapped functions may likely fail." ++ [10]) [];
   mkMsg (of_string "gotcha.c") 331 (Debug 3) (of_string "Setting library %s only GOT table from %p to +%lu to writeable" ++ [10]) [KStr; KPtr; KULong];
   mkMsg (of_string "gotcha.c") 337 Error (of_string "GOTCHA attempted to mark the only GOT table as writable and was unable to do so, calls to wrapped functions may likely fail." ++ [10]) [];
   mkMsg (of_string "gotcha.c") 345 (Debug 3) (of_string "Setting library %s only PLT GOT table from %p to +%lu to writeable" ++ [10]) [KStr; KPtr; KULong];
   mkMsg (of_string "gotcha.c") 353 Error (of_string "GOTCHA attempted to mark the only PLT GOT table as writable and was unable to do so, calls to wrapped functions may likely fail." ++ [10]) [];
   mkMsg (of_string "gotcha.c") 366 (Debug 3) (of_string "Creating new library object for %s" ++ [10]) [KStr];
   mkMsg (of_string "gotcha.c") 371 (Debug 3) (of_string "Skipping library %s due to libraryFilterFunc" ++ [10]) [KStr];
   mkMsg (of_string "gotcha.c") 377 (Debug 2) (of_string "Library %s is already up-to-date.  Skipping GOT rewriting" ++ [10]) [KStr];
   mkMsg (of_string "gotcha.c") 395 (Debug 2) (of_string "Searching all callsites for %lu bindings" ++ [10]) [KULong];
   mkMsg (of_string "gotcha.c") 411 (Debug 1) (of_string "User called gotcha_wrap for tool %s with %d bindings" ++ [10]) [KStr; KInt];
   mkMsg (of_string "gotcha.c") 415 (Bare 3) ([9] ++ of_string "%d: %s will map to %p" ++ [10]) [KInt; KStr; KPtr];
   mkMsg (of_string "gotcha.c") 420 (Debug 3) (of_string "Initializing %d user binding entries to NULL" ++ [10]) [KInt];
   mkMsg (of_string "gotcha.c") 430 Error (of_string "Failed to create tool %s" ++ [10]) [KStr];
   mkMsg (of_string "gotcha.c") 435 (Debug 2) (of_string "Moved current_generation to %u in gotcha_wrap" ++ [10]) [KUInt];
   mkMsg (of_string "gotcha.c") 438 (Debug 2) (of_string "Creating internal binding data structures and adding binding to tool" ++ [10]) [];
   mkMsg (of_string "gotcha.c") 443 Error (of_string "Failed to create bindings for tool %s" ++ [10]) [KStr];
   mkMsg (of_string "gotcha.c") 447 (Debug 2) (of_string "Processing %d bindings" ++ [10]) [KInt];
   mkMsg (of_string "gotcha.c") 452 (Debug 2) (of_string "Symbol %s needs lookup operation" ++ [10]) [KStr];
   mkMsg (of_string "gotcha.c") 456 (Debug 2) (of_string "Stashing %s in notfound_binding table to re-lookup on dlopens" ++ [10]) [KStr];
   mkMsg (of_string "gotcha.c") 467 (Debug 2) (of_string "Symbol %s needs binding from application" ++ [10]) [KStr];
   mkMsg (of_string "gotcha.c") 485 (Debug 1) (of_string "Could not find bindings for %d / %d functions" ++ [10]) [KInt; KInt];
   mkMsg (of_string "gotcha.c") 489 (Debug 1) (of_string "Gotcha wrap completed successfully" ++ [10]) [];
   mkMsg (of_string "gotcha.c") 503 Error (of_string "Invalid property being configured on tool %s" ++ [10]) [KStr];
   mkMsg (of_string "gotcha.c") 512 (Debug 1) (of_string "User called gotcha_set_priority(%s, %d)" ++ [10]) [KStr; KInt];
   mkMsg (of_string "gotcha_dl.c") 83 Error (of_string "RTLD_NEXT used in code not dynamically loaded") [];
   mkMsg (of_string "gotcha_dl.c") 95 (Debug 3) (of_string "Symbol %s not found in the library %s" ++ [10]) [KStr; KStr];
   mkMsg (of_string "gotcha_dl.c") 100 (Debug 3) (of_string "Symbol %s not found in the libraries after caller" ++ [10]) [KStr];
   mkMsg (of_string "gotcha_dl.c") 112 (Debug 3) (of_string "Trying to re-bind %s from tool %s after dlopen" ++ [10]) [KStr; KStr];
   mkMsg (of_string "gotcha_dl.c") 119 (Debug 3) (of_string "Selecting new innermost version of binding %s from tool %s." ++ [10]) [KStr; KStr];
   mkMsg (of_string "gotcha_dl.c") 128 (Debug 3) (of_string "Still could not prepare binding %s after dlopen" ++ [10]) [KStr];
   mkMsg (of_string "gotcha_dl.c") 140 (Debug 1) (of_string "User called dlopen(%s, 0x%x)" ++ [10]) [KStr; KUInt];
   mkMsg (of_string "gotcha_dl.c") 144 (Debug 2) (of_string "Searching new dlopened libraries for previously-not-found exports" ++ [10]) [];
   mkMsg (of_string "gotcha_dl.c") 148 (Debug 2) (of_string "Updating GOT entries for new dlopened libraries" ++ [10]) [];
   mkMsg (of_string "gotcha_dl.c") 158 (Debug 1) (of_string "User called dlsym(%p, %s)" ++ [10]) [KPtr; KStr];
   mkMsg (of_string "gotcha_utils.c") 45 (Debug 0) (of_string "Gotcha debug initialized at level %d" ++ [10]) [KInt];
   mkMsg (of_string "tool.c") 65 (Debug 1) (of_string "Found no existing tool with name %s" ++ [10]) [KStr];
   mkMsg (of_string "tool.c") 69 Error (of_string "Failed to malloc tool %s" ++ [10]) [KStr];
   mkMsg (of_string "tool.c") 81 (Debug 1) (of_string "Created new tool %s" ++ [10]) [KStr];
   mkMsg (of_string "tool.c") 116 Error (of_string "Could not create hash table for %s" ++ [10]) [KStr];
   mkMsg (of_string "tool.c") 125 Error (of_string "Could not add hash entry for %s to table for tool %s" ++ [10]) [KStr; KStr];
   mkMsg (of_string "tool.c") 138 (Debug 2) (of_string "Created new binding table of size %d for tool %s" ++ [10]) [KInt; KStr];
   mkMsg (of_string "tool.c") 171 Error (of_string "Property being examined for nonexistent tool %s" ++ [10]) [KStr];
   mkMsg (of_string "tool.c") 187 Error (of_string "Invalid property being configured on tool %s" ++ [10]) [KStr]].
