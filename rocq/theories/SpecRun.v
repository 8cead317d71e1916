(** Specification vocabulary for whole histories: well-behaved processes and callers, and what a library
    exports and imports. *)
From Verif Require Import Base HashModel SpecHash ElfModel SpecElf ToolModel CoreModel SpecCore.

(** what a library exports and which slots it has, as read by GOTCHA; the meaning of these in terms of the
    ELF tables is the subject of C34-C40 *)
Definition exports (e : env) (m : lmap) (n : cstr) : option Z :=
  match lookup_exported_symbol (e_vdso e m) n m with Ok r => r | Fault _ => None end.
Definition relocs (m : lmap) : list (Z * cstr) :=
  match for_each_pltrel m with Ok (Some l) => l | _ => [] end.

(** address [a] is a relocation slot of [m] for the symbol [n] *)
Definition slot (rl : lmap -> list (Z * cstr)) (m : lmap) (n : cstr) (a : Z) : Prop :=
  exists off, In (off, n) (rl m) /\ a = u64 (lm_addr m + off).

(** the library filter accepts [m] in the link map list *)
Definition accepted (f : lfilter) (maps : list lmap) (m : lmap) : Prop :=
  exists pre rest, maps = pre ++ m :: rest /\ filter_func f m rest = Ok true.

(** a process whose libraries are in order *)
Record process_ok (e : env) (maps : list lmap) (ops : list op) : Prop := {
  po_env : env_ok e;
  po_maps : forall m, In m maps -> lib_wf m;
  po_ops : forall o m, In o ops -> In m (op_libs o) -> lib_wf m }.

(** the bindings the users pass to gotcha_wrap *)
Definition op_binds (o : op) : list ubind := match o with OWrap ubs _ => ubs | _ => [] end.
Definition user_binds (ops : list op) : list ubind := flat_map op_binds ops.

(** every binding has its own handle variable and, per function, its own wrapper; GOTCHA's own handle
    variables and wrappers are not used *)
Record fresh (e : env) (ops : list op) : Prop := {
  fr_handles : NoDup (map ub_handle (user_binds ops));
  fr_wrappers : NoDup (map (fun u => (ub_name u, ub_wrapper u)) (user_binds ops));
  fr_internal : forall u, In u (user_binds ops) ->
                  ~ In (ub_handle u) (internal_handles e) /\ ~ In (ub_wrapper u) (internal_wrappers e) }.

(** the history according to the specification *)
Definition history (e : env) (maps : list lmap) (ops : list op) : astate := fst (arun place (exports e) e (a0 maps) ops).
(** the wrappers of [n], outermost first; its original function; the tools' priorities *)
Definition stack (e : env) (maps : list lmap) (ops : list op) (n : cstr) : list entry := a_stack (history e maps ops) n.
Definition original (e : env) (maps : list lmap) (ops : list op) (n : cstr) : option Z := a_orig (history e maps ops) n.
Definition prios (e : env) (maps : list lmap) (ops : list op) : list (cstr * Z) := a_tools (history e maps ops).

(** the user has bound main *)
Definition main_bound (ops : list op) : Prop := In n_main (map ub_name (user_binds ops)).

(** operations of GOTCHA itself, as opposed to those of the loader and the setting of the filter *)
Definition gotcha_op (o : op) : Prop :=
  match o with OWrap _ _ | OSetPriority _ _ | OGetPriority _ | OFinish => True | OFilter _ | OLoad _ _ | OUnload _ _ => False end.
(** some API function that initialises GOTCHA has been called *)
Definition is_api (o : op) : bool := match o with OWrap _ _ | OSetPriority _ _ | OGetPriority _ => true | _ => false end.

(** the order of C02 with priorities [pr]: higher priority first, equal priorities in order of installation *)
Definition outside_by (pr : cstr -> Z) (inst : list entry) (x y : entry) : Prop :=
  pr (en_tool y) < pr (en_tool x) \/ (pr (en_tool x) = pr (en_tool y) /\ before inst x y).

(** the tools met when following next pointers *)
Inductive tlist (h : list tool) : option nat -> list tool -> Prop :=
| tl_nil : tlist h None []
| tl_cons i t l : nth_error h i = Some t -> tlist h (t_next t) l -> tlist h (Some i) (t :: l).

(** the handle variable [h] points to binding [i], which is the one of entry [x] for function [n] *)
Definition denotes (st : state) (h : Z) (i : nat) (n : cstr) (x : entry) : Prop :=
  b_handles (s_b st) h = Some i /\
  exists ib bt t, nth_error (b_ib (s_b st)) i = Some ib /\ nth_error (b_tables (s_b st)) (ib_table ib) = Some bt /\
    nth_error (ts_heap (b_tools (s_b st))) (bt_tool bt) = Some t /\
    ub_name (ib_user ib) = n /\ x = mkE (t_name t) (ub_wrapper (ib_user ib)) (ub_handle (ib_user ib)).

(** the filter set last *)
Definition set_filter_last (f : lfilter) (o : op) : lfilter := match o with OFilter g => g | _ => f end.
Definition last_filter (ops : list op) : lfilter := fold_left set_filter_last ops FAlways.

(** address [a] lies in a loaded segment (PT_LOAD = 1) of the object; no segment reaches the end of the address space *)
Definition segment_start (i : phdr_info) (ph : phdr) : Z := (dlpi_addr i + p_vaddr ph) mod 18446744073709551616.
Definition in_segment (a : Z) (i : phdr_info) : Prop :=
  exists ph, In ph (dlpi_phdr i) /\ p_type ph = 1 /\ segment_start i ph <= a < segment_start i ph + p_memsz ph.
Definition segments_fit (i : phdr_info) : Prop :=
  forall ph, In ph (dlpi_phdr i) -> p_type ph = 1 -> 0 <= p_memsz ph /\ segment_start i ph + p_memsz ph < 18446744073709551616.
(** [w]'s caller lies in library [m]: the first object of the program headers containing the return address
    belongs to [m], the first link map with that name and load address; [after] are the link maps after it *)
Definition caller_in (e : env) (st : state) (w : dlworld) (m : lmap) (after : list lmap) : Prop :=
  exists i1 i i2 pre, e_phdrs e (p_maps (s_p st)) = i1 ++ i :: i2 /\ (forall j, In j i1 -> ~ in_segment (dw_caller w) j) /\
    in_segment (dw_caller w) i /\ (forall j, In j (i1 ++ [i]) -> segments_fit j) /\ p_maps (s_p st) = pre ++ m :: after /\
    lm_name m = Some (dlpi_name i) /\ lm_addr m = dlpi_addr i /\
    (forall m', In m' pre -> lm_name m' <> Some (dlpi_name i) \/ lm_addr m' <> dlpi_addr i).

(** [s] occurs in [t] *)
Definition substring (s t : cstr) : Prop := exists a b, t = a ++ s ++ b.
