(** Vocabulary for C64: what is the same in two states of GOTCHA. *)
From Verif Require Import Base HashModel ElfModel ToolModel CoreModel SpecCore SpecRun.

(** the same state, but for the child tables of tools, which nothing reads *)
Definition tool_alike (t t' : tool) : Prop :=
  t_name t' = t_name t /\ t_binding t' = t_binding t /\ t_next t' = t_next t /\ t_prio t' = t_prio t /\ t_parent t' = t_parent t.
Definition alike (st st' : state) : Prop :=
  exists ts', st' = set_b (set_btools ts' (s_b st)) st /\ ts_head ts' = ts_head (b_tools (s_b st)) /\ Forall2 tool_alike (ts_heap (b_tools (s_b st))) (ts_heap ts').

(** nothing was installed for [ubs]: GOT slots, protections, filter, the tables of wrapped and of missing functions,
    the tables of bindings and the records of libraries are as before, the existing bindings and all handles but those
    of [ubs] too; the handle of a binding in [ubs] is NULL or points to a binding without a wrappee *)
Record not_installed (st st' : state) (ubs : list ubind) : Prop := {
  ni_process : s_p st' = s_p st;
  ni_flags : s_init st' = s_init st /\ s_main st' = s_main st;
  ni_libs : l_table (s_l st') = l_table (s_l st) /\ l_heap (s_l st') = l_heap (s_l st) /\ l_list (s_l st') = l_list (s_l st);
  ni_functions : b_fn (s_b st') = b_fn (s_b st) /\ b_nf (s_b st') = b_nf (s_b st);
  ni_tables : b_tables (s_b st') = b_tables (s_b st) /\ b_all (s_b st') = b_all (s_b st);
  ni_bindings : exists more, b_ib (s_b st') = b_ib (s_b st) ++ more;
  ni_handles : forall h, ~ In h (map ub_handle ubs) -> b_handles (s_b st') h = b_handles (s_b st) h;
  ni_own : forall u, In u ubs -> b_handles (s_b st') (ub_handle u) = None \/
             exists i ib, b_handles (s_b st') (ub_handle u) = Some i /\ (length (b_ib (s_b st)) <= i)%nat /\
                          nth_error (b_ib (s_b st')) i = Some ib /\ ib_wrappee ib = Uninit }.

(** The answers of gotcha_malloc with which gotcha_wrap gives up.  A tool not seen before needs a record and a table of
    children; the bindings need a table record, an array (whose address is not used if there are no bindings) and a
    hash table.  [short]: the hash table is the first thing missing that matters. *)
Definition short (ubs : list ubind) (al : list bool) : Prop := exists a r, al = true :: a :: false :: r /\ (a = true \/ ubs = []).
Definition refused (ops : list op) (ubs : list ubind) (tool : option cstr) (al : list bool) : Prop :=
  if used ops (tool_name tool) then short ubs al
  else hd true al = false \/ short ubs (tl (tl al)).

(** During initialisation: three answers for the tables of libraries, of functions and of missing functions; then those
    for wrapping dlopen and dlsym. *)
Definition init_refused (e : env) (al : list bool) : Prop :=
  hd true (skipn 3 al) = false \/ short (dl_binds e) (tl (tl (skipn 3 al))).
