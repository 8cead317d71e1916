(** The first calls of GOTCHA's API made by several threads.

    A call is cut where another thread may run: gotcha_init (src/gotcha_utils.c:107-116) reads the flag
    gotcha_initialized, sets it, sets up the hash tables and wraps dlopen and dlsym; then the function does its work.
    Simplification: each of these five parts is taken as one step, so the model has fewer interleavings than the
    program.  What goes wrong here goes wrong in the program; what is shown to work here need not work there.
    debug_init, between the second and the third part, only sets the debug level. *)
From Verif Require Import Base HashModel ElfModel ToolModel CoreModel.

(** where a thread is in its call *)
Inductive phase :=
| AtFlag      (* about to read gotcha_initialized, :109 *)
| AtSet       (* has read 0, about to store 1, :112 *)
| AtTables    (* about to call setup_hash_tables, :114 *)
| AtDl        (* about to call handle_libdl, :115 *)
| AtWork      (* gotcha_init has returned *)
| Done (r : res).
Record thread := mkTh { th_call : op; th_at : phase }.

Definition set_flag (st : state) : state := mkSt true (s_main st) (s_b st) (s_l st) (s_p st).

(** The nested gotcha_wrap of handle_libdl and the work itself call gotcha_init again, which returns at once since
    the flag is set.  The bound on the recursion is that of the sequential model. *)
Definition nested (e : env) (o : op) : wrap_fun := match o with OWrap _ _ => wrap_n e 2 | _ => wrap_n e 3 end.
Definition thread_step (e : env) (st : state) (t : thread) : outcome (state * thread) :=
  let goto p := mkTh (th_call t) p in
  match th_at t with
  | AtFlag => Ok (st, goto (if s_init st then AtWork else AtSet))
  | AtSet => Ok (set_flag st, goto AtTables)
  | AtTables => do st <- setup_hash_tables e st; Ok (st, goto AtDl)
  | AtDl => do ' (st, _) <- nested e (th_call t) st (dl_binds e) (Some n_gotcha); Ok (st, goto AtWork)
  | AtWork => do ' (st, r) <- step e st (th_call t); Ok (st, goto (Done r))
  | Done _ => Ok (st, t)
  end.

(** [sched] says which thread makes the next step; numbers of no thread are passed over *)
Fixpoint trun (e : env) (st : state) (ts : list thread) (sched : list nat) : outcome (state * list thread) :=
  match sched with
  | [] => Ok (st, ts)
  | i :: r =>
    match nth_error ts i with
    | None => trun e st ts r
    | Some t => do ' (st, t) <- thread_step e st t; trun e st (upd ts i (fun _ => t)) r
    end
  end.

(** all threads before their call *)
Definition entering (calls : list op) : list thread := map (fun o => mkTh o AtFlag) calls.
