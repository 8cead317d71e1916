(** Calls of gotcha_wrap made by several threads whose stages interleave.

    A call is cut where another thread may run: between the set-up of its tables, the iterations of its loop over the bindings and
    the update of the call sites.  Simplification: each of these stages is one step, so the model has fewer interleavings
    than the program.  What goes wrong here goes wrong in the program; what is shown to work here need not work there.  The
    nested calls made when main is bound are part of the iteration for main. *)
From Verif Require Import Base HashModel ElfModel ToolModel CoreModel.

(** where a thread is in gotcha_wrap *)
Inductive stage :=
| AtEnter                                         (* about to enter, src/gotcha.c:402 *)
| AtLoop (na : Z) (n b : nat) (pr : progress)     (* in the loop of :449-480, num_actions = [na]; [n] internal bindings are left, the first is [b] *)
| Returned (code : Z).
Record wcall := mkWC { wc_binds : list ubind; wc_tool : option cstr; wc_at : stage }.

(** src/gotcha.c:402-448, up to the loop: gotcha_init, the handles set to NULL, the tool, the generation, the internal bindings *)
Definition wrap_enter (e : env) (st : state) (ubs : list ubind) (tool_name : option cstr) : outcome (state * stage) :=
  do st <- gotcha_init e (wrap_n e 2) st;
  let st := set_b (set_handles (null_handles ubs (b_handles (s_b st))) (s_b st)) st in
  let tool_name := match tool_name with Some n => n | None => n_unspecified end in
  do ' (ts, tool) <- get_or_create_tool (e_ps e) (b_tools (s_b st)) tool_name;
  let st := set_b (set_btools ts (s_b st)) st in
  let l := s_l st in
  let st := set_l (mkLS (l_table l) (l_heap l) (l_list l) (u32 (l_gen l + 1))) st in
  do ' (bs, tbl) <- add_binding_to_tool e (s_b st) tool ubs;
  let st := set_b bs st in
  do bt <- deref (b_tables bs) tbl;
  Ok (st, AtLoop (Z.of_nat (length ubs)) (length ubs) (bt_start bt) (mkPr 0 None)).

(** src/gotcha.c:481-490: the call sites and the return code *)
Definition wrap_leave (e : env) (st : state) (pr : progress) : outcome (state * stage) :=
  do st <- (match pr_new pr with
            | Some t => update_all_library_gots e t st
            | None => Ok st
            end);
  Ok (st, Returned (if negb (pr_not_found pr =? 0) then GOTCHA_FUNCTION_NOT_FOUND else GOTCHA_SUCCESS)).

(** one step of a thread *)
Definition call_step (e : env) (st : state) (c : wcall) : outcome (state * wcall) :=
  do ' (st, s) <-
    (match wc_at c with
     | AtEnter => wrap_enter e st (wc_binds c) (wc_tool c)
     | AtLoop na (S n) b pr => do ' (st, pr) <- wrap_one e (wrap_n e 2) na b (st, pr); Ok (st, AtLoop na n (S b) pr)
     | AtLoop na O b pr => wrap_leave e st pr
     | Returned code => Ok (st, Returned code)
     end);
  Ok (st, mkWC (wc_binds c) (wc_tool c) s).

(** [sched] says which thread makes the next step; numbers of no thread are passed over *)
Fixpoint orun (e : env) (st : state) (cs : list wcall) (sched : list nat) : outcome (state * list wcall) :=
  match sched with
  | [] => Ok (st, cs)
  | i :: r =>
    match nth_error cs i with
    | None => orun e st cs r
    | Some c => do ' (st, c) <- call_step e st c; orun e st (upd cs i (fun _ => c)) r
    end
  end.

(** all threads before their call *)
Definition about (calls : list (list ubind * option cstr)) : list wcall := map (fun c => mkWC (fst c) (snd c) AtEnter) calls.
