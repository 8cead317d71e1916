(** The names of tools by reference.  create_tool keeps the caller's pointer (src/tool.c:73,
    newtool->tool_name = tool_name), so the name of a tool is whatever the caller's buffer holds at the time it
    is compared (gotcha_strcmp in get_tool, src/tool.c:88, and tool_equal, src/tool.c:26-28).  CoreModel.v gives
    every tool a name of its own; here the buffers are explicit and the process may write to them. *)
From Verif Require Import Base HashModel ElfModel ToolModel CoreModel.

(** what the process does: write a string into a buffer, call GOTCHA with a tool name in a buffer ([None]: a NULL
    pointer), or any other operation; names inside [ROther] are string literals, which nobody overwrites *)
Inductive rop :=
| RWrite (b : nat) (s : cstr)
| RWrap (ubs : list ubind) (tool : option nat)
| RSetPriority (b : nat) (v : Z)
| RGetPriority (b : nat)
| ROther (o : op).

(** GOTCHA's state, the buffers, and for every tool (by its place in the heap of tools) the buffer its name
    pointer points to; [None]: a string literal ("gotcha", "[UNSPECIFIED]") *)
Record rstate := mkR { r_st : state; r_buf : nat -> cstr; r_of : list (option nat) }.

(** the operation with the present content of the buffers *)
Definition op_of (buf : nat -> cstr) (o : rop) : op :=
  match o with
  | RWrap ubs tool => OWrap ubs (option_map buf tool)
  | RSetPriority b v => OSetPriority (buf b) v
  | RGetPriority b => OGetPriority (buf b)
  | ROther o => o
  | RWrite _ _ => OFilter FAlways (* not used *)
  end.
(** the buffer given to an operation that may create a tool *)
Definition named_by (o : rop) : option nat :=
  match o with RWrap _ tool => tool | RSetPriority b _ => Some b | _ => None end.

Definition set_tname (s : cstr) (t : tool) : tool := mkTool s (t_binding t) (t_next t) (t_prio t) (t_children t) (t_parent t).
(** every tool whose name lies in buffer [b] now has the name [s] *)
Fixpoint rename (b : nat) (s : cstr) (of : list (option nat)) (h : list tool) : list tool :=
  match of, h with
  | o :: of, t :: h => (match o with Some b' => if Nat.eqb b' b then set_tname s t else t | None => t end) :: rename b s of h
  | _, _ => h
  end.
(** the buffers of the tools an operation has created: besides GOTCHA's own tool, created with a literal by
    gotcha_init and found from then on, at most one, with the name given *)
Definition new_of (arg : option nat) (buf : nat -> cstr) (new : list tool) : list (option nat) :=
  map (fun t => match arg with
                | Some b => if cstr_eqb (t_name t) (buf b) && negb (cstr_eqb (t_name t) n_gotcha) then Some b else None
                | None => None
                end) new.

Definition rstep (e : env) (r : rstate) (o : rop) : outcome (rstate * list res) :=
  match o with
  | RWrite b s =>
    let bs := s_b (r_st r) in
    let ts := mkTS (rename b s (r_of r) (ts_heap (b_tools bs))) (ts_head (b_tools bs)) in
    Ok (mkR (set_b (set_btools ts bs) (r_st r)) (fun x => if Nat.eqb x b then s else r_buf r x) (r_of r), [])
  | _ =>
    do ' (st, x) <- step e (r_st r) (op_of (r_buf r) o);
    Ok (mkR st (r_buf r) (r_of r ++ new_of (named_by o) (r_buf r) (skipn (length (r_of r)) (ts_heap (b_tools (s_b st))))), [x])
  end.
Fixpoint rrun (e : env) (r : rstate) (ops : list rop) : outcome (rstate * list res) :=
  match ops with
  | [] => Ok (r, [])
  | o :: l => do ' (r, xs) <- rstep e r o; do ' (r, ys) <- rrun e r l; Ok (r, xs ++ ys)
  end.
Definition rinit (maps : list lmap) (mem : Z -> Z) (buf : nat -> cstr) : rstate := mkR (init_state maps mem) buf [].
