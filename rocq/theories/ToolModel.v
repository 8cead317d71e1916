(** Model of the tool registry: src/tool.c (bindings of a tool are in CoreModel.v) and the priority
    functions of src/gotcha.c. *)
From Verif Require Import Base HashModel.

(** dereference of a heap pointer *)
Definition deref {A} (heap : list A) (p : nat) : outcome A :=
  match nth_error heap p with Some x => Ok x | None => Fault NullDeref end.

(** tool_t, src/tool.h:72-79.  Pointers are indices into the heap of tools (binding tables for
    [t_binding]); tools are never freed. *)
Record tool := mkTool {
  t_name : cstr;
  t_binding : option nat;
  t_next : option nat;
  t_prio : Z;
  t_children : htable cstr nat;
  t_parent : option nat }.

Definition set_tnext (v : option nat) (t : tool) : tool :=
  mkTool (t_name t) (t_binding t) v (t_prio t) (t_children t) (t_parent t).
Definition set_tprio (v : Z) (t : tool) : tool :=
  mkTool (t_name t) (t_binding t) (t_next t) v (t_children t) (t_parent t).
Definition set_tbinding (v : option nat) (t : tool) : tool :=
  mkTool (t_name t) v (t_next t) (t_prio t) (t_children t) (t_parent t).

(** the heap of tools and the static variable tools, src/tool.c:21 *)
Record tstate := mkTS { ts_heap : list tool; ts_head : option nat }.

(** UNSET_PRIORITY, src/tool.h:25 *)
Definition UNSET_PRIORITY : Z := -1.

(** tool_equal, src/tool.c:26-28 (0 means equal) *)
Definition tool_equal (h : list tool) (t1 t2 : nat) : outcome Z :=
  do a <- deref h t1; do b <- deref h t2; Ok (libc_strcmp (t_name a) (t_name b)).

(** while loop of remove_tool_from_list, src/tool.c:39-42; the result is cur *)
Fixpoint remove_walk (fuel : nat) (h : list tool) (cur target : nat) : outcome nat :=
  match fuel with
  | O => Fault NoTermination
  | S f =>
    do c <- deref h cur;
    match t_next c with
    | None => Ok cur
    | Some nx => do e <- tool_equal h nx target;
                 if negb (e =? 0) then remove_walk f h nx target else Ok cur
    end
  end.

(** remove_tool_from_list, src/tool.c:30-46 *)
Definition remove_tool_from_list (ts : tstate) (target : nat) : outcome tstate :=
  match ts_head ts with
  | None => Ok ts
  | Some hd =>
    do e <- tool_equal (ts_heap ts) hd target;
    if e =? 0 then
      do t <- deref (ts_heap ts) hd; Ok (mkTS (ts_heap ts) (t_next t))
    else
      do cur <- remove_walk (S (length (ts_heap ts))) (ts_heap ts) hd target;
      do c <- deref (ts_heap ts) cur;
      match t_next c with
      | None => Fault NullDeref
      | Some nx =>
        do e <- tool_equal (ts_heap ts) nx target;
        if e =? 0 then
          do t <- deref (ts_heap ts) target;
          Ok (mkTS (upd (ts_heap ts) cur (set_tnext (t_next t))) (ts_head ts))
        else Ok ts
      end
  end.

(** while loop of reorder_tool, src/tool.c:55-58; the result is cur *)
Fixpoint reorder_walk (fuel : nat) (h : list tool) (cur : nat) (new_priority : Z) : outcome nat :=
  match fuel with
  | O => Fault NoTermination
  | S f =>
    do c <- deref h cur;
    match t_next c with
    | None => Ok cur
    | Some nx => do n <- deref h nx;
                 if t_prio n <? new_priority then reorder_walk f h nx new_priority else Ok cur
    end
  end.

(** reorder_tool, src/tool.c:48-62 *)
Definition reorder_tool (ts : tstate) (new_tool : nat) : outcome tstate :=
  do nt <- deref (ts_heap ts) new_tool;
  let new_priority := t_prio nt in
  let at_head := Ok (mkTS (upd (ts_heap ts) new_tool (set_tnext (ts_head ts))) (Some new_tool)) in
  match ts_head ts with
  | None => at_head
  | Some hd =>
    do t <- deref (ts_heap ts) hd;
    if t_prio t >=? new_priority then at_head
    else
      do cur <- reorder_walk (S (length (ts_heap ts))) (ts_heap ts) hd new_priority;
      do c <- deref (ts_heap ts) cur;
      let h := upd (ts_heap ts) new_tool (set_tnext (t_next c)) in
      Ok (mkTS (upd h cur (set_tnext (Some new_tool))) (ts_head ts))
  end.

(** get_default_configuration, src/tool.c:151-155 *)
Definition default_priority : Z := UNSET_PRIORITY.

(** create_tool, src/tool.c:64-83.  malloc succeeds; the next field is set by reorder_tool before it
    is read. *)
Definition create_tool (ps : Z) (ts : tstate) (name : cstr) : outcome (tstate * nat) :=
  let newtool := length (ts_heap ts) in
  do children <- create_hashtable ps 24 strhash libc_strcmp;
  let heap := ts_heap ts ++ [mkTool name None None default_priority children None] in
  do ts' <- reorder_tool (mkTS heap (ts_head ts)) newtool;
  Ok (ts', newtool).

(** get_tool, src/tool.c:85-93 *)
Fixpoint get_tool_loop (fuel : nat) (h : list tool) (t : option nat) (name : cstr) : outcome (option nat) :=
  match t with
  | None => Ok None
  | Some i =>
    match fuel with
    | O => Fault NoTermination
    | S f =>
      do x <- deref h i;
      if libc_strcmp name (t_name x) =? 0 then Ok (Some i) else get_tool_loop f h (t_next x) name
    end
  end.
Definition get_tool (ts : tstate) (name : cstr) : outcome (option nat) :=
  get_tool_loop (length (ts_heap ts)) (ts_heap ts) (ts_head ts) name.

(** get_priority, src/tool.c:195 *)
Definition get_priority (ts : tstate) (t : nat) : outcome Z :=
  do x <- deref (ts_heap ts) t; Ok (t_prio x).

(** the return codes of gotcha_error_t, include/gotcha/gotcha_types.h *)
Definition GOTCHA_SUCCESS : Z := 0.
Definition GOTCHA_FUNCTION_NOT_FOUND : Z := 1.
Definition GOTCHA_INTERNAL : Z := 2.
Definition GOTCHA_INVALID_TOOL : Z := 3.

(** parent loop of get_configuration_value for key GOTCHA_PRIORITY, src/tool.c:177-192;
    [loc] is the content of *location_to_store_result *)
Fixpoint config_loop (fuel : nat) (h : list tool) (t : option nat) (loc : Z) : outcome Z :=
  match t with
  | None => Ok loc
  | Some i =>
    match fuel with
    | O => Fault NoTermination
    | S f =>
      do x <- deref h i;
      if negb (t_prio x =? UNSET_PRIORITY) then Ok (t_prio x) else config_loop f h (t_parent x) loc
    end
  end.

(** get_configuration_value for key GOTCHA_PRIORITY, src/tool.c:166-193.
    Result: return code and the value stored ([None]: nothing is stored). *)
Definition get_configuration_value (ts : tstate) (name : cstr) : outcome (Z * option Z) :=
  do t <- get_tool ts name;
  match t with
  | None => Ok (GOTCHA_INVALID_TOOL, None)
  | Some i => do v <- config_loop (S (length (ts_heap ts))) (ts_heap ts) (Some i) default_priority;
              Ok (GOTCHA_SUCCESS, Some v)
  end.

(** get_tool, creating the tool if there is none: src/gotcha.c:427-428 and 496-499 *)
Definition get_or_create_tool (ps : Z) (ts : tstate) (name : cstr) : outcome (tstate * nat) :=
  do t <- get_tool ts name;
  match t with
  | Some i => Ok (ts, i)
  | None => create_tool ps ts name
  end.

(** gotcha_configure_int with key GOTCHA_PRIORITY followed by the rest of gotcha_set_priority,
    src/gotcha.c:493-507 and 514-526 (after gotcha_init) *)
Definition set_priority_int (ps : Z) (ts : tstate) (name : cstr) (value : Z) : outcome tstate :=
  do ' (ts, i) <- get_or_create_tool ps ts name;
  let ts := mkTS (upd (ts_heap ts) i (set_tprio value)) (ts_head ts) in
  do ' (ts, j) <- get_or_create_tool ps ts name;
  do ts <- remove_tool_from_list ts j;
  reorder_tool ts j.
