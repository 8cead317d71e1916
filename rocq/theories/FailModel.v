(** Model of the same code as HashModel, ToolModel and CoreModel, for processes in which gotcha_malloc may return NULL.
    Each definition cites the code again because what happens on NULL is part of it. *)
From Verif Require Import Base HashModel ElfModel ToolModel CoreModel.

(** A computation that asks gotcha_malloc: the argument lists the answers still to come ([true]: a block, [false]:
    NULL), the result contains those not used.  When the list is used up all requests succeed. *)
Definition amon (A : Type) : Type := list bool -> outcome (A * list bool).
Definition aret {A} (a : A) : amon A := fun al => Ok (a, al).
Definition abind {A B} (m : amon A) (k : A -> amon B) : amon B := fun al => do ' (a, al) <- m al; k a al.
Definition alift {A} (o : outcome A) : amon A := fun al => do a <- o; Ok (a, al).
Definition malloc : amon bool := fun al => match al with [] => Ok (true, []) | a :: r => Ok (a, r) end.
(** the result of malloc used without a check: writing through NULL *)
Definition malloc_unchecked : amon unit := abind malloc (fun ok => if ok then aret tt else alift (Fault NullDeref)).

Notation "'ado' x <- e ; k" := (abind e (fun x => k))
  (at level 200, x name, e at level 100, k at level 200, right associativity).
Notation "'ado' ' p <- e ; k" := (abind e (fun x => match x with p => k end))
  (at level 200, p strict pattern, e at level 100, k at level 200, right associativity).

(** ** hash.c *)

(** create_hashtable, src/hash.c:35-56: [None] = -1, and the table is not touched *)
Definition create_hashtable_a {K D} (ps initial_size : Z) (hf : K -> Z) (cmp : K -> K -> Z) : amon (option (htable K D)) :=
  ado t <- alift (create_hashtable ps initial_size hf cmp);
  ado ok <- malloc;
  aret (if ok then Some t else None).

(** grow_hashtable, src/hash.c:88-115: line 101 fills the new table without a check *)
Definition grow_hashtable_a {K D} (t : htable K D) (new_size : Z) : amon (htable K D) :=
  ado _ <- malloc_unchecked; alift (grow_hashtable t new_size).

(** addto_hashtable, src/hash.c:161-179 *)
Definition addto_hashtable_a {K D} (t : htable K D) (key : K) (data : D) : amon (htable K D) :=
  ado newsize <- alift (grow_size (S (S (Z.to_nat (ht_count t)))) (ht_count t) (ht_size t));
  ado t' <- (if newsize =? ht_size t then aret t else grow_hashtable_a t newsize);
  match ht_hashfunc t' with
  | None => alift (Fault NullDeref)
  | Some hf => ado ' (t'', _) <- alift (insert t' key data (hf key)); aret t''
  end.

(** ** tool.c *)

(** create_tool, src/tool.c:64-83: [None] = NULL.  The result of create_hashtable is ignored; without memory the
    child table stays uninitialised, here [zero_table]. *)
Definition create_tool_a (ps : Z) (ts : tstate) (name : cstr) : amon (tstate * option nat) :=
  ado ok <- malloc;
  if negb ok then aret (ts, None)
  else
    let newtool := length (ts_heap ts) in
    let heap children := ts_heap ts ++ [mkTool name None None default_priority children None] in
    ado children <- create_hashtable_a ps 24 strhash libc_strcmp;
    ado ts' <- alift (reorder_tool (mkTS (heap (match children with Some t => t | None => zero_table end)) (ts_head ts)) newtool);
    aret (ts', Some newtool).

(** get_tool, creating the tool if there is none: src/gotcha.c:427-428, 496-499, 519-523 *)
Definition get_or_create_tool_a (ps : Z) (ts : tstate) (name : cstr) : amon (tstate * option nat) :=
  ado t <- alift (get_tool ts name);
  match t with
  | Some i => aret (ts, Some i)
  | None => create_tool_a ps ts name
  end.

(** gotcha_configure_int and the rest of gotcha_set_priority, src/gotcha.c:493-507 and 514-526: both places use the
    tool without a check *)
Definition set_priority_int_a (ps : Z) (ts : tstate) (name : cstr) (value : Z) : amon tstate :=
  ado ' (ts, i) <- get_or_create_tool_a ps ts name;
  match i with
  | None => alift (Fault NullDeref)
  | Some i =>
    let ts := mkTS (upd (ts_heap ts) i (set_tprio value)) (ts_head ts) in
    ado ' (ts, j) <- get_or_create_tool_a ps ts name;
    match j with
    | None => alift (Fault NullDeref)
    | Some j => ado ts <- alift (remove_tool_from_list ts j); alift (reorder_tool ts j)
    end
  end.

(** ** gotcha_utils.c *)

(** add_library, src/gotcha_utils.c:83-94: line 85 writes to the new record without a check *)
Definition add_library_a (l : lstate) (m : lmap) : amon (lstate * nat) :=
  ado _ <- malloc_unchecked;
  let newlib := length (l_heap l) in
  let heap := match l_list l with
              | Some h => upd (l_heap l) h (set_lprev (Some newlib))
              | None => l_heap l end in
  let heap := heap ++ [mkLibr (lm_ptr m) (l_list l) None 0 false] in
  ado t <- addto_hashtable_a (l_table l) (key_of m) newlib;
  aret (mkLS t heap (Some newlib) (l_gen l), newlib).
(** src/gotcha.c:105-109 and 364-368 *)
Definition track_library_a (l : lstate) (m : lmap) : amon (lstate * nat) :=
  ado r <- alift (get_library l m);
  match r with
  | Some i => aret (l, i)
  | None => add_library_a l m
  end.

(** ** gotcha.c *)

(** loop of prepare_symbol, src/gotcha.c:104-116 *)
Fixpoint prepare_loop_a (e : env) (maps : list lmap) (name : cstr) (l : lstate) : amon (lstate * option Z) :=
  match maps with
  | [] => aret (l, None)
  | lib :: r =>
    ado ' (l, _) <- track_library_a l lib;
    ado sym <- alift (lookup_exported_symbol (e_vdso e lib) name lib);
    match sym with
    | Some a => aret (l, Some a)
    | None => prepare_loop_a e r name l
    end
  end.
(** prepare_symbol, src/gotcha.c:98-119 *)
Definition prepare_symbol_a (e : env) (st : state) (b : nat) : amon (state * bool) :=
  ado ib <- alift (deref (b_ib (s_b st)) b);
  ado ' (l, r) <- prepare_loop_a e (p_maps (s_p st)) (ub_name (ib_user ib)) (s_l st);
  let st := set_l l st in
  match r with
  | Some a => ado bs <- alift (set_wrappee (s_b st) (ub_handle (ib_user ib)) (Ptr a)); aret (set_b bs st, true)
  | None => aret (st, false)
  end.

(** insert_at_head, src/gotcha.c:121-130 *)
Definition insert_at_head_a (bs : bstate) (b head : nat) : amon bstate :=
  let bs := set_ib (upd (b_ib bs) b (set_inext (Some head))) bs in
  ado ib <- alift (deref (b_ib bs) b);
  ado hb <- alift (deref (b_ib bs) head);
  ado bs <- alift (set_wrappee bs (ub_handle (ib_user ib)) (Ptr (ub_wrapper (ib_user hb))));
  ado ' (t, _) <- alift (removefrom_hashtable (b_fn bs) (ub_name (ib_user ib)));
  ado t <- addto_hashtable_a t (ub_name (ib_user ib)) b;
  aret (set_fn t bs).

Definition wrap_fun_a : Type := state -> list ubind -> option cstr -> amon (state * Z).

(** src/gotcha.c:149-156: the results of the nested calls are ignored *)
Definition wrap_main_a (e : env) (rec : wrap_fun_a) (st : state) (name : cstr) : amon state :=
  if (libc_strcmp name n_main =? 0) && negb (s_main st) then
    let st := mkSt (s_init st) true (s_b st) (s_l st) (s_p st) in
    ado ' (st, _) <- rec st (libc_binds e) (Some n_gotcha);
    ado ' (st, _) <- rec st (main_binds e) (Some n_gotcha);
    aret st
  else aret st.

(** src/gotcha.c:164-206 *)
Definition place_binding_a (bs : bstate) (b : nat) (name : cstr) (wrapper insert_priority : Z) : amon (bstate * rwo) :=
  ado hash_result <- alift (lookup_hashtable (b_fn bs) name);
  match hash_result with
  | None => ado t <- addto_hashtable_a (b_fn bs) name b; aret (set_fn t bs, mkRWO true true)
  | Some head =>
    ado head_priority <- alift (binding_priority bs head);
    if head_priority <? insert_priority then
      ado bs <- insert_at_head_a bs b head; aret (bs, mkRWO false true)
    else
      ado cur <- alift (order_loop (S (length (b_ib bs))) bs wrapper insert_priority head);
      match cur with
      | None => aret (bs, mkRWO false false)
      | Some pos => ado bs <- alift (insert_after_pos bs b pos); aret (bs, mkRWO false false)
      end
  end.

(** rewrite_wrapper_orders, src/gotcha.c:145-207 *)
Definition rewrite_wrapper_orders_a (e : env) (rec : wrap_fun_a) (st : state) (b : nat) : amon (state * rwo) :=
  ado ib <- alift (deref (b_ib (s_b st)) b);
  ado insert_priority <- alift (binding_priority (s_b st) b);
  ado st <- wrap_main_a e rec st (ub_name (ib_user ib));
  ado ' (bs, r) <- place_binding_a (s_b st) b (ub_name (ib_user ib)) (ub_wrapper (ib_user ib)) insert_priority;
  aret (set_b bs st, r).

(** update_library_got, src/gotcha.c:362-391: apart from the record of the library nothing is allocated *)
Definition update_library_got_a (e : env) (ibs : list ibind) (table : htable cstr nat) (m : lmap) (rest : list lmap)
    (lp : lstate * pstate) : amon (lstate * pstate) :=
  let (l, p) := lp in
  ado ' (l, lib) <- track_library_a l m;
  alift (
  do accepted <- filter_func (p_filter p) m rest;
  if negb accepted then Ok (l, p)
  else
    do lb <- deref (l_heap l) lib;
    if lb_gen lb =? l_gen l then Ok (l, p)
    else
      do ' (heap, log) <-
        (if lb_writable lb then Ok (l_heap l, p_log p)
         else do calls <- mark_got_writable (e_ps e) (e_phdrs e (p_maps p)) m;
              Ok (upd (l_heap l) lib set_lwritable, p_log p ++ map PProtect calls));
      do rels <- for_each_pltrel m;
      do ' (mem, log) <- (match rels with
                          | None => Ok (p_mem p, log)
                          | Some rs => update_lib_bindings ibs (lm_addr m) table rs (p_mem p) log
                          end);
      Ok (mkLS (l_table l) (upd heap lib (set_lgen (l_gen l))) (l_list l) (l_gen l),
          mkPS (p_maps p) mem log (p_filter p))).
(** update_all_library_gots, src/gotcha.c:393-400 *)
Fixpoint update_gots_a (e : env) (ibs : list ibind) (table : htable cstr nat) (maps : list lmap)
    (lp : lstate * pstate) : amon (lstate * pstate) :=
  match maps with
  | [] => aret lp
  | m :: rest => ado lp <- update_library_got_a e ibs table m rest lp; update_gots_a e ibs table rest lp
  end.
Definition update_all_library_gots_a (e : env) (table : htable cstr nat) (st : state) : amon state :=
  ado ' (l, p) <- update_gots_a e (b_ib (s_b st)) table (p_maps (s_p st)) (s_l st, s_p st);
  aret (set_p p (set_l l st)).

(** loop of add_binding_to_tool filling binding_hash, src/tool.c:117-126 *)
Fixpoint fill_hash_a (t : htable cstr nat) (ubs : list ubind) (i : nat) : amon (htable cstr nat) :=
  match ubs with
  | [] => aret t
  | u :: r => ado t <- addto_hashtable_a t (ub_name u) i; fill_hash_a t r (S i)
  end.

(** add_binding_to_tool, src/tool.c:95-145.  [None] = NULL: the hash table could not be created (line 113); the
    binding_t is freed (line 143), while the internal bindings stay allocated and the handles keep pointing to them,
    their associated_binding_table being a place that is free again.  newbinding (line 101) and, if there is a binding
    to fill in, internal_bindings (line 107) are used without a check. *)
Definition add_binding_to_tool_a (e : env) (bs : bstate) (tool : nat) (ubs : list ubind) : amon (bstate * option nat) :=
  ado _ <- malloc_unchecked;
  ado ok <- malloc;
  if negb ok && negb (match ubs with [] => true | _ => false end) then alift (Fault NullDeref)
  else
  let tbl := length (b_tables bs) in
  let start := length (b_ib bs) in
  let (ibs, hs) := fill_bindings tbl ubs (b_ib bs) (b_handles bs) in
  ado h <- create_hashtable_a (e_ps e) (Z.of_nat (length ubs) * 2) strhash libc_strcmp;
  match h with
  | None => aret (set_handles hs (set_ib ibs bs), None)
  | Some h =>
    ado h <- fill_hash_a h ubs start;
    ado t <- alift (deref (ts_heap (b_tools bs)) tool);
    let newbinding := mkBT tool start (Z.of_nat (length ubs)) h (t_binding t) (b_all bs) in
    let ts := mkTS (upd (ts_heap (b_tools bs)) tool (set_tbinding (Some tbl))) (ts_head (b_tools bs)) in
    aret (mkBS ts (b_tables bs ++ [newbinding]) (Some tbl) ibs hs (b_fn bs) (b_nf bs), Some tbl)
  end.

(** body of the loop of gotcha_wrap, src/gotcha.c:449-479.  The result of create_hashtable for new_bindings (line
    472) is ignored: without memory line 475 works on an uninitialised table. *)
Definition wrap_one_a (e : env) (rec : wrap_fun_a) (num_actions : Z) (b : nat) (sp : state * progress)
  : amon (state * progress) :=
  let (st, pr) := sp in
  ado ' (st, result) <- rewrite_wrapper_orders_a e rec st b;
  ado ib <- alift (deref (b_ib (s_b st)) b);
  let name := ub_name (ib_user ib) in
  ado ' (st, pr) <-
    (if need_lookup result then
       ado ' (st, found) <- prepare_symbol_a e st b;
       if (found : bool) then aret (st, pr)
       else ado t <- addto_hashtable_a (b_nf (s_b st)) name b;
            aret (set_b (set_nf t (s_b st)) st, mkPr (pr_not_found pr + 1) (pr_new pr))
     else aret (st, pr));
  if need_binding result then
    ado t <- (match pr_new pr with
              | None => ado t <- create_hashtable_a (e_ps e) (num_actions * 2) strhash libc_strcmp;
                        match t with Some t => aret t | None => alift (Fault NullDeref) end
              | Some t => aret t
              end);
    ado t <- addto_hashtable_a t name b;
    aret (st, mkPr (pr_not_found pr) (Some t))
  else aret (st, pr).

(** the loop, src/gotcha.c:449-480 *)
Fixpoint wrap_loop_a (e : env) (rec : wrap_fun_a) (num_actions : Z) (n b : nat) (sp : state * progress)
  : amon (state * progress) :=
  match n with
  | O => aret sp
  | S n => ado sp <- wrap_one_a e rec num_actions b sp; wrap_loop_a e rec num_actions n (S b) sp
  end.

(** setup_hash_tables, src/gotcha_utils.c:65-72: the results are ignored; without memory a table stays as it is *)
Definition setup_hash_tables_a (e : env) (st : state) : amon state :=
  ado lt <- create_hashtable_a (e_ps e) 128 link_map_hash link_map_cmp;
  ado ft <- create_hashtable_a (e_ps e) 4096 strhash libc_strcmp;
  ado nt <- create_hashtable_a (e_ps e) 128 strhash libc_strcmp;
  let or_old {K D} (t : option (htable K D)) old := match t with Some t => t | None => old end in
  aret (set_l (mkLS (or_old lt (l_table (s_l st))) (l_heap (s_l st)) (l_list (s_l st)) (l_gen (s_l st)))
         (set_b (set_nf (or_old nt (b_nf (s_b st))) (set_fn (or_old ft (b_fn (s_b st))) (s_b st))) st)).

(** gotcha_init, src/gotcha_utils.c:107-116: the result of wrapping dlopen and dlsym is ignored *)
Definition gotcha_init_a (e : env) (rec : wrap_fun_a) (st : state) : amon state :=
  if s_init st then aret st
  else
    let st := mkSt true (s_main st) (s_b st) (s_l st) (s_p st) in
    ado st <- setup_hash_tables_a e st;
    ado ' (st, _) <- rec st (dl_binds e) (Some n_gotcha);
    aret st.

(** gotcha_wrap, src/gotcha.c:402-491, after gotcha_init *)
Definition wrap_tool_a (e : env) (rec : wrap_fun_a) (st : state) (ubs : list ubind) (tool_name : option cstr)
  : amon (state * Z) :=
  let num_actions := Z.of_nat (length ubs) in
  let st := set_b (set_handles (null_handles ubs (b_handles (s_b st))) (s_b st)) st in
  let tool_name := match tool_name with Some n => n | None => n_unspecified end in
  ado ' (ts, tool) <- get_or_create_tool_a (e_ps e) (b_tools (s_b st)) tool_name;
  let st := set_b (set_btools ts (s_b st)) st in
  match tool with
  | None => aret (st, GOTCHA_INTERNAL)
  | Some tool =>
    let l := s_l st in
    let st := set_l (mkLS (l_table l) (l_heap l) (l_list l) (u32 (l_gen l + 1))) st in
    ado ' (bs, tbl) <- add_binding_to_tool_a e (s_b st) tool ubs;
    let st := set_b bs st in
    match tbl with
    | None => aret (st, GOTCHA_INTERNAL)
    | Some tbl =>
      ado bt <- alift (deref (b_tables bs) tbl);
      ado ' (st, pr) <- wrap_loop_a e rec num_actions (length ubs) (bt_start bt) (st, mkPr 0 None);
      ado st <- (match pr_new pr with
                 | Some t => update_all_library_gots_a e t st
                 | None => aret st
                 end);
      aret (st, if negb (pr_not_found pr =? 0) then GOTCHA_FUNCTION_NOT_FOUND else GOTCHA_SUCCESS)
    end
  end.
Definition wrap_body_a (e : env) (rec : wrap_fun_a) : wrap_fun_a :=
  fun st ubs tool_name => ado st <- gotcha_init_a e rec st; wrap_tool_a e rec st ubs tool_name.
Fixpoint wrap_n_a (e : env) (n : nat) : wrap_fun_a :=
  match n with
  | O => fun _ _ _ => alift (Fault NoTermination)
  | S m => wrap_body_a e (wrap_n_a e m)
  end.
(** gotcha_wrap, src/gotcha.c:402-491, recursion as in CoreModel *)
Definition gotcha_wrap_a (e : env) : wrap_fun_a := wrap_n_a e 3.

(** gotcha_set_priority, src/gotcha.c:509-527 *)
Definition gotcha_set_priority_a (e : env) (st : state) (name : cstr) (value : Z) : amon (state * Z) :=
  ado st <- gotcha_init_a e (wrap_n_a e 3) st;
  ado ts <- set_priority_int_a (e_ps e) (b_tools (s_b st)) name value;
  aret (set_b (set_btools ts (s_b st)) st, GOTCHA_SUCCESS).

(** ** gotcha_dl.c *)

(** per_binding, src/gotcha_dl.c:107-135 *)
Definition per_binding_a (e : env) (key : option cstr) (data : option nat) (st : state) : amon (state * Z) :=
  match key, data with
  | Some key, Some b =>
    ado b <- alift (innermost (S (length (b_ib (s_b st)))) (b_ib (s_b st)) b);
    ado ' (st, found) <- prepare_symbol_a e st b;
    if (found : bool) then
      ado ' (t, _) <- alift (removefrom_hashtable (b_nf (s_b st)) key);
      aret (set_b (set_nf t (s_b st)) st, 0)
    else aret (st, 0)
  | _, _ => alift (Fault NullDeref)
  end.
(** foreach_hash_entry, src/hash.c:202-212; the answers of malloc are part of what the callback changes *)
Definition foreach_hash_entry_a {K D S} (get : S -> htable K D)
    (cb : option K -> option D -> S -> amon (S * Z)) (s : S) : amon (S * Z) :=
  fun al => do ' ((s, al), r) <- foreach_hash_entry (fun x : S * list bool => get (fst x))
              (fun k d x => do ' ((s, r), al) <- cb k d (fst x) (snd x); Ok ((s, al), r)) (s, al);
            Ok ((s, r), al).
(** dlopen_wrapper after the original dlopen has returned, src/gotcha_dl.c:144-149 *)
Definition dlopen_finish_a (e : env) (st : state) : amon state :=
  ado ' (st, _) <- foreach_hash_entry_a (fun s => b_nf (s_b s)) (per_binding_a e) st;
  update_all_library_gots_a e (b_fn (s_b st)) st.

(** A call of dlopen goes through dlopen_wrapper if wrapping dlopen succeeded: in CoreModel it always does once GOTCHA is
    initialised.  Simplification: callers whose slots the filter excludes count as intercepted, as in CoreModel. *)
Definition dlopen_wrapped (st : state) : bool :=
  match lookup_hashtable (b_fn (s_b st)) n_dlopen with Ok (Some _) => true | _ => false end.
(** operations as in CoreModel *)
Definition step_a (e : env) (st : state) (o : op) : amon (state * res) :=
  match o with
  | OWrap ubs tool => ado ' (st, c) <- gotcha_wrap_a e st ubs tool; aret (st, RCode c)
  | OSetPriority t v => ado ' (st, c) <- gotcha_set_priority_a e st t v; aret (st, RCode c)
  | OGetPriority t =>
      ado st <- gotcha_init_a e (wrap_n_a e 3) st;
      ado ' (c, v) <- alift (get_configuration_value (b_tools (s_b st)) t);
      aret (st, RPrio c v)
  | OFinish => if s_init st && dlopen_wrapped st then (ado st <- dlopen_finish_a e st; aret (st, RNone)) else aret (st, RNone)
  | _ => alift (step e st o)
  end.
Fixpoint run_a (e : env) (st : state) (ops : list op) : amon (state * list res) :=
  match ops with
  | [] => aret (st, [])
  | o :: r => ado ' (st, x) <- step_a e st o; ado ' (st, xs) <- run_a e st r; aret (st, x :: xs)
  end.
