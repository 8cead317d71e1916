(** Model of the same code as CoreModel which also records, in order, every store of GOTCHA into a word that code
    outside GOTCHA reads: handle variables, wrappee pointers of bindings (read by gotcha_get_wrappee) and words of GOTs.
    Each definition cites the code again because the order of the stores is part of it. *)
From Verif Require Import Base HashModel ElfModel ToolModel CoreModel.

(** a store: handle variable [h] := binding [v] (or NULL); wrappee_pointer of binding [i] := [v]; memory word [x] := [v] *)
Inductive wevent := WHandle (h : Z) (v : option nat) | WWrappee (i : nat) (v : wptr) | WSlot (x v : Z).

(** a computation and the stores it makes *)
Definition tmon (A : Type) : Type := outcome (A * list wevent).
Definition tret {A} (a : A) : tmon A := Ok (a, []).
Definition tlift {A} (o : outcome A) : tmon A := do a <- o; Ok (a, []).
Definition tell (w : list wevent) : tmon unit := Ok (tt, w).
Definition tthen {A B} (m : tmon A) (k : A -> tmon B) : tmon B :=
  do ' (a, w1) <- m; do ' (b, w2) <- k a; Ok (b, w1 ++ w2).

Notation "'tdo' x <- e ; k" := (tthen e (fun x => k))
  (at level 200, x name, e at level 100, k at level 200, right associativity).
Notation "'tdo' ' p <- e ; k" := (tthen e (fun x => match x with p => k end))
  (at level 200, p strict pattern, e at level 100, k at level 200, right associativity).

(** ** what code outside GOTCHA reads *)
Record vis := mkV { v_handles : Z -> option nat; v_wrappee : nat -> wptr; v_mem : Z -> Z }.
Definition vapply (v : vis) (w : wevent) : vis :=
  match w with
  | WHandle h x => mkV (fupd (v_handles v) h x) (v_wrappee v) (v_mem v)
  | WWrappee i x => mkV (v_handles v) (fun j => if Nat.eqb j i then x else v_wrappee v j) (v_mem v)
  | WSlot a x => mkV (v_handles v) (v_wrappee v) (fupd (v_mem v) a x)
  end.
Definition vapplys (ws : list wevent) (v : vis) : vis := fold_left vapply ws v.
(** wrappee_pointer of a block not yet returned by malloc counts as uninitialised *)
Definition vis_of (st : state) : vis :=
  mkV (b_handles (s_b st))
      (fun i => match nth_error (b_ib (s_b st)) i with Some ib => ib_wrappee ib | None => Uninit end)
      (p_mem (s_p st)).

(** ** gotcha.c *)

(** setInternalBindingAddressPointer, src/gotcha.c:47-53: one store *)
Definition set_wrappee_t (bs : bstate) (handle : Z) (v : wptr) : tmon bstate :=
  tdo bs' <- tlift (set_wrappee bs handle v);
  tdo _ <- tell (match b_handles bs handle with Some i => [WWrappee i v] | None => [] end);
  tret bs'.

(** prepare_symbol, src/gotcha.c:98-119 *)
Definition prepare_symbol_t (e : env) (st : state) (b : nat) : tmon (state * bool) :=
  tdo ib <- tlift (deref (b_ib (s_b st)) b);
  tdo ' (l, r) <- tlift (prepare_loop e (p_maps (s_p st)) (ub_name (ib_user ib)) (s_l st));
  let st := set_l l st in
  match r with
  | Some a => tdo bs <- set_wrappee_t (s_b st) (ub_handle (ib_user ib)) (Ptr a); tret (set_b bs st, true)
  | None => tret (st, false)
  end.

(** insert_at_head, src/gotcha.c:121-130 *)
Definition insert_at_head_t (bs : bstate) (b head : nat) : tmon bstate :=
  let bs := set_ib (upd (b_ib bs) b (set_inext (Some head))) bs in
  tdo ib <- tlift (deref (b_ib bs) b);
  tdo hb <- tlift (deref (b_ib bs) head);
  tdo bs <- set_wrappee_t bs (ub_handle (ib_user ib)) (Ptr (ub_wrapper (ib_user hb)));
  tdo ' (t, _) <- tlift (removefrom_hashtable (b_fn bs) (ub_name (ib_user ib)));
  tdo t <- tlift (addto_hashtable t (ub_name (ib_user ib)) b);
  tret (set_fn t bs).

(** insert_after_pos, src/gotcha.c:132-140: first the new wrapper's wrappee, then its predecessor's *)
Definition insert_after_pos_t (bs : bstate) (b pos : nat) : tmon bstate :=
  tdo ib <- tlift (deref (b_ib bs) b);
  tdo pb <- tlift (deref (b_ib bs) pos);
  tdo bs <- set_wrappee_t bs (ub_handle (ib_user ib)) (ib_wrappee pb);
  tdo bs <- set_wrappee_t bs (ub_handle (ib_user pb)) (Ptr (ub_wrapper (ib_user ib)));
  tdo pb <- tlift (deref (b_ib bs) pos);
  let bs := set_ib (upd (b_ib bs) b (set_inext (ib_next pb))) bs in
  tret (set_ib (upd (b_ib bs) pos (set_inext (Some b))) bs).

Definition wrap_fun_t : Type := state -> list ubind -> option cstr -> tmon (state * Z).

(** src/gotcha.c:149-156 *)
Definition wrap_main_t (e : env) (rec : wrap_fun_t) (st : state) (name : cstr) : tmon state :=
  if (libc_strcmp name n_main =? 0) && negb (s_main st) then
    let st := mkSt (s_init st) true (s_b st) (s_l st) (s_p st) in
    tdo ' (st, _) <- rec st (libc_binds e) (Some n_gotcha);
    tdo ' (st, _) <- rec st (main_binds e) (Some n_gotcha);
    tret st
  else tret st.

(** src/gotcha.c:164-206 *)
Definition place_binding_t (bs : bstate) (b : nat) (name : cstr) (wrapper insert_priority : Z) : tmon (bstate * rwo) :=
  tdo hash_result <- tlift (lookup_hashtable (b_fn bs) name);
  match hash_result with
  | None => tdo t <- tlift (addto_hashtable (b_fn bs) name b); tret (set_fn t bs, mkRWO true true)
  | Some head =>
    tdo head_priority <- tlift (binding_priority bs head);
    if head_priority <? insert_priority then
      tdo bs <- insert_at_head_t bs b head; tret (bs, mkRWO false true)
    else
      tdo cur <- tlift (order_loop (S (length (b_ib bs))) bs wrapper insert_priority head);
      match cur with
      | None => tret (bs, mkRWO false false)
      | Some pos => tdo bs <- insert_after_pos_t bs b pos; tret (bs, mkRWO false false)
      end
  end.

(** rewrite_wrapper_orders, src/gotcha.c:145-207 *)
Definition rewrite_wrapper_orders_t (e : env) (rec : wrap_fun_t) (st : state) (b : nat) : tmon (state * rwo) :=
  tdo ib <- tlift (deref (b_ib (s_b st)) b);
  tdo insert_priority <- tlift (binding_priority (s_b st) b);
  tdo st <- wrap_main_t e rec st (ub_name (ib_user ib));
  tdo ' (bs, r) <- place_binding_t (s_b st) b (ub_name (ib_user ib)) (ub_wrapper (ib_user ib)) insert_priority;
  tret (set_b bs st, r).

(** update_all_library_gots, src/gotcha.c:393-400: the stores into GOTs are those CoreModel logs, in that order *)
Fixpoint slots (log : list pevent) : list wevent :=
  match log with
  | [] => []
  | PStore x v :: r => WSlot x v :: slots r
  | PProtect _ :: r => slots r
  end.
Definition update_all_library_gots_t (e : env) (table : htable cstr nat) (st : state) : tmon state :=
  tdo st' <- tlift (update_all_library_gots e table st);
  tdo _ <- tell (slots (skipn (length (p_log (s_p st))) (p_log (s_p st'))));
  tret st'.

(** src/gotcha.c:424-426: *function_handle = NULL for each binding *)
Definition null_stores (ubs : list ubind) : list wevent := map (fun u => WHandle (ub_handle u) None) ubs.
(** src/tool.c:107: the handle of each binding, the new bindings being numbered from [i] on *)
Fixpoint handle_stores (ubs : list ubind) (i : nat) : list wevent :=
  match ubs with
  | [] => []
  | u :: r => WHandle (ub_handle u) (Some i) :: handle_stores r (S i)
  end.

(** body of the loop of gotcha_wrap, src/gotcha.c:449-479 *)
Definition wrap_one_t (e : env) (rec : wrap_fun_t) (num_actions : Z) (b : nat) (sp : state * progress)
  : tmon (state * progress) :=
  let (st, pr) := sp in
  tdo ' (st, result) <- rewrite_wrapper_orders_t e rec st b;
  tdo ib <- tlift (deref (b_ib (s_b st)) b);
  let name := ub_name (ib_user ib) in
  tdo ' (st, pr) <-
    (if need_lookup result then
       tdo ' (st, found) <- prepare_symbol_t e st b;
       if (found : bool) then tret (st, pr)
       else tdo t <- tlift (addto_hashtable (b_nf (s_b st)) name b);
            tret (set_b (set_nf t (s_b st)) st, mkPr (pr_not_found pr + 1) (pr_new pr))
     else tret (st, pr));
  if need_binding result then
    tdo t <- tlift (match pr_new pr with
             | None => create_hashtable (e_ps e) (num_actions * 2) strhash libc_strcmp
             | Some t => Ok t
             end);
    tdo t <- tlift (addto_hashtable t name b);
    tret (st, mkPr (pr_not_found pr) (Some t))
  else tret (st, pr).

(** the loop, src/gotcha.c:449-480 *)
Fixpoint wrap_loop_t (e : env) (rec : wrap_fun_t) (num_actions : Z) (n b : nat) (sp : state * progress)
  : tmon (state * progress) :=
  match n with
  | O => tret sp
  | S n => tdo sp <- wrap_one_t e rec num_actions b sp; wrap_loop_t e rec num_actions n (S b) sp
  end.

(** gotcha_init, src/gotcha_utils.c:107-116, with handle_libdl, src/gotcha_dl.c:190 *)
Definition gotcha_init_t (e : env) (rec : wrap_fun_t) (st : state) : tmon state :=
  if s_init st then tret st
  else
    let st := mkSt true (s_main st) (s_b st) (s_l st) (s_p st) in
    tdo st <- tlift (setup_hash_tables e st);
    tdo ' (st, _) <- rec st (dl_binds e) (Some n_gotcha);
    tret st.

(** gotcha_wrap, src/gotcha.c:402-491, after gotcha_init *)
Definition wrap_tool_t (e : env) (rec : wrap_fun_t) (st : state) (ubs : list ubind) (tool_name : option cstr)
  : tmon (state * Z) :=
  let num_actions := Z.of_nat (length ubs) in
  tdo _ <- tell (null_stores ubs);
  let st := set_b (set_handles (null_handles ubs (b_handles (s_b st))) (s_b st)) st in
  let tool_name := match tool_name with Some n => n | None => n_unspecified end in
  tdo ' (ts, tool) <- tlift (get_or_create_tool (e_ps e) (b_tools (s_b st)) tool_name);
  let st := set_b (set_btools ts (s_b st)) st in
  let l := s_l st in
  let st := set_l (mkLS (l_table l) (l_heap l) (l_list l) (u32 (l_gen l + 1))) st in
  tdo _ <- tell (handle_stores ubs (length (b_ib (s_b st))));
  tdo ' (bs, tbl) <- tlift (add_binding_to_tool e (s_b st) tool ubs);
  let st := set_b bs st in
  tdo bt <- tlift (deref (b_tables bs) tbl);
  tdo ' (st, pr) <- wrap_loop_t e rec num_actions (length ubs) (bt_start bt) (st, mkPr 0 None);
  tdo st <- (match pr_new pr with
             | Some t => update_all_library_gots_t e t st
             | None => tret st
             end);
  tret (st, if negb (pr_not_found pr =? 0) then GOTCHA_FUNCTION_NOT_FOUND else GOTCHA_SUCCESS).

Definition wrap_body_t (e : env) (rec : wrap_fun_t) : wrap_fun_t :=
  fun st ubs tool_name =>
    tdo st <- gotcha_init_t e rec st;
    wrap_tool_t e rec st ubs tool_name.
Fixpoint wrap_n_t (e : env) (n : nat) : wrap_fun_t :=
  match n with
  | O => fun _ _ _ => tlift (Fault NoTermination)
  | S m => wrap_body_t e (wrap_n_t e m)
  end.
(** gotcha_wrap, src/gotcha.c:402-491 *)
Definition gotcha_wrap_t (e : env) : wrap_fun_t := wrap_n_t e 3.

(** ** gotcha_dl.c *)

(** per_binding, src/gotcha_dl.c:107-135 *)
Definition per_binding_t (e : env) (key : option cstr) (data : option nat) (st : state) : tmon (state * Z) :=
  match key, data with
  | Some key, Some b =>
    tdo b <- tlift (innermost (S (length (b_ib (s_b st)))) (b_ib (s_b st)) b);
    tdo ' (st, found) <- prepare_symbol_t e st b;
    if (found : bool) then
      tdo ' (t, _) <- tlift (removefrom_hashtable (b_nf (s_b st)) key);
      tret (set_b (set_nf t (s_b st)) st, 0)
    else tret (st, 0)
  | _, _ => tlift (Fault NullDeref)
  end.
(** foreach_hash_entry, src/hash.c:202-212, with the stores made so far *)
Definition foreach_hash_entry_t {K D S} (get : S -> htable K D)
    (cb : option K -> option D -> S -> tmon (S * Z)) (s : S) : tmon (S * Z) :=
  do ' ((s, w), r) <- foreach_hash_entry (fun x : S * list wevent => get (fst x))
      (fun k d x => do ' ((s, r), w) <- cb k d (fst x); Ok ((s, snd x ++ w), r)) (s, []);
  Ok ((s, r), w).
(** dlopen_wrapper after the original dlopen has returned, src/gotcha_dl.c:144-149 *)
Definition dlopen_finish_t (e : env) (st : state) : tmon state :=
  tdo ' (st, _) <- foreach_hash_entry_t (fun s => b_nf (s_b s)) (per_binding_t e) st;
  update_all_library_gots_t e (b_fn (s_b st)) st.

(** operations as in CoreModel; the loader's own stores (OLoad, OUnload) are not recorded *)
Definition step_t (e : env) (st : state) (o : op) : tmon (state * res) :=
  match o with
  | OWrap ubs tool => tdo ' (st, c) <- gotcha_wrap_t e st ubs tool; tret (st, RCode c)
  | OSetPriority t v =>
      tdo st <- gotcha_init_t e (wrap_n_t e 3) st;
      tdo ts <- tlift (set_priority_int (e_ps e) (b_tools (s_b st)) t v);
      tret (set_b (set_btools ts (s_b st)) st, RCode GOTCHA_SUCCESS)
  | OGetPriority t =>
      tdo st <- gotcha_init_t e (wrap_n_t e 3) st;
      tdo ' (c, v) <- tlift (get_configuration_value (b_tools (s_b st)) t);
      tret (st, RPrio c v)
  | OFinish => if s_init st then (tdo st <- dlopen_finish_t e st; tret (st, RNone)) else tret (st, RNone)
  | _ => tlift (step e st o)
  end.
