(** Model of src/gotcha.c (wrapping), src/gotcha_dl.c, src/gotcha_utils.c, src/translations.c,
    src/library_filters.c, and add_binding_to_tool of src/tool.c. *)
From Verif Require Import Base HashModel ElfModel ToolModel.
From Coq Require String.
Import String.StringSyntax.

(** struct gotcha_binding_t, include/gotcha/gotcha_types.h: name, wrapper_pointer, function_handle.
    Code addresses are numbers; a handle variable is named by its address.
    Simplification: the user does not modify or free the array after passing it to gotcha_wrap, so the
    internal binding carries a copy instead of a pointer to it; name and function_handle are not NULL. *)
Record ubind := mkUB { ub_name : cstr; ub_wrapper : Z; ub_handle : Z }.

(** content of wrappee_pointer: malloc does not initialise it *)
Inductive wptr := Uninit | Ptr (a : Z).

(** struct internal_binding_t, src/tool.h:81-86 *)
Record ibind := mkIB { ib_table : nat; ib_user : ubind; ib_next : option nat; ib_wrappee : wptr }.
Definition set_inext (v : option nat) (b : ibind) : ibind := mkIB (ib_table b) (ib_user b) v (ib_wrappee b).
Definition set_iwrappee (v : wptr) (b : ibind) : ibind := mkIB (ib_table b) (ib_user b) (ib_next b) v.

(** struct binding_t, src/tool.h:61-68.  internal_bindings is the block of [bt_size] consecutive
    internal bindings starting at [bt_start]. *)
Record btable := mkBT {
  bt_tool : nat; bt_start : nat; bt_size : Z; bt_hash : htable cstr nat;
  bt_next_tool : option nat; bt_next : option nat }.

(** bindings and tools: the heap objects, tools (tool.c:21), all_bindings (tool.c:22), the user's handle
    variables ([None] = NULL), function_hash_table, notfound_binding_table (gotcha_utils.c:48-49) *)
Record bstate := mkBS {
  b_tools : tstate; b_tables : list btable; b_all : option nat; b_ib : list ibind;
  b_handles : Z -> option nat; b_fn : htable cstr nat; b_nf : htable cstr nat }.
Definition set_ib (v : list ibind) (b : bstate) : bstate :=
  mkBS (b_tools b) (b_tables b) (b_all b) v (b_handles b) (b_fn b) (b_nf b).
Definition set_btools (v : tstate) (b : bstate) : bstate :=
  mkBS v (b_tables b) (b_all b) (b_ib b) (b_handles b) (b_fn b) (b_nf b).
Definition set_handles (v : Z -> option nat) (b : bstate) : bstate :=
  mkBS (b_tools b) (b_tables b) (b_all b) (b_ib b) v (b_fn b) (b_nf b).
Definition set_fn (v : htable cstr nat) (b : bstate) : bstate :=
  mkBS (b_tools b) (b_tables b) (b_all b) (b_ib b) (b_handles b) v (b_nf b).
Definition set_nf (v : htable cstr nat) (b : bstate) : bstate :=
  mkBS (b_tools b) (b_tables b) (b_all b) (b_ib b) (b_handles b) (b_fn b) v.

(** library_t, src/tool.h:41-47; [lb_writable] is the flag LIB_GOT_MARKED_WRITEABLE *)
Record library := mkLibr { lb_map : Z; lb_next : option nat; lb_prev : option nat; lb_gen : Z; lb_writable : bool }.
Definition set_lgen (v : Z) (l : library) : library := mkLibr (lb_map l) (lb_next l) (lb_prev l) v (lb_writable l).
Definition set_lwritable (l : library) : library := mkLibr (lb_map l) (lb_next l) (lb_prev l) (lb_gen l) true.
Definition set_lprev (v : option nat) (l : library) : library := mkLibr (lb_map l) (lb_next l) v (lb_gen l) (lb_writable l).

(** a struct link_map * used as hash key: its address and LIB_NAME of the link map.
    Simplification: l_name of a live link map does not change. *)
Definition lkey : Type := (Z * cstr)%type.

(** library_table, library_list, heap of library_t, current_generation (gotcha_utils.c:51-53) *)
Record lstate := mkLS { l_table : htable lkey nat; l_heap : list library; l_list : option nat; l_gen : Z }.

(** library filter: libraryFilterFunc and filter, src/library_filters.c:20-21.  A user function may look
    at the link map it is given and at those after it. *)
Inductive lfilter :=
| FAlways
| FName (s : option cstr)
| FLast
| FUser (p : lmap -> list lmap -> bool).

(** what GOTCHA does to the address space, in the order it does it: an mprotect call (address, length) of
    mark_got_writable, and a store through a GOT slot (writeAddress in update_lib_bindings, src/gotcha.c:209-224) *)
Inductive pevent := PProtect (c : Z * Z) | PStore (x v : Z).

(** the process: _r_debug.r_map, memory words, log of mprotect calls and GOT stores so far, active filter *)
Record pstate := mkPS { p_maps : list lmap; p_mem : Z -> Z; p_log : list pevent; p_filter : lfilter }.

(** the mprotect calls in the log *)
Definition protects (evs : list pevent) : list (Z * Z) :=
  flat_map (fun ev => match ev with PProtect c => [c] | PStore _ _ => [] end) evs.
Definition p_prot (p : pstate) : list (Z * Z) := protects (p_log p).

Record state := mkSt { s_init : bool; s_main : bool; s_b : bstate; s_l : lstate; s_p : pstate }.
Definition set_b (v : bstate) (s : state) : state := mkSt (s_init s) (s_main s) v (s_l s) (s_p s).
Definition set_l (v : lstate) (s : state) : state := mkSt (s_init s) (s_main s) (s_b s) v (s_p s).
Definition set_p (v : pstate) (s : state) : state := mkSt (s_init s) (s_main s) (s_b s) (s_l s) v.

(** what GOTCHA gets from outside: page size, is_vdso (gotcha_auxv.c), dl_iterate_phdr for a given link
    map list, the addresses of GOTCHA's own wrappers and of its own handle variables, and the content of
    freshly allocated wrappee_pointer fields *)
Record env := mkEnv {
  e_ps : Z; e_vdso : lmap -> bool; e_phdrs : list lmap -> list phdr_info;
  e_w_dlopen : Z; e_w_dlsym : Z; e_w_libc : Z; e_w_main : Z;
  e_h_dlopen : Z; e_h_dlsym : Z; e_h_libc : Z; e_h_main : Z;
  e_junk : nat -> Z }.

Definition n_main : cstr := of_string "main".
Definition n_libc_start_main : cstr := of_string "__libc_start_main".
Definition n_dlopen : cstr := of_string "dlopen".
Definition n_dlsym : cstr := of_string "dlsym".
Definition n_gotcha : cstr := of_string "gotcha".
Definition n_unspecified : cstr := of_string "[UNSPECIFIED]".

(** ** gotcha_utils.c: tracked libraries *)

(** LIB_NAME, src/gotcha_utils.h:75-76 *)
Definition lib_name (m : lmap) : cstr :=
  match lm_name m with
  | None => of_string "[NULL]"
  | Some [] => of_string "[EMPTY]"
  | Some s => s
  end.
Definition key_of (m : lmap) : lkey := (lm_ptr m, lib_name m).

(** link_map_hash, src/gotcha_utils.c:55-59 (hash_hashvalue_t is int) *)
Definition link_map_hash (k : lkey) : Z := s32 (Z.lxor (u32 (fst k)) (u32 (strhash (snd k)))).
(** link_map_cmp, src/gotcha_utils.c:61-63 *)
Definition link_map_cmp (a b : lkey) : Z := if u64 (fst a) <? u64 (fst b) then 1 else 0.

(** get_library, src/gotcha_utils.c:74-81 *)
Definition get_library (l : lstate) (m : lmap) : outcome (option nat) := lookup_hashtable (l_table l) (key_of m).

(** add_library, src/gotcha_utils.c:83-94 *)
Definition add_library (l : lstate) (m : lmap) : outcome (lstate * nat) :=
  let newlib := length (l_heap l) in
  let heap := match l_list l with
              | Some h => upd (l_heap l) h (set_lprev (Some newlib))
              | None => l_heap l end in
  let heap := heap ++ [mkLibr (lm_ptr m) (l_list l) None 0 false] in
  do t <- addto_hashtable (l_table l) (key_of m) newlib;
  Ok (mkLS t heap (Some newlib) (l_gen l), newlib).

(** get_library, adding the library if it is not tracked: src/gotcha.c:105-109 and 364-368 *)
Definition track_library (l : lstate) (m : lmap) : outcome (lstate * nat) :=
  do r <- get_library l m;
  match r with
  | Some i => Ok (l, i)
  | None => add_library l m
  end.

(** ** library_filters.c *)

(** strstr of the C library (libc_wrappers.h:40 in the default build): is [needle] a substring? *)
Fixpoint is_prefix (p s : cstr) : bool :=
  match p, s with
  | [], _ => true
  | _ :: _, [] => false
  | x :: p', y :: s' => (x =? y) && is_prefix p' s'
  end.
Fixpoint libc_strstr (s needle : cstr) : bool :=
  is_prefix needle s || match s with [] => false | _ :: r => libc_strstr r needle end.

(** alwaysTrue, trueIfNameMatches, trueIfLast: src/library_filters.c:23-34.  [rest] are the link maps
    after [m]. *)
Definition filter_func (f : lfilter) (m : lmap) (rest : list lmap) : outcome bool :=
  match f with
  | FAlways => Ok true
  | FName None => Ok false
  | FName (Some s) => match lm_name m with None => Fault NullDeref | Some nm => Ok (libc_strstr nm s) end
  | FLast => Ok (match rest with [] => true | _ => false end)
  | FUser p => Ok (p m rest)
  end.

(** gotcha_set_library_filter_func and the functions built on it, src/library_filters.c:35-45 *)
Definition set_filter (f : lfilter) (s : state) : state :=
  set_p (mkPS (p_maps (s_p s)) (p_mem (s_p s)) (p_log (s_p s)) f) s.

(** ** gotcha.c: symbols *)

(** assignment to a handle variable or memory word *)
Definition fupd {A} (f : Z -> A) (a : Z) (v : A) : Z -> A := fun x => if x =? a then v else f x.

(** setInternalBindingAddressPointer, src/gotcha.c:43-53: writes the wrappee of the binding the handle
    variable points to *)
Definition set_wrappee (b : bstate) (handle : Z) (v : wptr) : outcome bstate :=
  match b_handles b handle with
  | None => Fault NullDeref
  | Some i => Ok (set_ib (upd (b_ib b) i (set_iwrappee v)) b)
  end.

(** loop of prepare_symbol, src/gotcha.c:104-116 *)
Fixpoint prepare_loop (e : env) (maps : list lmap) (name : cstr) (l : lstate) : outcome (lstate * option Z) :=
  match maps with
  | [] => Ok (l, None)
  | lib :: r =>
    do ' (l, _) <- track_library l lib;
    do sym <- lookup_exported_symbol (e_vdso e lib) name lib;
    match sym with
    | Some a => Ok (l, Some a)
    | None => prepare_loop e r name l
    end
  end.

(** prepare_symbol, src/gotcha.c:98-119; [true] = 0 (found), [false] = -1 *)
Definition prepare_symbol (e : env) (st : state) (b : nat) : outcome (state * bool) :=
  do ib <- deref (b_ib (s_b st)) b;
  do ' (l, r) <- prepare_loop e (p_maps (s_p st)) (ub_name (ib_user ib)) (s_l st);
  let st := set_l l st in
  match r with
  | Some a => do bs <- set_wrappee (s_b st) (ub_handle (ib_user ib)) (Ptr a); Ok (set_b bs st, true)
  | None => Ok (st, false)
  end.

(** insert_at_head, src/gotcha.c:121-130 *)
Definition insert_at_head (bs : bstate) (b head : nat) : outcome bstate :=
  let bs := set_ib (upd (b_ib bs) b (set_inext (Some head))) bs in
  do ib <- deref (b_ib bs) b;
  do hb <- deref (b_ib bs) head;
  do bs <- set_wrappee bs (ub_handle (ib_user ib)) (Ptr (ub_wrapper (ib_user hb)));
  do ' (t, _) <- removefrom_hashtable (b_fn bs) (ub_name (ib_user ib));
  do t <- addto_hashtable t (ub_name (ib_user ib)) b;
  Ok (set_fn t bs).

(** insert_after_pos, src/gotcha.c:132-140 *)
Definition insert_after_pos (bs : bstate) (b pos : nat) : outcome bstate :=
  do ib <- deref (b_ib bs) b;
  do pb <- deref (b_ib bs) pos;
  do bs <- set_wrappee bs (ub_handle (ib_user ib)) (ib_wrappee pb);
  do bs <- set_wrappee bs (ub_handle (ib_user pb)) (Ptr (ub_wrapper (ib_user ib)));
  do pb <- deref (b_ib bs) pos;
  let bs := set_ib (upd (b_ib bs) b (set_inext (ib_next pb))) bs in
  Ok (set_ib (upd (b_ib bs) pos (set_inext (Some b))) bs).

(** get_priority(binding->associated_binding_table->tool) *)
Definition binding_priority (bs : bstate) (b : nat) : outcome Z :=
  do ib <- deref (b_ib bs) b;
  do bt <- deref (b_tables bs) (ib_table ib);
  get_priority (b_tools bs) (bt_tool bt).

(** for loop of rewrite_wrapper_orders, src/gotcha.c:182-202: [Some cur] = insertion point,
    [None] = already inserted *)
Fixpoint order_loop (fuel : nat) (bs : bstate) (wrapper prio : Z) (cur : nat) : outcome (option nat) :=
  match fuel with
  | O => Fault NoTermination
  | S f =>
    do c <- deref (b_ib bs) cur;
    match ib_next c with
    | None => Ok (Some cur)
    | Some nx =>
      do next_priority <- binding_priority bs nx;
      if next_priority <? prio then Ok (Some cur)
      else if ub_wrapper (ib_user c) =? wrapper then Ok None
      else order_loop f bs wrapper prio nx
    end
  end.

(** main_wrappers and libc_main_wrappers, src/translations.c:47-52; dl_binds, src/gotcha_dl.c:187-189 *)
Definition main_binds (e : env) : list ubind := [mkUB n_main (e_w_main e) (e_h_main e)].
Definition libc_binds (e : env) : list ubind := [mkUB n_libc_start_main (e_w_libc e) (e_h_libc e)].
Definition dl_binds (e : env) : list ubind :=
  [mkUB n_dlopen (e_w_dlopen e) (e_h_dlopen e); mkUB n_dlsym (e_w_dlsym e) (e_h_dlsym e)].

(** what rewrite_wrapper_orders asks for: RWO_NEED_LOOKUP and RWO_NEED_BINDING *)
Record rwo := mkRWO { need_lookup : bool; need_binding : bool }.

(** the recursive calls of gotcha_wrap: bindings, tool name, state *)
Definition wrap_fun : Type := state -> list ubind -> option cstr -> outcome (state * Z).

(** src/gotcha.c:149-156 *)
Definition wrap_main (e : env) (rec : wrap_fun) (st : state) (name : cstr) : outcome state :=
  if (libc_strcmp name n_main =? 0) && negb (s_main st) then
    let st := mkSt (s_init st) true (s_b st) (s_l st) (s_p st) in
    do ' (st, _) <- rec st (libc_binds e) (Some n_gotcha);
    do ' (st, _) <- rec st (main_binds e) (Some n_gotcha);
    Ok st
  else Ok st.

(** src/gotcha.c:164-206 *)
Definition place_binding (bs : bstate) (b : nat) (name : cstr) (wrapper insert_priority : Z) : outcome (bstate * rwo) :=
  do hash_result <- lookup_hashtable (b_fn bs) name;
  match hash_result with
  | None => do t <- addto_hashtable (b_fn bs) name b; Ok (set_fn t bs, mkRWO true true)
  | Some head =>
    do head_priority <- binding_priority bs head;
    if head_priority <? insert_priority then
      do bs <- insert_at_head bs b head; Ok (bs, mkRWO false true)
    else
      do cur <- order_loop (S (length (b_ib bs))) bs wrapper insert_priority head;
      match cur with
      | None => Ok (bs, mkRWO false false)
      | Some pos => do bs <- insert_after_pos bs b pos; Ok (bs, mkRWO false false)
      end
  end.

(** rewrite_wrapper_orders, src/gotcha.c:145-207 *)
Definition rewrite_wrapper_orders (e : env) (rec : wrap_fun) (st : state) (b : nat) : outcome (state * rwo) :=
  do ib <- deref (b_ib (s_b st)) b;
  do insert_priority <- binding_priority (s_b st) b;
  do st <- wrap_main e rec st (ub_name (ib_user ib));
  do ' (bs, r) <- place_binding (s_b st) b (ub_name (ib_user ib)) (ub_wrapper (ib_user ib)) insert_priority;
  Ok (set_b bs st, r).

(** ** gotcha.c: rewriting GOTs *)

(** update_lib_bindings, src/gotcha.c:209-224, called for each relocation (offset, symbol name) *)
Fixpoint update_lib_bindings (ibs : list ibind) (lmap_addr : Z) (table : htable cstr nat)
    (rels : list (Z * cstr)) (mem : Z -> Z) (log : list pevent) : outcome ((Z -> Z) * list pevent) :=
  match rels with
  | [] => Ok (mem, log)
  | (offset, name) :: r =>
    do result <- lookup_hashtable table name;
    match result with
    | None => update_lib_bindings ibs lmap_addr table r mem log
    | Some b =>
      do ib <- deref ibs b;
      update_lib_bindings ibs lmap_addr table r (fupd mem (u64 (lmap_addr + offset)) (ub_wrapper (ib_user ib)))
        (log ++ [PStore (u64 (lmap_addr + offset)) (ub_wrapper (ib_user ib))])
    end
  end.

(** update_library_got, src/gotcha.c:362-391; [rest] are the link maps after [m] *)
Definition update_library_got (e : env) (ibs : list ibind) (table : htable cstr nat) (m : lmap) (rest : list lmap)
    (lp : lstate * pstate) : outcome (lstate * pstate) :=
  let (l, p) := lp in
  do ' (l, lib) <- track_library l m;
  do accepted <- filter_func (p_filter p) m rest;
  if negb accepted then Ok (l, p)
  else
    do lb <- deref (l_heap l) lib;
    if lb_gen lb =? l_gen l then Ok (l, p)
    else
      do ' (heap, log) <-
        (if lb_writable lb then Ok (l_heap l, p_log p)
         else do calls <- mark_got_writable (e_ps e) (e_phdrs e (p_maps p)) m;
              Ok (upd (l_heap l) lib set_lwritable, p_log p ++ map PProtect calls));
      do rels <- for_each_pltrel m;
      do ' (mem, log) <- (match rels with
                          | None => Ok (p_mem p, log)
                          | Some rs => update_lib_bindings ibs (lm_addr m) table rs (p_mem p) log
                          end);
      Ok (mkLS (l_table l) (upd heap lib (set_lgen (l_gen l))) (l_list l) (l_gen l),
          mkPS (p_maps p) mem log (p_filter p)).

(** update_all_library_gots, src/gotcha.c:393-400 *)
Fixpoint update_gots (e : env) (ibs : list ibind) (table : htable cstr nat) (maps : list lmap)
    (lp : lstate * pstate) : outcome (lstate * pstate) :=
  match maps with
  | [] => Ok lp
  | m :: rest => do lp <- update_library_got e ibs table m rest lp; update_gots e ibs table rest lp
  end.
Definition update_all_library_gots (e : env) (table : htable cstr nat) (st : state) : outcome state :=
  do ' (l, p) <- update_gots e (b_ib (s_b st)) table (p_maps (s_p st)) (s_l st, s_p st);
  Ok (set_p p (set_l l st)).

(** ** gotcha.c: gotcha_wrap *)

(** loop of add_binding_to_tool filling binding_hash, src/tool.c:117-126 *)
Fixpoint fill_hash (t : htable cstr nat) (ubs : list ubind) (i : nat) : outcome (htable cstr nat) :=
  match ubs with
  | [] => Ok t
  | u :: r => do t <- addto_hashtable t (ub_name u) i; fill_hash t r (S i)
  end.

(** loop of add_binding_to_tool filling the internal bindings and handles, src/tool.c:104-109 *)
Fixpoint fill_bindings (tbl : nat) (ubs : list ubind) (ibs : list ibind) (hs : Z -> option nat)
  : list ibind * (Z -> option nat) :=
  match ubs with
  | [] => (ibs, hs)
  | u :: r => fill_bindings tbl r (ibs ++ [mkIB tbl u None Uninit]) (fupd hs (ub_handle u) (Some (length ibs)))
  end.

(** add_binding_to_tool, src/tool.c:95-145.  malloc succeeds.  Result: index of the new table. *)
Definition add_binding_to_tool (e : env) (bs : bstate) (tool : nat) (ubs : list ubind) : outcome (bstate * nat) :=
  let tbl := length (b_tables bs) in
  let start := length (b_ib bs) in
  let (ibs, hs) := fill_bindings tbl ubs (b_ib bs) (b_handles bs) in
  do h <- create_hashtable (e_ps e) (Z.of_nat (length ubs) * 2) strhash libc_strcmp;
  do h <- fill_hash h ubs start;
  do t <- deref (ts_heap (b_tools bs)) tool;
  let newbinding := mkBT tool start (Z.of_nat (length ubs)) h (t_binding t) (b_all bs) in
  let ts := mkTS (upd (ts_heap (b_tools bs)) tool (set_tbinding (Some tbl))) (ts_head (b_tools bs)) in
  Ok (mkBS ts (b_tables bs ++ [newbinding]) (Some tbl) ibs hs (b_fn bs) (b_nf bs), tbl).

(** src/gotcha.c:424-426: *function_handle = NULL for each binding *)
Definition null_handles (ubs : list ubind) (hs : Z -> option nat) : Z -> option nat :=
  fold_left (fun h u => fupd h (ub_handle u) None) ubs hs.

(** progress of the loop of gotcha_wrap: not_found, and new_bindings ([None] while new_bindings_count = 0) *)
Record progress := mkPr { pr_not_found : Z; pr_new : option (htable cstr nat) }.

(** body of the loop of gotcha_wrap, src/gotcha.c:449-479 *)
Definition wrap_one (e : env) (rec : wrap_fun) (num_actions : Z) (b : nat) (sp : state * progress)
  : outcome (state * progress) :=
  let (st, pr) := sp in
  do ' (st, result) <- rewrite_wrapper_orders e rec st b;
  do ib <- deref (b_ib (s_b st)) b;
  let name := ub_name (ib_user ib) in
  do ' (st, pr) <-
    (if need_lookup result then
       do ' (st, found) <- prepare_symbol e st b;
       if (found : bool) then Ok (st, pr)
       else do t <- addto_hashtable (b_nf (s_b st)) name b;
            Ok (set_b (set_nf t (s_b st)) st, mkPr (pr_not_found pr + 1) (pr_new pr))
     else Ok (st, pr));
  if need_binding result then
    do t <- (match pr_new pr with
             | None => create_hashtable (e_ps e) (num_actions * 2) strhash libc_strcmp
             | Some t => Ok t
             end);
    do t <- addto_hashtable t name b;
    Ok (st, mkPr (pr_not_found pr) (Some t))
  else Ok (st, pr).

(** the loop, src/gotcha.c:449-480, over the [n] internal bindings starting at [b] *)
Fixpoint wrap_loop (e : env) (rec : wrap_fun) (num_actions : Z) (n b : nat) (sp : state * progress)
  : outcome (state * progress) :=
  match n with
  | O => Ok sp
  | S n => do sp <- wrap_one e rec num_actions b sp; wrap_loop e rec num_actions n (S b) sp
  end.

(** setup_hash_tables, src/gotcha_utils.c:65-72 *)
Definition setup_hash_tables (e : env) (st : state) : outcome state :=
  do lt <- create_hashtable (e_ps e) 128 link_map_hash link_map_cmp;
  do ft <- create_hashtable (e_ps e) 4096 strhash libc_strcmp;
  do nt <- create_hashtable (e_ps e) 128 strhash libc_strcmp;
  Ok (set_l (mkLS lt (l_heap (s_l st)) (l_list (s_l st)) (l_gen (s_l st)))
       (set_b (set_nf nt (set_fn ft (s_b st))) st)).

(** gotcha_init, src/gotcha_utils.c:107-116, with handle_libdl, src/gotcha_dl.c:190.
    debug_init only sets the debug level. *)
Definition gotcha_init (e : env) (rec : wrap_fun) (st : state) : outcome state :=
  if s_init st then Ok st
  else
    let st := mkSt true (s_main st) (s_b st) (s_l st) (s_p st) in
    do st <- setup_hash_tables e st;
    do ' (st, _) <- rec st (dl_binds e) (Some n_gotcha);
    Ok st.

(** gotcha_wrap, src/gotcha.c:402-491, after gotcha_init (num_actions is the length of the list) *)
Definition wrap_tool (e : env) (rec : wrap_fun) (st : state) (ubs : list ubind) (tool_name : option cstr)
  : outcome (state * Z) :=
  let num_actions := Z.of_nat (length ubs) in
  let st := set_b (set_handles (null_handles ubs (b_handles (s_b st))) (s_b st)) st in
  let tool_name := match tool_name with Some n => n | None => n_unspecified end in
  do ' (ts, tool) <- get_or_create_tool (e_ps e) (b_tools (s_b st)) tool_name;
  let st := set_b (set_btools ts (s_b st)) st in
  let l := s_l st in
  let st := set_l (mkLS (l_table l) (l_heap l) (l_list l) (u32 (l_gen l + 1))) st in
  do ' (bs, tbl) <- add_binding_to_tool e (s_b st) tool ubs;
  let st := set_b bs st in
  do bt <- deref (b_tables bs) tbl;
  do ' (st, pr) <- wrap_loop e rec num_actions (length ubs) (bt_start bt) (st, mkPr 0 None);
  do st <- (match pr_new pr with
            | Some t => update_all_library_gots e t st
            | None => Ok st
            end);
  Ok (st, if negb (pr_not_found pr =? 0) then GOTCHA_FUNCTION_NOT_FOUND else GOTCHA_SUCCESS).

Definition wrap_body (e : env) (rec : wrap_fun) : wrap_fun :=
  fun st ubs tool_name =>
    do st <- gotcha_init e rec st;
    wrap_tool e rec st ubs tool_name.

(** gotcha_wrap with at most [n] nested calls *)
Fixpoint wrap_n (e : env) (n : nat) : wrap_fun :=
  match n with
  | O => fun _ _ _ => Fault NoTermination
  | S m => wrap_body e (wrap_n e m)
  end.

(** gotcha_wrap, src/gotcha.c:402-491: the model allows recursion depth 2 below the user's call *)
Definition gotcha_wrap (e : env) : wrap_fun := wrap_n e 3.

(** gotcha_init as called by the other API functions *)
Definition api_init (e : env) (st : state) : outcome state := gotcha_init e (wrap_n e 3) st.

(** gotcha_set_priority, src/gotcha.c:509-527 *)
Definition gotcha_set_priority (e : env) (st : state) (name : cstr) (value : Z) : outcome (state * Z) :=
  do st <- api_init e st;
  do ts <- set_priority_int (e_ps e) (b_tools (s_b st)) name value;
  Ok (set_b (set_btools ts (s_b st)) st, GOTCHA_SUCCESS).

(** gotcha_get_priority, src/gotcha.c:529-533: state, return code, value stored *)
Definition gotcha_get_priority (e : env) (st : state) (name : cstr) : outcome (state * (Z * option Z)) :=
  do st <- api_init e st;
  do r <- get_configuration_value (b_tools (s_b st)) name;
  Ok (st, r).

(** gotcha_get_wrappee, src/gotcha.c:535-537, applied to the content of a handle variable *)
Definition gotcha_get_wrappee (st : state) (handle : Z) : outcome wptr :=
  match b_handles (s_b st) handle with
  | None => Fault NullDeref
  | Some i => do ib <- deref (b_ib (s_b st)) i; Ok (ib_wrappee ib)
  end.

(** ** gotcha_dl.c *)

(** while loop of per_binding, src/gotcha_dl.c:118-124 *)
Fixpoint innermost (fuel : nat) (ibs : list ibind) (b : nat) : outcome nat :=
  match fuel with
  | O => Fault NoTermination
  | S f =>
    do ib <- deref ibs b;
    match ib_next ib with
    | None => Ok b
    | Some nx => innermost f ibs nx
    end
  end.

(** per_binding, src/gotcha_dl.c:107-135 *)
Definition per_binding (e : env) (key : option cstr) (data : option nat) (st : state) : outcome (state * Z) :=
  match key, data with
  | Some key, Some b =>
    do b <- innermost (S (length (b_ib (s_b st)))) (b_ib (s_b st)) b;
    do ' (st, found) <- prepare_symbol e st b;
    if (found : bool) then
      do ' (t, _) <- removefrom_hashtable (b_nf (s_b st)) key;
      Ok (set_b (set_nf t (s_b st)) st, 0)
    else Ok (st, 0)
  | _, _ => Fault NullDeref
  end.

(** dlopen_wrapper after the original dlopen has returned, src/gotcha_dl.c:144-149 *)
Definition dlopen_finish (e : env) (st : state) : outcome state :=
  do ' (st, _) <- foreach_hash_entry (fun s => b_nf (s_b s)) (per_binding e) st;
  update_all_library_gots e (b_fn (s_b st)) st.

(** RTLD_NEXT, dlfcn.h: (void pointer) -1l *)
Definition RTLD_NEXT : Z := two64 - 1.

(** lib_header_callback, src/gotcha_dl.c:29-58: is the caller in a PT_LOAD segment of this object? *)
Definition in_object (caller : Z) (info : phdr_info) : bool :=
  existsb (fun ph => (p_type ph =? PT_LOAD)
    && (let start_addr := u64 (dlpi_addr info + p_vaddr ph) in
        let end_addr := u64 (start_addr + p_memsz ph) in
        (start_addr <=? caller) && (caller <? end_addr))) (dlpi_phdr info).
(** the while loop over link maps, src/gotcha_dl.c:46-55: the link maps from the one found on *)
Fixpoint find_lmap (maps : list lmap) (name : cstr) (load_address : Z) : outcome (option (list lmap)) :=
  match maps with
  | [] => Ok None
  | m :: r =>
    match lm_name m with
    | None => Fault NullDeref
    | Some nm => if (libc_strcmp nm name =? 0) && (load_address =? lm_addr m)
                 then Ok (Some maps) else find_lmap r name load_address
    end
  end.
(** dl_iterate_phdr with lib_header_callback *)
Fixpoint find_caller (infos : list phdr_info) (maps : list lmap) (caller : Z) : outcome (option (list lmap)) :=
  match infos with
  | [] => Ok None
  | i :: r =>
    if in_object caller i then
      do found <- find_lmap maps (dlpi_name i) (dlpi_addr i);
      match found with
      | Some ms => Ok (Some ms)
      | None => find_caller r maps caller
      end
    else find_caller r maps caller
  end.

(** while loop of gotchas_dlsym_rtld_next_lookup, src/gotcha_dl.c:86-99 *)
Fixpoint next_export (e : env) (maps : list lmap) (name : cstr) : outcome (option lmap) :=
  match maps with
  | [] => Ok None
  | m :: r =>
    do s <- lookup_exported_symbol (e_vdso e m) name m;
    match s with
    | Some _ => Ok (Some m)
    | None => next_export e r name
    end
  end.

(** result of dlsym_wrapper: a pointer (0 = NULL), or exit(127) *)
Inductive dlres := DReturn (a : Z) | DExit.

(** outside world of dlsym_wrapper: the original dlsym and dlopen (reached through the wrappees of
    GOTCHA's handles), and the caller's return address *)
Record dlworld := mkDW { dw_dlsym : Z -> cstr -> Z; dw_dlopen : option cstr -> Z; dw_caller : Z }.

(** value read from a wrappee_pointer field *)
Definition wptr_value (e : env) (b : nat) (w : wptr) : Z := match w with Ptr a => a | Uninit => e_junk e b end.

(** dlsym_wrapper, src/gotcha_dl.c:154-185.  GOTCHA's state is only read. *)
Definition dlsym_wrapper (e : env) (w : dlworld) (st : state) (handle : Z) (name : cstr) : outcome dlres :=
  do _ <- gotcha_get_wrappee st (e_h_dlopen e);
  do _ <- gotcha_get_wrappee st (e_h_dlsym e);
  do result <- lookup_hashtable (b_fn (s_b st)) name;
  let val := dw_dlsym w handle name in
  let unwrapped :=
    if handle =? RTLD_NEXT then
      do c <- find_caller (e_phdrs e (p_maps (s_p st))) (p_maps (s_p st)) (dw_caller w);
      match c with
      | None => Ok DExit
      | Some [] => Fault NullDeref
      | Some (_ :: after) =>
        do lib <- next_export e after name;
        match lib with
        | Some lib => Ok (DReturn (dw_dlsym w (dw_dlopen w (lm_name lib)) name))
        | None => Ok (DReturn 0)
        end
      end
    else Ok (DReturn val) in
  match result with
  | None => unwrapped
  | Some b =>
    do ib <- deref (b_ib (s_b st)) b;
    match b_handles (s_b st) (ub_handle (ib_user ib)) with
    | None => Fault NullDeref
    | Some i =>
      do hb <- deref (b_ib (s_b st)) i;
      if (val =? 0) || (wptr_value e i (ib_wrappee hb) =? val) then Ok (DReturn (ub_wrapper (ib_user ib)))
      else unwrapped
    end
  end.

(** ** translations.c *)

(** gotcha_internal_main, src/translations.c:27-31: the main it calls *)
Definition internal_main_target (e : env) (st : state) : outcome wptr := gotcha_get_wrappee st (e_h_main e).
(** gotcha_internal_libc_start_main, src/translations.c:33-45: the function called and the main passed to it *)
Definition internal_libc_start_main (e : env) (st : state) : outcome (wptr * wptr) :=
  do underlying_libc_main <- gotcha_get_wrappee st (e_h_libc e);
  do underlying_main <- gotcha_get_wrappee st (e_h_main e);
  Ok (underlying_libc_main, underlying_main).

(** ** initial state and histories *)

Definition zero_table {K D} : htable K D := mkHT 0 0 None None [] None.
(** static storage before the first API call; handle variables start out NULL or arbitrary, which is not
    observable because gotcha_wrap assigns them first *)
Definition init_state (maps : list lmap) (mem : Z -> Z) : state :=
  mkSt false false
    (mkBS (mkTS [] None) [] None [] (fun _ => None) zero_table zero_table)
    (mkLS zero_table [] None 0)
    (mkPS maps mem [] FAlways).

(** Operations of a process that uses GOTCHA.  An intercepted dlopen is [OLoad] (the original dlopen maps
    libraries; it may run constructors, which may issue further operations) followed by [OFinish]; a load
    GOTCHA does not see is [OLoad] alone.  [OLoad libs mem]: the loader appends [libs] to the link map and
    leaves memory [mem].  Before the first API call dlopen is not intercepted and [OFinish] does nothing.
    [OUnload keep mem]: the loader removes the link maps not in [keep]. *)
Inductive op :=
| OWrap (ubs : list ubind) (tool : option cstr)
| OSetPriority (tool : cstr) (value : Z)
| OGetPriority (tool : cstr)
| OFilter (f : lfilter)
| OLoad (libs : list lmap) (mem : Z -> Z)
| OFinish
| OUnload (keep : lmap -> bool) (mem : Z -> Z).

(** what the caller of an operation gets: nothing, a return code, or a code and the stored priority *)
Inductive res := RNone | RCode (c : Z) | RPrio (c : Z) (v : option Z).

Definition step (e : env) (st : state) (o : op) : outcome (state * res) :=
  match o with
  | OWrap ubs tool => do ' (st, c) <- gotcha_wrap e st ubs tool; Ok (st, RCode c)
  | OSetPriority t v => do ' (st, c) <- gotcha_set_priority e st t v; Ok (st, RCode c)
  | OGetPriority t => do ' (st, (c, v)) <- gotcha_get_priority e st t; Ok (st, RPrio c v)
  | OFilter f => Ok (set_filter f st, RNone)
  | OLoad libs mem => Ok (set_p (mkPS (p_maps (s_p st) ++ libs) mem (p_log (s_p st)) (p_filter (s_p st))) st, RNone)
  | OFinish => if s_init st then (do st <- dlopen_finish e st; Ok (st, RNone)) else Ok (st, RNone)
  | OUnload keep mem =>
      Ok (set_p (mkPS (filter keep (p_maps (s_p st))) mem (p_log (s_p st)) (p_filter (s_p st))) st, RNone)
  end.

Fixpoint run (e : env) (st : state) (ops : list op) : outcome (state * list res) :=
  match ops with
  | [] => Ok (st, [])
  | o :: r => do ' (st, x) <- step e st o; do ' (st, xs) <- run e st r; Ok (st, x :: xs)
  end.
