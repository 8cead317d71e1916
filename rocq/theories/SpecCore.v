(** Independent specification of the wrapping core: an abstract machine that knows, for every function
    name, the stack of wrappers from the outermost to the innermost, the original function once found,
    and the priority of every tool. *)
From Verif Require Import Base HashModel SpecHash ElfModel ToolModel CoreModel.

(** *** tools: (name, priority) in order of first use *)
Definition use_tool (m : list (cstr * Z)) (n : cstr) : list (cstr * Z) :=
  if existsb (fun p => cstr_eqb (fst p) n) m then m else m ++ [(n, -1)].
Definition set_prio (m : list (cstr * Z)) (n : cstr) (v : Z) : list (cstr * Z) :=
  map (fun p => if cstr_eqb (fst p) n then (fst p, v) else p) m.
Definition prio_of (m : list (cstr * Z)) (n : cstr) : Z :=
  match aget cstr_eqb m n with Some v => v | None => -1 end.

(** *** stacks *)
(** one installed wrapper: the tool that installed it, the wrapper function, the handle variable *)
Record entry := mkE { en_tool : cstr; en_wrapper : Z; en_handle : Z }.

(** a new wrapper goes just outside the first wrapper whose tool has strictly lower priority *)
Fixpoint place (m : list (cstr * Z)) (x : entry) (s : list entry) : list entry :=
  match s with
  | [] => [x]
  | y :: r => if prio_of m (en_tool y) <? prio_of m (en_tool x) then x :: s else y :: place m x r
  end.

Record astate := mkA {
  a_init : bool;                       (* has some API function been called? *)
  a_main : bool;                       (* has main been wrapped? *)
  a_tools : list (cstr * Z);
  a_stack : cstr -> list entry;        (* outermost first *)
  a_orig : cstr -> option Z;           (* the function found behind the stack *)
  a_maps : list lmap }.

Definition a0 (maps : list lmap) : astate := mkA false false [] (fun _ => []) (fun _ => None) maps.

Definition cupd {A} (f : cstr -> A) (n : cstr) (v : A) : cstr -> A := fun m => if cstr_eqb m n then v else f m.

(** address exported for a name by the first library that exports it; [ex] gives the export of one library *)
Fixpoint first_export (ex : lmap -> cstr -> option Z) (maps : list lmap) (n : cstr) : option Z :=
  match maps with
  | [] => None
  | m :: r => match ex m n with Some a => Some a | None => first_export ex r n end
  end.

Section Machine.
(** how a wrapper is inserted (specification: [place]), exports of a library, GOTCHA's own bindings *)
Context (ins : list (cstr * Z) -> entry -> list entry -> list entry).
Context (ex : lmap -> cstr -> option Z) (e : env).

(** one binding by [tool]; the flag tells whether the function is missing *)
Definition abind (a : astate) (tool : cstr) (u : ubind) : astate * bool :=
  let n := ub_name u in
  let x := mkE tool (ub_wrapper u) (ub_handle u) in
  let s := ins (a_tools a) x (a_stack a n) in
  match a_stack a n with
  | [] => let o := first_export ex (a_maps a) n in
          (mkA (a_init a) (a_main a) (a_tools a) (cupd (a_stack a) n s) (cupd (a_orig a) n o) (a_maps a),
           match o with None => true | Some _ => false end)
  | _ => (mkA (a_init a) (a_main a) (a_tools a) (cupd (a_stack a) n s) (a_orig a) (a_maps a), false)
  end.

(** bindings one after the other; the flag tells whether any was missing *)
Fixpoint abinds (a : astate) (tool : cstr) (ubs : list ubind) : astate * bool :=
  match ubs with
  | [] => (a, false)
  | u :: r => let (a1, f1) := abind a tool u in let (a2, f2) := abinds a1 tool r in (a2, f1 || f2)
  end.

Definition ause (a : astate) (t : cstr) : astate :=
  mkA (a_init a) (a_main a) (use_tool (a_tools a) t) (a_stack a) (a_orig a) (a_maps a).

(** GOTCHA's own bindings of dlopen and dlsym, at the first API call *)
Definition ainit (a : astate) : astate :=
  if a_init a then a
  else fst (abinds (ause (mkA true (a_main a) (a_tools a) (a_stack a) (a_orig a) (a_maps a)) n_gotcha) n_gotcha (dl_binds e)).

(** GOTCHA's own bindings of __libc_start_main and main, when main is wrapped for the first time *)
Definition amain (a : astate) (n : cstr) : astate :=
  if cstr_eqb n n_main && negb (a_main a) then
    let a := mkA (a_init a) true (a_tools a) (a_stack a) (a_orig a) (a_maps a) in
    let a := fst (abinds (ause a n_gotcha) n_gotcha (libc_binds e)) in
    fst (abinds (ause a n_gotcha) n_gotcha (main_binds e))
  else a.

Fixpoint abinds_user (a : astate) (tool : cstr) (ubs : list ubind) : astate * bool :=
  match ubs with
  | [] => (a, false)
  | u :: r => let (a1, f1) := abind (amain a (ub_name u)) tool u in
              let (a2, f2) := abinds_user a1 tool r in (a2, f1 || f2)
  end.

Definition awrap (a : astate) (ubs : list ubind) (tool : option cstr) : astate * bool :=
  let t := match tool with Some t => t | None => n_unspecified end in
  abinds_user (ause (ainit a) t) t ubs.

(** a load makes pending functions available *)
Definition aresolve (a : astate) : astate :=
  mkA (a_init a) (a_main a) (a_tools a) (a_stack a)
    (fun n => match a_orig a n with
              | Some x => Some x
              | None => match a_stack a n with [] => None | _ => first_export ex (a_maps a) n end
              end) (a_maps a).

Definition astep (a : astate) (o : op) : astate * res :=
  match o with
  | OWrap ubs tool => let (a', missing) := awrap a ubs tool in
                      (a', RCode (if missing then GOTCHA_FUNCTION_NOT_FOUND else GOTCHA_SUCCESS))
  | OSetPriority t v => let a := ainit a in
      (mkA (a_init a) (a_main a) (set_prio (use_tool (a_tools a) t) t v) (a_stack a) (a_orig a) (a_maps a), RCode GOTCHA_SUCCESS)
  | OGetPriority t => let a := ainit a in
      (a, match aget cstr_eqb (a_tools a) t with Some v => RPrio GOTCHA_SUCCESS (Some v) | None => RPrio GOTCHA_INVALID_TOOL None end)
  | OFilter _ => (a, RNone)
  | OLoad libs _ => (mkA (a_init a) (a_main a) (a_tools a) (a_stack a) (a_orig a) (a_maps a ++ libs), RNone)
  | OFinish => (if a_init a then aresolve a else a, RNone)
  | OUnload keep _ => (mkA (a_init a) (a_main a) (a_tools a) (a_stack a) (a_orig a) (filter keep (a_maps a)), RNone)
  end.

Fixpoint arun (a : astate) (ops : list op) : astate * list res :=
  match ops with
  | [] => (a, [])
  | o :: r => let (a1, x) := astep a o in let (a2, xs) := arun a1 r in (a2, x :: xs)
  end.

(** *** fresh bindings: every binding has its own handle variable and, per function, its own wrapper *)
Definition internal_handles : list Z := [e_h_dlopen e; e_h_dlsym e; e_h_libc e; e_h_main e].
Definition internal_wrappers : list Z := [e_w_dlopen e; e_w_dlsym e; e_w_libc e; e_w_main e].

Record fresh_bindings (a : astate) (ubs : list ubind) : Prop := {
  fb_handles : NoDup (map ub_handle ubs);
  fb_wrappers : NoDup (map (fun u => (ub_name u, ub_wrapper u)) ubs);
  fb_handle_new : forall u n x, In u ubs -> In x (a_stack a n) -> en_handle x <> ub_handle u;
  fb_wrapper_new : forall u x, In u ubs -> In x (a_stack a (ub_name u)) -> en_wrapper x <> ub_wrapper u;
  fb_internal : forall u, In u ubs -> ~ In (ub_handle u) internal_handles /\ ~ In (ub_wrapper u) internal_wrappers }.

Definition fresh_op (a : astate) (o : op) : Prop :=
  match o with OWrap ubs _ => fresh_bindings a ubs | _ => True end.

Fixpoint fresh_ops (a : astate) (ops : list op) : Prop :=
  match ops with
  | [] => True
  | o :: r => fresh_op a o /\ fresh_ops (fst (astep a o)) r
  end.
End Machine.

(** *** libraries *)
(** GOTCHA can read the library: [ex] are its exports, [rl] its relocations (offset, symbol name) *)
Record lib_ok (e : env) (ex : lmap -> cstr -> option Z) (rl : lmap -> list (Z * cstr)) (m : lmap) : Prop := {
  lo_export : forall n, lookup_exported_symbol (e_vdso e m) n m = Ok (ex m n);
  lo_rels : exists r, for_each_pltrel m = Ok r /\ rl m = match r with Some l => l | None => [] end;
  lo_prot : forall infos, exists calls, mark_got_writable (e_ps e) infos m = Ok calls;
  lo_name : lm_name m <> None }.

(** libraries an operation brings in *)
Definition op_libs (o : op) : list lmap := match o with OLoad libs _ => libs | _ => [] end.

(** environment: page size; GOTCHA's own handle variables are distinct, and so are its own wrappers *)
Record env_ok (e : env) : Prop := {
  eo_ps : 48 <= e_ps e;
  eo_handles : NoDup (internal_handles e);
  eo_wrappers : NoDup (internal_wrappers e) }.

(** *** which wrappers have been installed, in order of installation *)
Definition tool_name (t : option cstr) : cstr := match t with Some t => t | None => n_unspecified end.
Definition bound (t : cstr) (u : ubind) : cstr * entry := (ub_name u, mkE t (ub_wrapper u) (ub_handle u)).
(** the bindings of one call; the first one of main is preceded by GOTCHA's own ones *)
Fixpoint call_installs (e : env) (m : bool) (t : cstr) (ubs : list ubind) : list (cstr * entry) :=
  match ubs with
  | [] => []
  | u :: r => (if cstr_eqb (ub_name u) n_main && negb m then map (bound n_gotcha) (libc_binds e ++ main_binds e) else [])
              ++ bound t u :: call_installs e (m || cstr_eqb (ub_name u) n_main) t r
  end.
(** [i]: some API function has been called before; [m]: main has been wrapped before *)
Fixpoint installs (e : env) (i m : bool) (ops : list op) : list (cstr * entry) :=
  let own := if i then [] else map (bound n_gotcha) (dl_binds e) in
  match ops with
  | [] => []
  | OWrap ubs tool :: r => own ++ call_installs e m (tool_name tool) ubs
                               ++ installs e true (m || existsb (fun u => cstr_eqb (ub_name u) n_main) ubs) r
  | OSetPriority _ _ :: r => own ++ installs e true m r
  | OGetPriority _ :: r => own ++ installs e true m r
  | _ :: r => installs e i m r
  end.
Definition sel (n : cstr) (l : list (cstr * entry)) : list entry := map snd (filter (fun p => cstr_eqb (fst p) n) l).
Definition installed (e : env) (ops : list op) (n : cstr) : list entry := sel n (installs e false false ops).

(** [x] occurs before [y] *)
Definition before {A} (l : list A) (x y : A) : Prop := exists l1 l2 l3, l = l1 ++ x :: l2 ++ y :: l3.

(** [l1] is [l2] with some elements left out *)
Inductive subseq {A} : list A -> list A -> Prop :=
| sub_nil : subseq [] []
| sub_keep x l1 l2 : subseq l1 l2 -> subseq (x :: l1) (x :: l2)
| sub_skip x l1 l2 : subseq l1 l2 -> subseq l1 (x :: l2).

(** no tool's priority is set after it has wrapped something *)
Definition priorities_first (ops : list op) : Prop :=
  forall l1 t v l2, ops = l1 ++ OSetPriority t v :: l2 ->
    t <> n_gotcha /\ forall ubs tool, In (OWrap ubs tool) l1 -> ubs <> [] -> tool_name tool <> t.

(** *** observations on the model's state *)
(** the outermost wrapper of a function: what GOTCHA stores into relocation slots.  Before the first API
    call GOTCHA has no tables. *)
Definition outermost (st : state) (n : cstr) : outcome (option Z) :=
  if s_init st then
    do r <- lookup_hashtable (b_fn (s_b st)) n;
    match r with
    | None => Ok None
    | Some i => do ib <- deref (b_ib (s_b st)) i; Ok (Some (ub_wrapper (ib_user ib)))
    end
  else Ok None.
(** every wrapper's wrappee is the next wrapper, the innermost one's is [orig] (or not yet initialised) *)
Fixpoint wired (st : state) (s : list entry) (orig : option Z) : Prop :=
  match s with
  | [] => True
  | x :: r => gotcha_get_wrappee st (en_handle x) =
                Ok (match r with [] => match orig with Some a => Ptr a | None => Uninit end | y :: _ => Ptr (en_wrapper y) end)
              /\ wired st r orig
  end.

(** the order of C02: higher priority first, equal priorities in order of installation *)
Definition outside (m : list (cstr * Z)) (inst : list entry) (x y : entry) : Prop :=
  prio_of m (en_tool y) < prio_of m (en_tool x) \/
  (prio_of m (en_tool x) = prio_of m (en_tool y) /\ before inst x y).

(** *** the link map after a history *)
Fixpoint maps_after (maps : list lmap) (ops : list op) : list lmap :=
  match ops with
  | [] => maps
  | OLoad libs _ :: r => maps_after (maps ++ libs) r
  | OUnload keep _ :: r => maps_after (filter keep maps) r
  | _ :: r => maps_after maps r
  end.

(** *** tools used so far (GOTCHA's own tool from the first API call on) and priorities set so far *)
Definition uses (t : cstr) (o : op) : bool :=
  match o with
  | OWrap _ tl => cstr_eqb (tool_name tl) t || cstr_eqb n_gotcha t
  | OSetPriority t' _ => cstr_eqb t' t || cstr_eqb n_gotcha t
  | OGetPriority _ => cstr_eqb n_gotcha t
  | _ => false
  end.
Definition used (ops : list op) (t : cstr) : bool := existsb (uses t) ops.
Definition set_last (t : cstr) (v : Z) (o : op) : Z :=
  match o with OSetPriority t' x => if cstr_eqb t' t then x else v | _ => v end.
Definition last_set (ops : list op) (t : cstr) : Z := fold_left (set_last t) ops (-1).

(** *** when GOTCHA looks a function up *)
Definition wrapped (e : env) (ops : list op) (n : cstr) : Prop := installed e ops n <> [].
(** the operation [o] after [l] looks up [n]: it installs the first wrapper of [n], or it is the end of a
    dlopen while [n] is wrapped *)
Definition looks_up (e : env) (l : list op) (o : op) (n : cstr) : Prop :=
  (o = OFinish /\ wrapped e l n) \/ (~ wrapped e l n /\ wrapped e (l ++ [o]) n).
(** the first lookup that succeeds gives [x] *)
Definition found_first (e : env) (ex : lmap -> cstr -> option Z) (maps : list lmap) (ops : list op) (n : cstr) (x : Z) : Prop :=
  exists l1 o l2, ops = l1 ++ o :: l2 /\ looks_up e l1 o n /\ first_export ex (maps_after maps (l1 ++ [o])) n = Some x /\
    forall k1 p k2, l1 = k1 ++ p :: k2 -> looks_up e k1 p n -> first_export ex (maps_after maps (k1 ++ [p])) n = None.
