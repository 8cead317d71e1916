(** The arrays of bindings by reference.  add_binding_to_tool keeps a pointer to each element of the caller's array
    (src/tool.c:107, internal_bindings[i].user_binding = &user_binding[i]); the name, the wrapper and the handle are read through
    it whenever they are needed later (src/gotcha.c:101-137, :197, :219, src/gotcha_dl.c:164-170).  CoreModel.v gives every
    internal binding an element of its own; here the arrays are explicit and the process may write to them. *)
From Verif Require Import Base HashModel ElfModel ToolModel CoreModel.

(** what the process does: store an element into an array, call gotcha_wrap with the [n] elements of the array [a] from [off]
    on, or any other operation; an array inside [BOther] is never written again.
    Simplifications: an array has no end; arrays do not overlap; the strings the names point to do not change. *)
Inductive bop :=
| BStore (a i : nat) (u : ubind)
| BWrap (a off n : nat) (tool : option cstr)
| BOther (o : op).

(** GOTCHA's state, the arrays, and for every internal binding (by its place in the list of them) the element its pointer
    user_binding points to; [None]: one that is never written *)
Record vstate := mkV { v_st : state; v_arr : nat -> nat -> ubind; v_of : list (option (nat * nat)) }.

Definition set_user (u : ubind) (b : ibind) : ibind := mkIB (ib_table b) u (ib_next b) (ib_wrappee b).
Definition points (a i : nat) (o : option (nat * nat)) : bool := match o with Some (a', i') => Nat.eqb a' a && Nat.eqb i' i | None => false end.
(** every internal binding that points to the element now finds [u] there *)
Fixpoint repoint (a i : nat) (u : ubind) (of : list (option (nat * nat))) (ibs : list ibind) : list ibind :=
  match of, ibs with
  | o :: of, b :: ibs => (if points a i o then set_user u b else b) :: repoint a i u of ibs
  | _, _ => ibs
  end.
(** the elements of the internal bindings created since, which are never written *)
Definition pad (of : list (option (nat * nat))) (st : state) : list (option (nat * nat)) := of ++ repeat None (length (b_ib (s_b st)) - length of).

Definition vstep (e : env) (v : vstate) (o : bop) : outcome (vstate * list res) :=
  match o with
  | BStore a i u =>
    let st := v_st v in
    Ok (mkV (set_b (set_ib (repoint a i u (v_of v) (b_ib (s_b st))) (s_b st)) st)
          (fun a' i' => if Nat.eqb a' a && Nat.eqb i' i then u else v_arr v a' i') (v_of v), [])
  | BWrap a off n tool =>
    (* gotcha_wrap, src/gotcha.c:402-491: the bindings of gotcha_init come before the new ones, those for main after them *)
    do st <- gotcha_init e (wrap_n e 2) (v_st v);
    let of := pad (v_of v) st in
    do ' (st, c) <- wrap_tool e (wrap_n e 2) st (map (v_arr v a) (seq off n)) tool;
    Ok (mkV st (v_arr v) (pad (of ++ map (fun i => Some (a, i)) (seq off n)) st), [RCode c])
  | BOther o => do ' (st, x) <- step e (v_st v) o; Ok (mkV st (v_arr v) (pad (v_of v) st), [x])
  end.
Fixpoint vrun (e : env) (v : vstate) (ops : list bop) : outcome (vstate * list res) :=
  match ops with
  | [] => Ok (v, [])
  | o :: l => do ' (v, xs) <- vstep e v o; do ' (v, ys) <- vrun e v l; Ok (v, xs ++ ys)
  end.
Definition vinit (maps : list lmap) (mem : Z -> Z) (arr : nat -> nat -> ubind) : vstate := mkV (init_state maps mem) arr [].
