(** The name of the library filter by reference.  gotcha_filter_libraries_by_name keeps the caller's pointer
    (src/library_filters.c:42-43, filter = nameFilter), and trueIfNameMatches (src/library_filters.c:25-29) reads the buffer
    whenever a library is considered.  CoreModel.v gives the filter a string of its own; here the buffers are explicit and the
    process may write to them.  Not modelled: writes while a call of GOTCHA is running, and buffers that have been freed. *)
From Verif Require Import Base HashModel ElfModel ToolModel CoreModel.

(** what the process does: any operation ([FOp]; strings inside it are literals, which nobody overwrites),
    gotcha_filter_libraries_by_name with a buffer, or writing a string into a buffer *)
Inductive fop :=
| FOp (o : op)
| FByName (b : nat)
| FWrite (b : nat) (s : cstr).

(** GOTCHA's state, the buffers, and the buffer the static variable filter points to while trueIfNameMatches is the filter
    function *)
Record fstate := mkF { f_core : state; f_buf : nat -> cstr; f_ptr : option nat }.

Definition put (buf : nat -> cstr) (b : nat) (s : cstr) : nat -> cstr := fun x => if Nat.eqb x b then s else buf x.
(** the state with the filter as it reads now *)
Definition view (s : fstate) : state :=
  match f_ptr s with Some b => set_filter (FName (Some (f_buf s b))) (f_core s) | None => f_core s end.
Definition is_filter (o : op) : bool := match o with OFilter _ => true | _ => false end.

Definition fstep (e : env) (s : fstate) (o : fop) : outcome (fstate * list res) :=
  match o with
  | FOp o => do ' (st, x) <- step e (view s) o; Ok (mkF st (f_buf s) (if is_filter o then None else f_ptr s), [x])
  | FByName b => Ok (mkF (f_core s) (f_buf s) (Some b), [RNone])
  | FWrite b v => Ok (mkF (f_core s) (put (f_buf s) b v) (f_ptr s), [])
  end.
Fixpoint frun (e : env) (s : fstate) (ops : list fop) : outcome (fstate * list res) :=
  match ops with
  | [] => Ok (s, [])
  | o :: l => do ' (s, xs) <- fstep e s o; do ' (s, ys) <- frun e s l; Ok (s, xs ++ ys)
  end.
Definition finit (maps : list lmap) (mem : Z -> Z) (buf : nat -> cstr) : fstate := mkF (init_state maps mem) buf None.
