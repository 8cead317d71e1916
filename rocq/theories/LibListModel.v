(** Model of remove_library and of sequences of operations on the record of libraries. *)
From Verif Require Import Base HashModel ElfModel ToolModel CoreModel.

Definition set_lnext (v : option nat) (l : library) : library := mkLibr (lb_map l) v (lb_prev l) (lb_gen l) (lb_writable l).

(** remove_library, src/gotcha_utils.c:96-105 (declared in tool.h, called by the unit tests only).
    Simplification: the record is zeroed but stays in the heap, so later records get new places. *)
Definition remove_library (l : lstate) (m : lmap) : outcome lstate :=
  do r <- get_library l m;
  match r with
  | None => Ok l
  | Some i =>
    do lib <- deref (l_heap l) i;
    do heap <- (match lb_prev lib with
                | Some p => do _ <- deref (l_heap l) p; Ok (upd (l_heap l) p (set_lnext (lb_next lib)))
                | None => Ok (l_heap l) end);
    do lib <- deref heap i;
    do heap <- (match lb_next lib with
                | Some n => do _ <- deref heap n; Ok (upd heap n (set_lprev (lb_prev lib)))
                | None => Ok heap end);
    do list <- (match l_list l with
                | Some h => if Nat.eqb h i then do x <- deref heap h; Ok (lb_next x) else Ok (l_list l)
                | None => Ok None end);
    do ' (t, _) <- removefrom_hashtable (l_table l) (key_of m);
    Ok (mkLS t (upd heap i (fun _ => mkLibr 0 None None 0 false)) list (l_gen l))
  end.

(** the operations of tool.h on libraries: get_library with add_library if there is none (gotcha.c:105-109 and
    364-368), and remove_library *)
Inductive libop := LTrack (m : lmap) | LRemove (m : lmap).
Definition lib_step (l : lstate) (o : libop) : outcome lstate :=
  match o with
  | LTrack m => do ' (l, _) <- track_library l m; Ok l
  | LRemove m => remove_library l m
  end.
Fixpoint lib_run (l : lstate) (ops : list libop) : outcome lstate :=
  match ops with [] => Ok l | o :: r => do l <- lib_step l o; lib_run l r end.
(** the record of libraries after setup_hash_tables, src/gotcha_utils.c:65-72 *)
Definition lib_setup (ps : Z) : outcome lstate := do t <- create_hashtable ps 128 link_map_hash link_map_cmp; Ok (mkLS t [] None 0).
