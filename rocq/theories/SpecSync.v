(** Specification vocabulary for redirection over whole histories. *)
From Verif Require Import Base HashModel SpecHash ElfModel SpecElf ToolModel CoreModel SpecCore SpecRun.

(** the libraries loaded at any time *)
Definition seen (maps : list lmap) (ops : list op) : list lmap := maps ++ flat_map op_libs ops.
(** no two functions share a relocation slot *)
Definition slots_apart (maps : list lmap) : Prop :=
  forall m m' n n' x, In m maps -> In m' maps -> slot relocs m n x -> slot relocs m' n' x -> n = n'.
Definition is_wrap (o : op) : bool := match o with OWrap _ _ => true | _ => false end.
Definition wraps (ops : list op) : nat := length (filter is_wrap ops).

(** Histories in which GOTCHA's bookkeeping of libraries works: the libraries' hash values are distinct, no
    slot belongs to two functions, and there are fewer than 2^32 - 4 calls of gotcha_wrap. *)
Record tidy (maps : list lmap) (ops : list op) : Prop := {
  td_libs : NoDup (map (fun m => link_map_hash (key_of m)) (seen maps ops));
  td_slots : forall l1 l2, ops = l1 ++ l2 -> slots_apart (maps_after maps l1);
  td_gen : Z.of_nat (wraps ops) + 4 < two32 }.

(** The same, but a library may be unloaded and loaded again, and its link_map may lie where the old one lay:
    libraries with the same hash value have the same link_map address and name. *)
Definition apart (all : list lmap) : Prop :=
  forall m m', In m all -> In m' all -> link_map_hash (key_of m) = link_map_hash (key_of m') -> key_of m = key_of m'.
(** ... and are mapped at the same place *)
Definition steady (all : list lmap) : Prop := forall m m', In m all -> In m' all -> key_of m = key_of m' -> m = m'.
Record calm (maps : list lmap) (ops : list op) : Prop := {
  cm_libs : apart (seen maps ops);
  cm_once : forall l1 l2, ops = l1 ++ l2 -> NoDup (map key_of (maps_after maps l1));
  cm_slots : forall l1 l2, ops = l1 ++ l2 -> slots_apart (maps_after maps l1);
  cm_gen : Z.of_nat (wraps ops) + 4 < two32 }.

(** main is first wrapped in a call of its own *)
Definition main_alone (before : list op) (o : op) : Prop :=
  match o with
  | OWrap ubs _ => In n_main (map ub_name ubs) -> main_bound before \/ exists u, ubs = [u]
  | _ => True
  end.

(** GOTCHA takes [m] for up to date *)
Definition current (st : state) (m : lmap) : Prop :=
  exists i lb, get_library (s_l st) m = Ok (Some i) /\ nth_error (l_heap (s_l st)) i = Some lb /\ lb_gen lb = l_gen (s_l st).

(** every slot of [m] for a wrapped function other than main holds the outermost wrapper *)
Definition redirected (st : state) (m : lmap) : Prop :=
  forall n x w, n <> n_main -> slot relocs m n x -> outermost st n = Ok (Some w) -> p_mem (s_p st) x = w.

(** a load GOTCHA has not yet been told about *)
Definition pending (ops : list op) : Prop :=
  exists l1 libs mem l2, ops = l1 ++ OLoad libs mem :: l2 /\ existsb is_api l1 = true /\ ~ In OFinish l2.

(** what the surroundings have to respect for GOTCHA to keep everything redirected *)
Record orderly (e : env) (maps : list lmap) (mem : Z -> Z) (ops : list op) : Prop := {
  od_tidy : tidy maps ops;
  (** a library that is loaded is not accepted by the filter later if it was not before *)
  od_filter : forall l1 o l2 m, ops = l1 ++ o :: l2 -> existsb is_api l1 = true -> In m (maps_after maps l1) ->
    accepted (last_filter (l1 ++ [o])) (maps_after maps (l1 ++ [o])) m -> accepted (last_filter l1) (maps_after maps l1) m;
  (** the loader does not write into slots of libraries that stay *)
  od_load : forall l1 libs mem' l2 st rs m n x, ops = l1 ++ OLoad libs mem' :: l2 -> run e (init_state maps mem) l1 = Ok (st, rs) ->
    In m (maps_after maps l1) -> slot relocs m n x -> mem' x = p_mem (s_p st) x;
  od_unload : forall l1 keep mem' l2 st rs m n x, ops = l1 ++ OUnload keep mem' :: l2 -> run e (init_state maps mem) l1 = Ok (st, rs) ->
    In m (maps_after maps l1) -> keep m = true -> slot relocs m n x -> mem' x = p_mem (s_p st) x;
  (** gotcha_wrap is not called between a load and the end of the dlopen *)
  od_wrap : forall l1 ubs t l2, ops = l1 ++ OWrap ubs t :: l2 -> ~ pending l1;
  od_main : forall l1 o l2, ops = l1 ++ o :: l2 -> main_alone l1 o }.

(** operations between a load and the end of a later dlopen that do not touch GOTCHA's records of libraries *)
Definition quiet (o : op) : bool := match o with OWrap _ _ | OFinish => false | _ => true end.

(** the content of [x] if only the loader stores there during [ops] *)
Definition left_by (ops : list op) (x v : Z) : Z :=
  fold_left (fun v o => match o with OLoad _ mm | OUnload _ mm => mm x | _ => v end) ops v.
(** while [more] runs, [x] is a slot of no library with another link_map than [m]'s *)
Definition slot_alone (maps : list lmap) (ops more : list op) (m : lmap) (x : Z) : Prop :=
  forall l1 l2 m' n, more = l1 ++ l2 -> In m' (maps_after maps (ops ++ l1)) -> slot relocs m' n x -> key_of m' = key_of m.
(** [n] is wrapped by GOTCHA itself during [OWrap ubs _] after [ops] *)
Definition own_first (ops : list op) (n : cstr) : Prop :=
  n = n_main \/ n = n_libc_start_main \/ (existsb is_api ops = false /\ (n = n_dlopen \/ n = n_dlsym)).

(** Libraries hidden by [a], which is loaded and accepted by the filter [f]: the other loaded libraries whose link_map
    has the same hash value all come after [a] and their link_maps lie at no higher address. *)
Definition shadows (f : lfilter) (loaded : list lmap) (a : lmap) : Prop :=
  exists pre rest, loaded = pre ++ a :: rest /\ filter_func f a rest = Ok true /\
    (forall m, In m pre -> link_map_hash (key_of m) <> link_map_hash (key_of a)) /\
    (forall m, In m rest -> link_map_hash (key_of m) = link_map_hash (key_of a) -> u64 (lm_ptr m) <= u64 (lm_ptr a)).
