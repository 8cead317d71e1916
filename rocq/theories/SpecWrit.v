(** Specification vocabulary for page permissions: what the loader and mprotect make writable, and which pages a
    store needs. *)
From Verif Require Import Base HashModel ElfModel SpecElf ToolModel CoreModel SpecCore SpecRun SpecSync SpecReg.

(** What the loader knows of a library: the pages it occupies, those among them that are writable once the loader
    is done with it (its RELRO pages are not), its dynamic section and its name. *)
Record loader := mkLd {
  ld_image : lmap -> Z -> bool;
  ld_rw : lmap -> Z -> bool;
  ld_dyn : lmap -> list (Z * Z);
  ld_name : lmap -> cstr }.

(** *** the pages of the process that are writable, over a history *)
Definition perm : Type := Z -> Prop.
Section Perm.
Context (ps : Z) (ld : loader).
(** [ans i]: the kernel grants the [i]th call of mprotect *)
Context (ans : nat -> bool).

Definition load_lib (w : perm) (m : lmap) : perm := fun pg => if ld_image ld m pg then ld_rw ld m pg = true else w pg.
Definition unload_lib (w : perm) (m : lmap) : perm := fun pg => w pg /\ ld_image ld m pg = false.
(** mprotect with PROT_READ | PROT_WRITE | PROT_EXEC, if granted; a store changes nothing *)
Definition event (n : nat) (w : perm) (ev : pevent) : perm :=
  match ev with
  | PProtect c => fun pg => w pg \/ (ans n = true /\ covers ps [c] pg)
  | PStore _ _ => w
  end.
Fixpoint events (n : nat) (w : perm) (evs : list pevent) : perm :=
  match evs with
  | [] => w
  | PProtect c :: r => events (S n) (event n w (PProtect c)) r
  | PStore x v :: r => events n w r
  end.
(** the events of an operation of GOTCHA are those it adds to the log *)
Definition new_events (st st' : state) : list pevent := skipn (length (p_log (s_p st))) (p_log (s_p st')).
Definition op_perm (st st' : state) (o : op) (w : perm) : perm :=
  match o with
  | OLoad libs _ => fold_left load_lib libs w
  | OUnload keep _ => fold_left unload_lib (filter (fun m => negb (keep m)) (p_maps (s_p st))) w
  | _ => events (length (p_prot (s_p st))) w (new_events st st')
  end.
Fixpoint run_perm (e : env) (st : state) (w : perm) (ops : list op) : perm :=
  match ops with
  | [] => w
  | o :: r => match step e st o with Ok (st', _) => run_perm e st' (op_perm st st' o w) r | Fault _ => w end
  end.
(** at the start the libraries [maps] have been loaded *)
Definition start_perm (maps : list lmap) : perm := fold_left load_lib maps (fun _ => False).

(** the pages the word at [x] lies on *)
Definition touches (x pg : Z) : Prop := page ps x <= pg <= page ps (x + 7).

(** the pages GOTCHA asks to be made writable: none without DT_PLTGOT *)
Definition patchable (infos : list phdr_info) (m : lmap) (pg : Z) : Prop :=
  dyn_get (ld_dyn ld m) DT_PLTGOT 0 <> 0 /\ got_page ps infos m (ld_dyn ld m) (ld_name ld m) pg.
End Perm.

(** Address spaces as a loader builds them: no library is loaded twice in the history, libraries loaded at the same
    time do not overlap, their GOT, RELRO segment and slots are their own, and the program headers of a library do
    not change while it is loaded. *)
Record layout (ps : Z) (e : env) (ld : loader) (maps : list lmap) (ops : list op) : Prop := {
  ly_apart : apart (seen maps ops);
  ly_once : NoDup (map key_of (seen maps ops));
  ly_disjoint : forall l1 l2 m m' pg, ops = l1 ++ l2 -> In m (maps_after maps l1) -> In m' (maps_after maps l1) ->
    ld_image ld m pg = true -> ld_image ld m' pg = true -> m = m';
  ly_desc : forall l1 l2 m, ops = l1 ++ l2 -> In m (maps_after maps l1) ->
    wf_dyn m (ld_dyn ld m) /\ lm_name m = Some (ld_name ld m) /\
    (dyn_get (ld_dyn ld m) DT_PLTGOT 0 <> 0 -> sane_got ps (e_phdrs e (maps_after maps l1)) m (ld_dyn ld m) (ld_name ld m)) /\
    (forall pg, patchable ps ld (e_phdrs e (maps_after maps l1)) m pg -> ld_image ld m pg = true);
  ly_phdrs : forall l1 l2 k1 k2 m, ops = l1 ++ l2 -> ops = k1 ++ k2 -> In m (maps_after maps l1) -> In m (maps_after maps k1) ->
    relro_range (ld_name ld m) (lm_addr m) (e_phdrs e (maps_after maps l1)) = relro_range (ld_name ld m) (lm_addr m) (e_phdrs e (maps_after maps k1));
  ly_slots : forall l1 l2 m n x pg, ops = l1 ++ l2 -> In m (maps_after maps l1) -> slot relocs m n x -> touches ps x pg -> ld_image ld m pg = true }.
