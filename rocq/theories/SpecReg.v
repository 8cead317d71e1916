(** Specification vocabulary for the bookkeeping lists: the libraries and the tables of bindings. *)
From Verif Require Import Base HashModel ElfModel SpecElf ToolModel CoreModel SpecCore SpecRun LibListModel.

(** walking the list of libraries from [p] visits [l]; each record's prev points back *)
Inductive dll (h : list library) : option nat -> option nat -> list nat -> Prop :=
| dll_nil back : dll h back None []
| dll_cons back i x l : nth_error h i = Some x -> lb_prev x = back -> dll h (Some i) (lb_next x) l -> dll h back (Some i) (i :: l).

(** the object allocated before object [i] *)
Definition pred_of (i : nat) : option nat := match i with O => None | S k => Some k end.

(** walking the tables of bindings along [next] from [p] visits [l] *)
Inductive walk (tabs : list btable) (next : btable -> option nat) : option nat -> list nat -> Prop :=
| walk_nil : walk tabs next None []
| walk_cons i b l : nth_error tabs i = Some b -> walk tabs next (next b) l -> walk tabs next (Some i) (i :: l).

(** table [i] is the one of the tool named [n] with the bindings [ubs]: its internal bindings stand for them in
    order and point back to the table *)
Definition table_is (b : bstate) (i : nat) (n : cstr) (ubs : list ubind) : Prop :=
  exists bt t, nth_error (b_tables b) i = Some bt /\ nth_error (ts_heap (b_tools b)) (bt_tool bt) = Some t /\ t_name t = n /\
    bt_size bt = Z.of_nat (length ubs) /\
    forall k u, nth_error ubs k = Some u -> exists ib, nth_error (b_ib b) (bt_start bt + k) = Some ib /\ ib_user ib = u /\ ib_table ib = i.

(** the arrays of bindings passed to gotcha_wrap, with the tool's name, for tools other than GOTCHA's own *)
Definition wrapped_arrays (ops : list op) : list (cstr * list ubind) :=
  filter (fun x => negb (cstr_eqb (fst x) n_gotcha))
    (flat_map (fun o => match o with OWrap ubs (Some t) => [(t, ubs)] | OWrap ubs None => [(n_unspecified, ubs)] | _ => [] end) ops).

(** the libraries recorded, newest first, after tracking and removing libraries *)
Definition same_lib (a b : lkey) : bool := (fst a =? fst b) && cstr_eqb (snd a) (snd b).
Definition lib_track_spec (ts : list lkey) (o : libop) : list lkey :=
  match o with
  | LTrack m => if existsb (same_lib (key_of m)) ts then ts else key_of m :: ts
  | LRemove m => filter (fun k => negb (same_lib k (key_of m))) ts
  end.
Definition lib_tracked (ops : list libop) : list lkey := fold_left lib_track_spec ops [].

(** the description of the library's GOT and of its program headers is within the address space *)
Definition sane_got (ps : Z) (infos : list phdr_info) (m : lmap) (es : list (Z * Z)) (nm : cstr) : Prop :=
  wf_dyn m es /\ lm_name m = Some nm /\ 0 < dyn_get es DT_PLTGOT 0 /\ dyn_get es DT_PLTGOT 0 + Z.max (dyn_get es DT_RELSZ 0) ps + 2 * ps < two64 /\
  (forall i, In i infos -> 0 <= lm_addr m /\ forall p, In p (dlpi_phdr i) ->
      0 <= p_vaddr p /\ 0 <= p_memsz p /\ ps <= lm_addr m + p_vaddr p + p_memsz p < two64 - 2 * ps).
(** the pages to be made writable: those from DT_PLTGOT on, and the RELRO segment *)
Definition got_page (ps : Z) (infos : list phdr_info) (m : lmap) (es : list (Z * Z)) (nm : cstr) (pg : Z) : Prop :=
  (page ps (dyn_get es DT_PLTGOT 0) <= pg < page ps (dyn_get es DT_PLTGOT 0) + Z.max 1 (pages_for ps (dyn_get es DT_RELSZ 0))) \/
  (exists s e, relro_range nm (lm_addr m) infos = Some (s, e) /\ page ps s <= pg < pages_for ps e).
