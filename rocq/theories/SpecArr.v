(** Vocabulary for the statements about arrays of bindings given by reference. *)
From Verif Require Import Base HashModel ElfModel ToolModel CoreModel SpecCore SpecRun ArrModel.

(** the history as if every element were copied when given *)
Fixpoint copied (arr : nat -> nat -> ubind) (ops : list bop) : list op :=
  match ops with
  | [] => []
  | BStore a i u :: l => copied (fun a' i' => if Nat.eqb a' a && Nat.eqb i' i then u else arr a' i') l
  | BWrap a off n tool :: l => OWrap (map (fun i => arr a i) (seq off n)) tool :: copied arr l
  | BOther o :: l => o :: copied arr l
  end.
(** no element is written once it has been given to gotcha_wrap *)
Definition arrays_kept (ops : list bop) : Prop :=
  forall l1 a i u l2, ops = l1 ++ BStore a i u :: l2 -> forall off n tool, In (BWrap a off n tool) l1 -> ~ (off <= i < off + n)%nat.
(** the outermost wrapper of [name] was given in element [i] of array [a] *)
Definition given_in (v : vstate) (name : cstr) (a i : nat) : Prop :=
  exists k, lookup_hashtable (b_fn (s_b (v_st v))) name = Ok (Some k) /\ nth_error (v_of v) k = Some (Some (a, i)).
(** every wrapped function has been found: GOTCHA keeps none to look up again at the next dlopen *)
Definition all_found (e : env) (maps : list lmap) (ops : list op) : Prop := forall n, wrapped e ops n -> exists x, found_first e (exports e) maps ops n x.
