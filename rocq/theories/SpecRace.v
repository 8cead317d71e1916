(** Vocabulary for lookups that run alongside additions and removals. *)
From Verif Require Import Base HashModel SpecHash RaceModel.

(** how many of the operations [todo] the writer has begun, and how many it has finished *)
Definition begun {K D} (todo : list (hop K D)) (w : wstate K D) : nat := (length todo - length (w_todo w))%nat.
Definition finished {K D} (todo : list (hop K D)) (w : wstate K D) : nat :=
  match w_pend w with [] => begun todo w | _ => (begun todo w - 1)%nat end.
(** the entries after the first [i] operations *)
Definition after {K D} (eqb : K -> K -> bool) (i : nat) (todo : list (hop K D)) (m : list (K * D)) : list (K * D) := fst (arun eqb m (firstn i todo)).
(** no addition makes a table of the given size grow *)
Definition fits {K D} (eqb : K -> K -> bool) (size : Z) (todo : list (hop K D)) (m : list (K * D)) : Prop :=
  forall i k d, nth_error todo i = Some (HAdd k d) -> Z.of_nat (length (after eqb i todo m)) <= size / 2.
(** the keys removed have another hash value than [k], and that of [k] is not 0 if there are any *)
Definition away {K D} (hf : K -> Z) (todo : list (hop K D)) (k : K) : Prop := forall r, In (HRemove r) todo -> hf r <> hf k /\ hf k <> 0.
(** steps of the reader in a schedule *)
Definition reads (sched : list bool) : nat := length (filter negb sched).
