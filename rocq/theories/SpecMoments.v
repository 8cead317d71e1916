(** Vocabulary for the statements about single stores to a hash table. *)
From Verif Require Import Base HashModel SpecHash HashMoments CoreModel.

(** [u] is the table after some of the stores [l], in order, to [t] *)
Definition moment {K D} (l : list (hstore K D)) (t u : htable K D) : Prop := exists l1 l2, l = l1 ++ l2 /\ u = fold_left happly l1 t.
(** lookups of keys in [P] answer as in the map [m] *)
Definition answers {K D} (P : K -> Prop) (eqb : K -> K -> bool) (u : htable K D) (m : list (K * D)) : Prop :=
  forall k, P k -> lookup_hashtable u k = Ok (aget eqb m k).
(** every lookup crashes *)
Definition unusable {K D} (u : htable K D) : Prop := forall k, exists f, lookup_hashtable u k = Fault f.
(** the state of the process with [u] as the table of functions *)
Definition with_functions (u : htable cstr nat) (st : state) : state := set_b (set_fn u (s_b st)) st.
