(** Vocabulary for how many slots of a hash table an operation looks at. *)
From Verif Require Import Base HashModel SpecHash ToolModel CoreModel.

(** lookup (src/hash.c:128-149) stopped after looking at [m] slots: [Fault NoTermination] if it is not over by then *)
Definition lookup_within {K D} (m : nat) (t : htable K D) (key : K) : outcome (option nat) :=
  match ht_hashfunc t, ht_keycmp t with
  | Some hf, Some cmp =>
    if ht_size t =? 0 then Fault DivByZero
    else let index := Z.to_nat (u64 (hf key) mod ht_size t) in
         lookup_loop m (ht_table t) (Z.to_nat (ht_size t)) cmp key (hf key) index index
  | _, _ => Fault NullDeref
  end.
(** the search of insert (src/hash.c:60-75) for a slot for hash value [v], stopped after [m] slots *)
Definition probe_within {K D} (m : nat) (t : htable K D) (v : Z) : outcome (bool * nat) :=
  let index := Z.to_nat (u64 v mod ht_size t) in
  insert_probe m (ht_table t) (Z.to_nat (ht_size t)) index index.

(** slots that have been used since the table was created or grown last *)
Definition used_slots {K D} (t : htable K D) : Z :=
  Z.of_nat (length (filter (fun e => match he_status e with EMPTY => false | _ => true end) (ht_table t))).
(** every slot has been used *)
Definition worn {K D} (t : htable K D) : Prop := forall e, In e (ht_table t) -> he_status e <> EMPTY.

Definition no_removals {K D} (ops : list (hop K D)) : Prop := forall k, ~ In (HRemove k) ops.

(** additions and removals of the keys 0, 1, ... m-1, one at a time *)
Definition churn (m : nat) : list (hop Z Z) := flat_map (fun k => [HAdd (Z.of_nat k) 0; HRemove (Z.of_nat k)]) (seq 0 m).

(** the functions a history names, and those GOTCHA wraps itself *)
Definition named (ops : list op) : list cstr :=
  flat_map (fun o => match o with OWrap ubs _ => map ub_name ubs | _ => [] end) ops.
Definition own_names : list cstr := [n_dlopen; n_dlsym; n_main; n_libc_start_main].
