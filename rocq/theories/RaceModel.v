(** One thread looks a key up in a hash table while another one adds and removes entries.  The reader makes one read of a
    field per step, the writer one store; both see the same memory, stores in program order. *)
From Verif Require Import Base HashModel SpecHash HashMoments.

(** where a call of lookup_hashtable (src/hash.c:151-159, :128-149) is: about to read hash function and size; about to read the status, hash
    value and key of entry [i]; the status again (:143); the size for the next index; the data (:157); returned.  [h] is the hash value
    of the key, [s] the index started from.  Simplification: the array pointer and the comparison function are read along with the
    entry; they change only when the table grows. *)
Inductive rpc (D : Type) :=
| RStart | RStatus (h : Z) (i s : nat) | RHash (h : Z) (i s : nat) | RKey (h : Z) (i s : nat) | RAgain (h : Z) (i s : nat)
| RNext (h : Z) (i s : nat) | RData (i : nat) | RDone (r : option D).
Arguments RStart {D}. Arguments RStatus {D}. Arguments RHash {D}. Arguments RKey {D}. Arguments RAgain {D}. Arguments RNext {D}. Arguments RData {D}. Arguments RDone {D}.

(** one read of the lookup of [key], src/hash.c:128-159 *)
Definition rstep {K D} (key : K) (u : htable K D) (pc : rpc D) : outcome (rpc D) :=
  match pc with
  | RStart =>
    match ht_hashfunc u with
    | None => Fault NullDeref
    | Some hf => if ht_size u =? 0 then Fault DivByZero
                 else let i := Z.to_nat (u64 (hf key) mod ht_size u) in Ok (RStatus (hf key) i i)
    end
  | RStatus h i s =>
    match nth_error (ht_table u) i with
    | None => Fault OutOfBounds
    | Some e => Ok (match he_status e with INUSE => RHash h i s | _ => RAgain h i s end)
    end
  | RHash h i s =>
    match nth_error (ht_table u) i with
    | None => Fault OutOfBounds
    | Some e => Ok (if he_hash e =? h then RKey h i s else RAgain h i s)
    end
  | RKey h i s =>
    match nth_error (ht_table u) i with
    | None => Fault OutOfBounds
    | Some e => match ht_keycmp u, he_key e with
                | Some cmp, Some k => Ok (if cmp k key =? 0 then RData i else RAgain h i s)
                | _, _ => Fault NullDeref
                end
    end
  | RAgain h i s =>
    match nth_error (ht_table u) i with
    | None => Fault OutOfBounds
    | Some e => Ok (match he_status e with EMPTY => RDone None | _ => RNext h i s end)
    end
  | RNext h i s =>
    let i' := if Nat.eqb (S i) (Z.to_nat (ht_size u)) then O else S i in
    Ok (if Nat.eqb i' s then RDone None else RStatus h i' s)
  | RData i =>
    match nth_error (ht_table u) i with
    | None => Fault OutOfBounds
    | Some e => match he_data e with Some d => Ok (RDone (Some d)) | None => Fault NullDeref end
    end
  | RDone r => Ok (RDone r)
  end.

(** the writer: the table, the stores left of the call of addto_hashtable or removefrom_hashtable it is in, and what it will call then *)
Record wstate (K D : Type) := mkW { w_table : htable K D; w_pend : list (hstore K D); w_todo : list (hop K D) }.
Arguments mkW {K D}. Arguments w_table {K D}. Arguments w_pend {K D}. Arguments w_todo {K D}.
(** the stores of addto_hashtable (src/hash.c:161-179) and removefrom_hashtable (:181-200); lookup_hashtable has none *)
Definition op_stores {K D} (t : htable K D) (o : hop K D) : outcome (list (hstore K D)) :=
  match o with
  | HAdd k d => add_stores t k d
  | HRemove k => remove_stores t k
  | HLookup _ => Ok []
  end.
(** the next store, or the start of the next call up to its first store *)
Definition wstep {K D} (w : wstate K D) : outcome (wstate K D) :=
  match w_pend w with
  | s :: r => Ok (mkW (happly (w_table w) s) r (w_todo w))
  | [] => match w_todo w with
          | [] => Ok w
          | o :: r => do l <- op_stores (w_table w) o; Ok (mkW (w_table w) l r)
          end
  end.

(** the scheduler chooses at every step: [true] the writer, [false] the reader *)
Fixpoint race {K D} (key : K) (sched : list bool) (w : wstate K D) (pc : rpc D) : outcome (wstate K D * rpc D) :=
  match sched with
  | [] => Ok (w, pc)
  | true :: r => do w <- wstep w; race key r w pc
  | false :: r => do pc <- rstep key (w_table w) pc; race key r w pc
  end.
Fixpoint wsteps {K D} (n : nat) (w : wstate K D) : outcome (wstate K D) :=
  match n with
  | O => Ok w
  | S n => do w <- wstep w; wsteps n w
  end.
