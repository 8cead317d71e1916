(** Two threads remove an entry each of the same hash table; each makes one access to a field per step. *)
From Verif Require Import Base HashModel HashMoments TugModel.

(** two calls of removefrom_hashtable (src/hash.c:181-200) on the same table, one for key [k1], one for [k2], as two dlopen calls make them through
    per_binding (src/gotcha_dl.c:107-135).  The scheduler chooses at every step: [true] the first thread, [false] the second.
    Simplification: as in TugModel.v, the search of a removal is one step. *)
Fixpoint reap {K D} (k1 k2 : K) (sched : list bool) (u : htable K D) (p q : dpc) : outcome (htable K D * dpc * dpc) :=
  match sched with
  | [] => Ok (u, p, q)
  | true :: r => do ' (u, p) <- dstep k1 (u, p); reap k1 k2 r u p q
  | false :: r => do ' (u, q) <- dstep k2 (u, q); reap k1 k2 r u p q
  end.

(** the loop of addto_hashtable that looks for the new size (src/hash.c:167) on 64-bit numbers as they are stored, wrapping around.  [grow_size] of
    HashModel.v is the same loop on numbers without wrapping. *)
Fixpoint grow64 (fuel : nat) (count newsize : Z) : outcome Z :=
  match fuel with
  | O => Fault NoTermination
  | S f => if newsize / 2 <? count then grow64 f count (u64 (newsize * 2)) else Ok newsize
  end.
