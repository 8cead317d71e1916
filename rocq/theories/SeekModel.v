(** Removals whose search, too, makes one access to a field per step. *)
From Verif Require Import Base HashModel HashMoments RaceModel DuelModel TugModel.

(** where a call of removefrom_hashtable (src/hash.c:181-200) is: in lookup (:128-149), whose reads are those of RaceModel.v, or after it *)
Inductive spc (D : Type) := Seek (pc : rpc D) | Gone (q : dpc).
Arguments Seek {D}. Arguments Gone {D}.
(** one access.  lookup hands over the entry (:139-140) or fails (:148), whereupon the removal goes on or returns (:185-186) *)
Definition sstep {K D} (k : K) (x : htable K D * spc D) : outcome (htable K D * spc D) :=
  let (u, s) := x in
  match s with
  | Seek pc => do pc <- rstep k u pc; Ok (u, match pc with RDone _ => Gone (DDone false) | RData i => Gone (DKey i) | _ => Seek pc end)
  | Gone q => do ' (u, q) <- dstep k (u, q); Ok (u, Gone q)
  end.
(** one thread alone *)
Fixpoint ssteps {K D} (n : nat) (k : K) (x : htable K D * spc D) : outcome (htable K D * spc D) :=
  match n with
  | O => Ok x
  | S n => do x <- sstep k x; ssteps n k x
  end.
(** the scheduler chooses at every step: [true] the thread that adds [a] (addto_hashtable, src/hash.c:161-179), [false] the one that removes [k] *)
Fixpoint seek_mix {K D} (a : K * D) (k : K) (sched : list bool) (u : htable K D) (p : ipc) (q : spc D) : outcome (htable K D * ipc * spc D) :=
  match sched with
  | [] => Ok (u, p, q)
  | true :: r => do ' (u, p) <- istep (fst a) (snd a) (u, p); seek_mix a k r u p q
  | false :: r => do ' (u, q) <- sstep k (u, q); seek_mix a k r u p q
  end.
(** two removals, [true] of [k1], [false] of [k2] *)
Fixpoint seek_reap {K D} (k1 k2 : K) (sched : list bool) (u : htable K D) (p q : spc D) : outcome (htable K D * spc D * spc D) :=
  match sched with
  | [] => Ok (u, p, q)
  | true :: r => do ' (u, p) <- sstep k1 (u, p); seek_reap k1 k2 r u p q
  | false :: r => do ' (u, q) <- sstep k2 (u, q); seek_reap k1 k2 r u p q
  end.
