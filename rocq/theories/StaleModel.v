(** An addition for which the table grows, and a removal, in two threads. *)
From Verif Require Import Base HashModel HashMoments DuelModel TugModel.

(** the removal has, or is about to use, a pointer to an entry (src/hash.c:188-194) *)
Definition held (q : dpc) : bool := match q with DStart | DCount | DDec _ | DDone _ => false | _ => true end.
(** one access of a removal whose entry lies in the array [old], which grow_hashtable has given back (destroy_hashtable, src/hash.c:112), while the table is
    [now].  It goes on in the array given back.  table->head (:194) points into the new array, obtained before the old one was given back (:97-98, :112), so it is
    another entry.  Simplification: the run stops when it would make table->head point into the array given back. *)
Definition stale_step {K D} (k : K) (now old : htable K D) (q : dpc) : outcome (htable K D * htable K D * dpc) :=
  match q with
  | DHead _ => Ok (now, old, DCount)
  | DPub (Some _) => Fault NullDeref
  | DPub None | DStart | DCount | DDec _ | DDone _ => do ' (now, q) <- dstep k (now, q); Ok (now, old, q)
  | _ => do ' (old, q) <- dstep k (old, q); Ok (now, old, q)
  end.
(** the scheduler chooses at every step: [true] the thread that adds [a], [false] the one that removes [k].  Simplifications: the growth (src/hash.c:88-115) and the
    search of the removal (:128-149) are one step each; a growth that meets an entry with its key cleared stops the run (HashModel.grow_loop), where the code
    copies it. *)
Fixpoint outgrow {K D} (a : K * D) (k : K) (sched : list bool) (now old : htable K D) (stale : bool) (p : ipc) (q : dpc)
  : outcome (htable K D * htable K D * bool * ipc * dpc) :=
  match sched with
  | [] => Ok (now, old, stale, p, q)
  | true :: r => do ' (u, p) <- istep (fst a) (snd a) (now, p);
                 if ht_size u =? ht_size now then outgrow a k r u old stale p q else outgrow a k r u now (held q) p q
  | false :: r => if stale then do ' (now, old, q) <- stale_step k now old q; outgrow a k r now old stale p q
                  else do ' (now, q) <- dstep k (now, q); outgrow a k r now old stale p q
  end.
