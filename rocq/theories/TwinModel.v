(** Two threads add an entry each to a hash table that grows. *)
From Verif Require Import Base HashModel HashMoments DuelModel.

(** where a call of addto_hashtable is (src/hash.c:161-179): about to read count and size and to decide about growth (:167-169); to grow the table to the size
    [ns] (:170); to compute the hash value and the first slot (:174-175 and :60-61); in the rest of insert (:63-83), see DuelModel.
    Simplifications: the reads of :167-169 are one step, and so is the growth (:88-115). *)
Inductive gpc := GSize | GGrow (ns : Z) | GHash | GAdd (p : ipc).
Definition gstep {K D} (k : K) (d : D) (x : htable K D * gpc) : outcome (htable K D * gpc) :=
  let (u, pc) := x in
  match pc with
  | GSize => do ns <- grow_size (S (S (Z.to_nat (ht_count u)))) (ht_count u) (ht_size u); Ok (u, if ns =? ht_size u then GHash else GGrow ns)
  | GGrow ns => do u <- grow_hashtable u ns; Ok (u, GHash)
  | GHash => match ht_hashfunc u with
             | None => Fault NullDeref
             | Some hf => if ht_size u =? 0 then Fault DivByZero
                          else let i := Z.to_nat (u64 (hf k) mod ht_size u) in Ok (u, GAdd (IProbe (hf k) i i))
             end
  | GAdd p => do ' (u, p) <- istep k d (u, p); Ok (u, GAdd p)
  end.
(** the addition has a pointer to an entry and will still use it (src/hash.c:66-82); while it searches it computes the pointer anew in every round (:64) *)
Definition keeps (p : gpc) : bool := match p with GAdd (IKey _ _ | IData _ _ | IHash _ _ | IStatus _ | IHead _ | INext _ _ | IPrev _ | IBack _ | ILink _ _ | IPub _) => true | _ => false end.
(** one step of an addition whose entry lies in the array [old], which a growth in the other thread has given back (destroy_hashtable, src/hash.c:112), while the
    table is [now]: the fields of the entry are in [old] (:66-69, :79-80), the head (:79, :81) and the count (:83) in [now].  Simplification: the run stops when a
    pointer into the array given back would be stored in the table (:81-82). *)
Definition stray {K D} (k : K) (d : D) (now old : htable K D) (p : ipc) : outcome (htable K D * htable K D * ipc) :=
  match p with
  | IKey _ _ | IData _ _ | IHash _ _ | IStatus _ | INext _ _ | IPrev _ => do ' (old, p) <- istep k d (old, p); Ok (now, old, p)
  | ILink _ _ | IPub _ => Fault NullDeref
  | _ => do ' (now, p) <- istep k d (now, p); Ok (now, old, p)
  end.
(** a thread: where it is, and the array its entry lies in if that is not the one of the table *)
Definition tstep {K D} (a : K * D) (u : htable K D) (x : gpc * option (htable K D)) : outcome (htable K D * (gpc * option (htable K D))) :=
  match x with
  | (GAdd p, Some old) => do ' (u, old, p) <- stray (fst a) (snd a) u old p; Ok (u, (GAdd p, Some old))
  | (p, o) => do ' (u, p) <- gstep (fst a) (snd a) (u, p); Ok (u, (p, o))
  end.
(** what a step of the other thread, at [q] on the table [u], does to a thread: a growth gives the array of [u] back (src/hash.c:112-113) *)
Definition lose {K D} (q : gpc) (u : htable K D) (x : gpc * option (htable K D)) : gpc * option (htable K D) :=
  match q, snd x with
  | GGrow _, None => if keeps (fst x) then (fst x, Some u) else x
  | _, _ => x
  end.
(** the scheduler chooses at every step: [true] the thread that adds [a], [false] the one that adds [b].  Simplification: a growth that meets an entry with no
    key yet stops the run (HashModel.grow_loop), where the code copies it. *)
Fixpoint twin {K D} (a b : K * D) (sched : list bool) (u : htable K D) (x y : gpc * option (htable K D)) : outcome (htable K D * (gpc * option (htable K D)) * (gpc * option (htable K D))) :=
  match sched with
  | [] => Ok (u, x, y)
  | true :: r => do ' (u', x') <- tstep a u x; twin a b r u' x' (lose (fst x) u y)
  | false :: r => do ' (u', y') <- tstep b u y; twin a b r u' (lose (fst y) u x) y'
  end.
