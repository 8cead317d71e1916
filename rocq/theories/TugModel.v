(** One thread removes an entry of a hash table while another one adds one.  Each makes one access to a field per step. *)
From Verif Require Import Base HashModel HashMoments DuelModel.

(** where a call of removefrom_hashtable is (src/hash.c:181-200): about to look the key up; to clear key, data, hash value and status of entry [i]; to read its
    next link, its prev link, and to store the latter in the next entry (:192); likewise for the prev entry (:193); to read the head, the next
    link, and to store it as head (:194); to read and to store the count (:198); returned.
    Simplifications: the lookup is one step; repeated reads of the same field in one condition and its statement are one read. *)
Inductive dpc :=
| DStart | DKey (i : nat) | DData (i : nat) | DHash (i : nat) | DStat (i : nat)
| DNext (i : nat) | DNextP (i nx : nat) | DBack (i nx : nat) (pv : option nat)
| DPrev (i : nat) | DPrevN (i pv : nat) | DForth (i pv : nat) (nx : option nat)
| DHead (i : nat) | DHeadN (i : nat) | DPub (nx : option nat) | DCount | DDec (n : Z) | DDone (found : bool).

(** a read of entry [i] *)
Definition at_entry {K D X} (u : htable K D) (i : nat) (f : hentry K D -> X) : outcome (htable K D * X) :=
  match nth_error (ht_table u) i with None => Fault OutOfBounds | Some e => Ok (u, f e) end.
(** one step of removefrom_hashtable (src/hash.c:181-200) for key [k] *)
Definition dstep {K D} (k : K) (x : htable K D * dpc) : outcome (htable K D * dpc) :=
  let (u, pc) := x in
  match pc with
  | DStart => do r <- lookup u k; Ok (u, match r with None => DDone false | Some i => DKey i end)
  | DKey i => Ok (happly u (SKey i None), DData i)
  | DData i => Ok (happly u (SData i None), DHash i)
  | DHash i => Ok (happly u (SHash i 0), DStat i)
  | DStat i => Ok (happly u (SStatus i TOMBSTONE), DNext i)
  | DNext i => at_entry u i (fun e => match he_next e with None => DPrev i | Some nx => DNextP i nx end)
  | DNextP i nx => at_entry u i (fun e => DBack i nx (he_prev e))
  | DBack i nx pv => Ok (happly u (SPrev nx pv), DPrev i)
  | DPrev i => at_entry u i (fun e => match he_prev e with None => DHead i | Some pv => DPrevN i pv end)
  | DPrevN i pv => at_entry u i (fun e => DForth i pv (he_next e))
  | DForth i pv nx => Ok (happly u (SNext pv nx), DHead i)
  | DHead i => Ok (u, match ht_head u with Some h => if Nat.eqb h i then DHeadN i else DCount | None => DCount end)
  | DHeadN i => at_entry u i (fun e => DPub (he_next e))
  | DPub nx => Ok (happly u (SHead nx), DCount)
  | DCount => Ok (u, DDec (ht_count u))
  | DDec n => Ok (happly u (SCount (n - 1)), DDone true)
  | DDone _ => Ok x
  end.
(** one thread alone *)
Fixpoint dsteps {K D} (n : nat) (k : K) (x : htable K D * dpc) : outcome (htable K D * dpc) :=
  match n with
  | O => Ok x
  | S n => do x <- dstep k x; dsteps n k x
  end.
(** the scheduler chooses at every step: [true] the thread that adds [a], [false] the one that removes [k] *)
Fixpoint mix {K D} (a : K * D) (k : K) (sched : list bool) (u : htable K D) (p : ipc) (q : dpc) : outcome (htable K D * ipc * dpc) :=
  match sched with
  | [] => Ok (u, p, q)
  | true :: r => do ' (u, p) <- istep (fst a) (snd a) (u, p); mix a k r u p q
  | false :: r => do ' (u, q) <- dstep k (u, q); mix a k r u p q
  end.
