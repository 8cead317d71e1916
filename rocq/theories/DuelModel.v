(** Two threads add an entry each to the same hash table.  Each makes one access to a field per step. *)
From Verif Require Import Base HashModel HashMoments.

(** where a call of addto_hashtable is (src/hash.c:161-179 and insert, :58-86): about to decide about growth and to compute the hash value [v]; to
    read the status of slot [i]; to store key, data, hash value and status; to read the head and to store it as link of the entry; to clear the
    other link; to read the head again and to store its link back; to store the head; to read and to store the count; returned.
    Simplifications: the decision about growth and a growth are one step; the two reads of the head in :81 are one. *)
Inductive ipc :=
| IStart | IProbe (v : Z) (i s : nat) | IKey (v : Z) (i : nat) | IData (v : Z) (i : nat) | IHash (v : Z) (i : nat) | IStatus (i : nat)
| IHead (i : nat) | INext (i : nat) (h : option nat) | IPrev (i : nat) | IBack (i : nat) | ILink (i h : nat) | IPub (i : nat) | ICount | IInc (n : Z) | IDone.

(** one step of addto_hashtable (src/hash.c:161-179) for key [k] and data [d] *)
Definition istep {K D} (k : K) (d : D) (x : htable K D * ipc) : outcome (htable K D * ipc) :=
  let (u, pc) := x in
  match pc with
  | IStart =>
    do ns <- grow_size (S (S (Z.to_nat (ht_count u)))) (ht_count u) (ht_size u);
    do u <- (if ns =? ht_size u then Ok u else grow_hashtable u ns);
    match ht_hashfunc u with
    | None => Fault NullDeref
    | Some hf => if ht_size u =? 0 then Fault DivByZero
                 else let i := Z.to_nat (u64 (hf k) mod ht_size u) in Ok (u, IProbe (hf k) i i)
    end
  | IProbe v i s =>
    match nth_error (ht_table u) i with
    | None => Fault OutOfBounds
    | Some e => match he_status e with
                | EMPTY | TOMBSTONE => Ok (u, IKey v i)
                | INUSE => let i' := if Nat.eqb (S i) (Z.to_nat (ht_size u)) then O else S i in
                           Ok (u, if Nat.eqb i' s then IHead i else IProbe v i' s)
                end
    end
  | IKey v i => Ok (happly u (SKey i (Some k)), IData v i)
  | IData v i => Ok (happly u (SData i (Some d)), IHash v i)
  | IHash v i => Ok (happly u (SHash i v), IStatus i)
  | IStatus i => Ok (happly u (SStatus i INUSE), IHead i)
  | IHead i => Ok (u, INext i (ht_head u))
  | INext i h => Ok (happly u (SNext i h), IPrev i)
  | IPrev i => Ok (happly u (SPrev i None), IBack i)
  | IBack i => Ok (u, match ht_head u with None => IPub i | Some h => ILink i h end)
  | ILink i h => Ok (happly u (SPrev h (Some i)), IPub i)
  | IPub i => Ok (happly u (SHead (Some i)), ICount)
  | ICount => Ok (u, IInc (ht_count u))
  | IInc n => Ok (happly u (SCount (n + 1)), IDone)
  | IDone => Ok x
  end.
(** one thread alone *)
Fixpoint isteps {K D} (n : nat) (k : K) (d : D) (x : htable K D * ipc) : outcome (htable K D * ipc) :=
  match n with
  | O => Ok x
  | S n => do x <- istep k d x; isteps n k d x
  end.
(** the scheduler chooses at every step: [true] the thread that adds [a], [false] the one that adds [b] *)
Fixpoint duel {K D} (a b : K * D) (sched : list bool) (u : htable K D) (p q : ipc) : outcome (htable K D * ipc * ipc) :=
  match sched with
  | [] => Ok (u, p, q)
  | true :: r => do ' (u, p) <- istep (fst a) (snd a) (u, p); duel a b r u p q
  | false :: r => do ' (u, q) <- istep (fst b) (snd b) (u, q); duel a b r u p q
  end.
