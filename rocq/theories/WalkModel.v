(** One thread goes through a hash table with foreach_hash_entry while another one adds and removes entries (the writer of RaceModel.v).
    The walk makes one read of a field per step. *)
From Verif Require Import Base HashModel HashMoments RaceModel.

(** where a call of foreach_hash_entry (src/hash.c:202-212) is: about to read the head; the key and then the data of entry [i] for the call
    of the callback; the link to the next entry; returned.  Simplifications: the callback returns 0 and changes nothing; the array
    pointer is read along with the entry. *)
Inductive fpc (K : Type) := FStart | FKey (i : nat) | FData (i : nat) (k : option K) | FNext (i : nat) | FDone.
Arguments FStart {K}. Arguments FKey {K}. Arguments FData {K}. Arguments FNext {K}. Arguments FDone {K}.
Definition at_link {K} (o : option nat) : fpc K := match o with None => FDone | Some i => FKey i end.

(** one read; [snd s] is what the callback has been given so far *)
Definition fstep {K D} (u : htable K D) (s : fpc K * list (option K * option D)) : outcome (fpc K * list (option K * option D)) :=
  let (pc, out) := s in
  match pc with
  | FStart => Ok (at_link (ht_head u), out)
  | FKey i => match nth_error (ht_table u) i with None => Fault OutOfBounds | Some e => Ok (FData i (he_key e), out) end
  | FData i k => match nth_error (ht_table u) i with None => Fault OutOfBounds | Some e => Ok (FNext i, out ++ [(k, he_data e)]) end
  | FNext i => match nth_error (ht_table u) i with None => Fault OutOfBounds | Some e => Ok (at_link (he_next e), out) end
  | FDone => Ok s
  end.

(** the scheduler chooses at every step: [true] the writer, [false] the walk *)
Fixpoint walk {K D} (sched : list bool) (w : wstate K D) (s : fpc K * list (option K * option D)) : outcome (wstate K D * (fpc K * list (option K * option D))) :=
  match sched with
  | [] => Ok (w, s)
  | true :: r => do w <- wstep w; walk r w s
  | false :: r => do s <- fstep (w_table w) s; walk r w s
  end.
