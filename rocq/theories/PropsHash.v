(** Properties C28-C32: src/hash.c. *)
From Verif Require Import Base HashModel SpecHash HashTrace.
From Coq Require Import Permutation.

(** C28: for any hash function, any adequate comparison, any initial size and any sequence of
    operations adding only absent keys, the results are exactly those of an association list. *)
Theorem C28_hash_table_is_a_map : forall K D (P : K -> Prop) hf cmp eqb ps n (ops : list (hop K D)),
  48 <= ps -> 0 < n -> cmp_ok P hf cmp -> eqb_ok eqb ->
  Forall (fun o => P (op_key o)) ops -> adds_absent eqb [] ops ->
  exists t0 t', create_hashtable ps n hf cmp = Ok t0 /\
    hrun t0 ops = Ok (t', snd (arun eqb [] ops)).
Proof. exact hash_map_thm. Qed.
Print Assumptions C28_hash_table_is_a_map.

(** C29: with duplicate adds the table is a bag; the final enumeration is that bag. *)
Theorem C29_hash_table_is_a_bag : forall K D (P : K -> Prop) hf cmp ps n (ops : list (hop K D)),
  48 <= ps -> 0 < n -> cmp_ok P hf cmp -> Forall (fun o => P (op_key o)) ops ->
  exists t0 t' rs bag c, create_hashtable ps n hf cmp = Ok t0 /\
    hrun t0 ops = Ok (t', rs) /\ bag_run [] ops rs bag /\
    foreach_hash_entry (fun _ => t') (pure_cb (fun k d acc => (acc ++ [(k, d)], 0))) [] = Ok (c, 0) /\
    Permutation c bag.
Proof. exact hash_bag_thm. Qed.
Print Assumptions C29_hash_table_is_a_bag.

(** C30: any callback is called once per entry, stopping at the first nonzero result; the order is
    newest first as long as the number of adds cannot have triggered growth. *)
Theorem C30_enumeration_exactly_once : forall K D (P : K -> Prop) hf cmp ps n (ops : list (hop K D)),
  48 <= ps -> 0 < n -> cmp_ok P hf cmp -> Forall (fun o => P (op_key o)) ops ->
  exists t0 t' rs bag c, create_hashtable ps n hf cmp = Ok t0 /\
    hrun t0 ops = Ok (t', rs) /\ bag_run [] ops rs bag /\ Permutation c bag /\
    (forall (S : Type) (f : K -> D -> S -> S * Z) s,
       foreach_hash_entry (fun _ => t') (pure_cb f) s = Ok (iter_pairs f c s)) /\
    (forall eqb, eqb_ok eqb -> adds_absent eqb [] ops -> count_adds ops <= n / 2 + 1 ->
       c = fst (arun eqb [] ops)).
Proof. exact hash_enum_thm. Qed.
Print Assumptions C30_enumeration_exactly_once.

(** C31: removing any selection of entries while enumerating: every entry present at the start is
    visited once, afterwards the table enumerates to, and behaves as, exactly the others. *)
Theorem C31_delete_while_enumerating : forall K D (P : K -> Prop) hf cmp eqb ps n (ops : list (hop K D)) (sel : K -> D -> bool),
  48 <= ps -> 0 < n -> cmp_ok P hf cmp -> eqb_ok eqb ->
  Forall (fun o => P (op_key o)) ops -> adds_absent eqb [] ops ->
  exists t0 t1 t2 rs c, create_hashtable ps n hf cmp = Ok t0 /\ hrun t0 ops = Ok (t1, rs) /\
    Permutation c (fst (arun eqb [] ops)) /\
    foreach_hash_entry fst (removing_cb sel) (t1, []) = Ok ((t2, c), 0) /\
    let left := filter (fun p => negb (sel (fst p) (snd p))) c in
    (forall (S : Type) (f : K -> D -> S -> S * Z) s,
       foreach_hash_entry (fun _ => t2) (pure_cb f) s = Ok (iter_pairs f left s)) /\
    (forall ops2, Forall (fun o => P (op_key o)) ops2 -> adds_absent eqb left ops2 ->
       exists t3, hrun t2 ops2 = Ok (t3, snd (arun eqb left ops2))).
Proof. exact hash_del_thm. Qed.
Print Assumptions C31_delete_while_enumerating.

(** C32: lookups terminate within one pass; every add happens with at most half of the slots in use,
    growth doubles the size and happens exactly when more than half were in use. *)
Theorem C32_never_full : forall K D (P : K -> Prop) hf cmp ps n (ops : list (hop K D)),
  48 <= ps -> 0 < n -> cmp_ok P hf cmp -> Forall (fun o => P (op_key o)) ops ->
  exists t0 t rs, create_hashtable ps n hf cmp = Ok t0 /\ n <= ht_size t0 /\ hrun t0 ops = Ok (t, rs) /\
    Z.of_nat (length (ht_table t)) = ht_size t /\
    (forall k d, P k ->
       (exists r, lookup t k = Ok r) /\
       exists t2, addto_hashtable t k d = Ok t2 /\
         ht_size t2 = (if ht_size t / 2 <? inuse_slots t then 2 * ht_size t else ht_size t) /\
         inuse_slots t <= ht_size t2 / 2 /\
         inuse_slots t2 = inuse_slots t + 1).
Proof. exact hash_load_thm. Qed.
Print Assumptions C32_never_full.

(** The hypotheses are met: strcmp is adequate for every hash function on all strings ... *)
Theorem C28_strcmp_adequate : forall P hf, cmp_ok P hf libc_strcmp.
Proof. exact strcmp_cmp_ok. Qed.
Print Assumptions C28_strcmp_adequate.

(** ... and a trace with colliding hashes, growth, tombstones and re-adding satisfies the rest. *)
Definition demo_ops : list (hop Z Z) :=
  [HAdd 1 10; HAdd 2 20; HAdd 3 30; HAdd 4 40; HRemove 2; HLookup 3; HAdd 2 21; HLookup 2;
   HRemove 9; HAdd 5 50; HAdd 6 60; HLookup 1].
Example demo_hyps : 48 <= 48 /\ 0 < 1 /\ cmp_ok (fun _ => True) (fun _ : Z => 7) Z.sub /\ eqb_ok Z.eqb /\
  Forall (fun o => (fun _ => True) (op_key o)) demo_ops /\ adds_absent Z.eqb [] demo_ops.
Proof.
  repeat split; try lia; try (intros; lia); try (apply Z.eqb_eq); repeat constructor.
Qed.
Example demo_run :
  (do t0 <- create_hashtable 48 1 (fun _ : Z => 7) Z.sub;
   do ' (t', rs) <- hrun t0 demo_ops; Ok (rs, ht_size t')) =
  Ok ([RAdded; RAdded; RAdded; RAdded; RRemoved true; RFound (Some 30); RAdded;
    RFound (Some 21); RRemoved false; RAdded; RAdded; RFound (Some 10)], 16).
Proof. vm_compute. reflexivity. Qed.

(** The restriction to a nonzero size is necessary: a table created with size 0 divides by zero. *)
Theorem C32_zero_size_refuted : exists t0 : htable Z Z,
  create_hashtable 4096 0 (fun k => k) Z.sub = Ok t0 /\ lookup t0 1 = Fault DivByZero.
Proof. exists (mkHT 0 0 (Some (fun k => k)) (Some Z.sub) [] None). split; reflexivity. Qed.
Print Assumptions C32_zero_size_refuted.

(** A destroyed table has nothing to enumerate, and a lookup, an insertion or a removal calls a null pointer instead of doing anything else. *)
Theorem C28_destroyed : forall K D (t : htable K D) k d,
  lookup_hashtable (destroy_hashtable t) k = Fault NullDeref /\ removefrom_hashtable (destroy_hashtable t) k = Fault NullDeref /\
  addto_hashtable (destroy_hashtable t) k d = Fault NullDeref /\
  forall S (get : S -> htable K D) cb s, get s = destroy_hashtable t -> foreach_hash_entry get cb s = Ok (s, 0).
Proof.
  intros K D t k d. split; [reflexivity|]. split; [reflexivity|]. split; [reflexivity|]. intros S get cb s H. unfold foreach_hash_entry. rewrite H. reflexivity.
Qed.
Print Assumptions C28_destroyed.
