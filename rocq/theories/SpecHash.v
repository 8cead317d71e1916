(** Independent specification of the hash table: operations, their observable results,
    and two abstract machines (an association list and a bag). *)
From Verif Require Import Base HashModel.
From Coq Require Import Permutation.

Inductive hop (K D : Type) := HAdd (k : K) (d : D) | HRemove (k : K) | HLookup (k : K).
Arguments HAdd {K D}. Arguments HRemove {K D}. Arguments HLookup {K D}.

(** what the caller sees: add returns 0; remove returns 0 or -1; lookup the data or -1 *)
Inductive hres (D : Type) := RAdded | RRemoved (present : bool) | RFound (d : option D).
Arguments RAdded {D}. Arguments RRemoved {D}. Arguments RFound {D}.

Definition op_key {K D} (o : hop K D) : K :=
  match o with HAdd k _ => k | HRemove k => k | HLookup k => k end.

(** running operations on the model of src/hash.c *)
Definition hstep {K D} (t : htable K D) (o : hop K D) : outcome (htable K D * hres D) :=
  match o with
  | HAdd k d => do t' <- addto_hashtable t k d; Ok (t', RAdded)
  | HRemove k => do ' (t', b) <- removefrom_hashtable t k; Ok (t', RRemoved b)
  | HLookup k => do r <- lookup_hashtable t k; Ok (t, RFound r)
  end.

Fixpoint hrun {K D} (t : htable K D) (ops : list (hop K D)) : outcome (htable K D * list (hres D)) :=
  match ops with
  | [] => Ok (t, [])
  | o :: r => do ' (t1, x) <- hstep t o; do ' (t2, xs) <- hrun t1 r; Ok (t2, x :: xs)
  end.

(** *** abstract map: association list, newest first *)
Definition aget {K D} (eqb : K -> K -> bool) (m : list (K * D)) (k : K) : option D :=
  option_map snd (find (fun p => eqb (fst p) k) m).
Definition arem {K D} (eqb : K -> K -> bool) (m : list (K * D)) (k : K) : list (K * D) :=
  filter (fun p => negb (eqb (fst p) k)) m.

Definition astep {K D} (eqb : K -> K -> bool) (m : list (K * D)) (o : hop K D) : list (K * D) * hres D :=
  match o with
  | HAdd k d => ((k, d) :: m, RAdded)
  | HRemove k => (arem eqb m k, RRemoved (match aget eqb m k with Some _ => true | None => false end))
  | HLookup k => (m, RFound (aget eqb m k))
  end.

Fixpoint arun {K D} (eqb : K -> K -> bool) (m : list (K * D)) (ops : list (hop K D)) : list (K * D) * list (hres D) :=
  match ops with
  | [] => (m, [])
  | o :: r => let (m1, x) := astep eqb m o in let (m2, xs) := arun eqb m1 r in (m2, x :: xs)
  end.

(** only keys that are not present are added *)
Fixpoint adds_absent {K D} (eqb : K -> K -> bool) (m : list (K * D)) (ops : list (hop K D)) : Prop :=
  match ops with
  | [] => True
  | o :: r => (match o with HAdd k _ => aget eqb m k = None | _ => True end)
              /\ adds_absent eqb (fst (astep eqb m o)) r
  end.

Fixpoint count_adds {K D} (ops : list (hop K D)) : Z :=
  match ops with
  | [] => 0
  | HAdd _ _ :: r => 1 + count_adds r
  | _ :: r => count_adds r
  end.

(** *** abstract bag (multiset of pairs), nondeterministic about which copy is meant *)
Inductive bag_step {K D} : list (K * D) -> hop K D -> hres D -> list (K * D) -> Prop :=
| bag_add b k d : bag_step b (HAdd k d) RAdded ((k, d) :: b)
| bag_rem_hit b k d b' : Permutation b ((k, d) :: b') -> bag_step b (HRemove k) (RRemoved true) b'
| bag_rem_miss b k : (forall d, ~ In (k, d) b) -> bag_step b (HRemove k) (RRemoved false) b
| bag_look_hit b k d : In (k, d) b -> bag_step b (HLookup k) (RFound (Some d)) b
| bag_look_miss b k : (forall d, ~ In (k, d) b) -> bag_step b (HLookup k) (RFound None) b.

Inductive bag_run {K D} : list (K * D) -> list (hop K D) -> list (hres D) -> list (K * D) -> Prop :=
| bag_nil b : bag_run b [] [] b
| bag_cons b o r x xs b1 b2 : bag_step b o x b1 -> bag_run b1 r xs b2 -> bag_run b (o :: r) (x :: xs) b2.

(** A comparison function is adequate for a hash function on a set of keys if, among keys with
    the same hash value, it returns 0 exactly for equal keys.  (strcmp is adequate for any hash
    function; link_map_cmp only if the hash function is injective.) *)
Definition cmp_ok {K} (P : K -> Prop) (hf : K -> Z) (cmp : K -> K -> Z) : Prop :=
  forall a b, P a -> P b -> hf a = hf b -> (cmp a b = 0 <-> a = b).

Definition eqb_ok {K} (eqb : K -> K -> bool) : Prop := forall a b, eqb a b = true <-> a = b.

(** *** enumeration *)
(** calling [f] on each pair in turn, stopping at the first nonzero result *)
Fixpoint iter_pairs {K D S} (f : K -> D -> S -> S * Z) (c : list (K * D)) (s : S) : S * Z :=
  match c with
  | [] => (s, 0)
  | (k, d) :: r => let (s', z) := f k d s in if z =? 0 then iter_pairs f r s' else (s', z)
  end.

(** a callback that does not touch the table *)
Definition pure_cb {K D S} (f : K -> D -> S -> S * Z) (k : option K) (d : option D) (s : S) : outcome (S * Z) :=
  match k, d with
  | Some k, Some d => Ok (f k d s)
  | _, _ => Fault NullDeref
  end.

(** a callback that records what it is given and removes the selected entries from the table *)
Definition removing_cb {K D} (sel : K -> D -> bool) (k : option K) (d : option D)
    (s : htable K D * list (K * D)) : outcome ((htable K D * list (K * D)) * Z) :=
  match k, d with
  | Some k, Some d =>
    if sel k d
    then do ' (t', _) <- removefrom_hashtable (fst s) k; Ok ((t', snd s ++ [(k, d)]), 0)
    else Ok ((fst s, snd s ++ [(k, d)]), 0)
  | _, _ => Fault NullDeref
  end.

(** number of slots in use *)
Definition inuse_slots {K D} (t : htable K D) : Z :=
  Z.of_nat (length (filter (fun e => match he_status e with INUSE => true | _ => false end) (ht_table t))).
