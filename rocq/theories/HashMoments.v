(** The stores of src/hash.c one by one: what a signal handler that interrupts addto_hashtable or removefrom_hashtable, or
    another thread, finds in the table.  Stores are seen in program order, each at once; the copy *table = newtable is made
    field by field in the order of the structure (src/hash.h:30-37).  What free does to the old array is not modelled. *)
From Verif Require Import Base HashModel ToolModel CoreModel.

(** a store to a field of an entry (by index) or of the table; [STable []] sets the array pointer to NULL *)
Inductive hstore (K D : Type) :=
| SKey (i : nat) (v : option K) | SData (i : nat) (v : option D) | SHash (i : nat) (v : Z) | SStatus (i : nat) (v : hstatus)
| SNext (i : nat) (v : option nat) | SPrev (i : nat) (v : option nat)
| SHead (v : option nat) | SCount (v : Z) | SSize (v : Z) | SHashfunc (v : option (K -> Z)) | SKeycmp (v : option (K -> K -> Z)) | STable (v : list (hentry K D)).
Arguments SKey {K D}. Arguments SData {K D}. Arguments SHash {K D}. Arguments SStatus {K D}. Arguments SNext {K D}. Arguments SPrev {K D}.
Arguments SHead {K D}. Arguments SCount {K D}. Arguments SSize {K D}. Arguments SHashfunc {K D}. Arguments SKeycmp {K D}. Arguments STable {K D}.

Definition set_key {K D} (v : option K) (e : hentry K D) := mkHE v (he_data e) (he_hash e) (he_next e) (he_prev e) (he_status e).
Definition set_data {K D} (v : option D) (e : hentry K D) := mkHE (he_key e) v (he_hash e) (he_next e) (he_prev e) (he_status e).
Definition set_hash {K D} (v : Z) (e : hentry K D) := mkHE (he_key e) (he_data e) v (he_next e) (he_prev e) (he_status e).
Definition set_status {K D} (v : hstatus) (e : hentry K D) := mkHE (he_key e) (he_data e) (he_hash e) (he_next e) (he_prev e) v.
Definition set_arr {K D} (a : list (hentry K D)) (t : htable K D) := mkHT (ht_size t) (ht_count t) (ht_hashfunc t) (ht_keycmp t) a (ht_head t).

Definition happly {K D} (t : htable K D) (s : hstore K D) : htable K D :=
  match s with
  | SKey i v => set_arr (upd (ht_table t) i (set_key v)) t
  | SData i v => set_arr (upd (ht_table t) i (set_data v)) t
  | SHash i v => set_arr (upd (ht_table t) i (set_hash v)) t
  | SStatus i v => set_arr (upd (ht_table t) i (set_status v)) t
  | SNext i v => set_arr (upd (ht_table t) i (set_next v)) t
  | SPrev i v => set_arr (upd (ht_table t) i (set_prev v)) t
  | SHead v => mkHT (ht_size t) (ht_count t) (ht_hashfunc t) (ht_keycmp t) (ht_table t) v
  | SCount v => mkHT (ht_size t) v (ht_hashfunc t) (ht_keycmp t) (ht_table t) (ht_head t)
  | SSize v => mkHT v (ht_count t) (ht_hashfunc t) (ht_keycmp t) (ht_table t) (ht_head t)
  | SHashfunc v => mkHT (ht_size t) (ht_count t) v (ht_keycmp t) (ht_table t) (ht_head t)
  | SKeycmp v => mkHT (ht_size t) (ht_count t) (ht_hashfunc t) v (ht_table t) (ht_head t)
  | STable v => set_arr v t
  end.
Definition happlys {K D} (l : list (hstore K D)) (t : htable K D) : htable K D := fold_left happly l t.

(** insert, src/hash.c:58-86 *)
Definition insert_stores {K D} (t : htable K D) (key : K) (data : D) (value : Z) : outcome (list (hstore K D)) :=
  if ht_size t =? 0 then Fault DivByZero
  else
    let index := Z.to_nat (u64 value mod ht_size t) in
    let n := Z.to_nat (ht_size t) in
    do ' (free, entry) <- insert_probe n (ht_table t) n index index;
    Ok ((if (free : bool) then [SKey entry (Some key); SData entry (Some data); SHash entry value; SStatus entry INUSE] else [])
        ++ [SNext entry (ht_head t); SPrev entry None]
        ++ (match ht_head t with Some h => [SPrev h (Some entry)] | None => [] end)
        ++ [SHead (Some entry); SCount (ht_count t + 1)]).

(** grow_hashtable, src/hash.c:88-115: newtable is a local variable until destroy_hashtable (:117-126) and the copy (:113) *)
Definition grow_stores {K D} (t' : htable K D) : list (hstore K D) :=
  [SSize 0; SCount 0; SHashfunc None; SKeycmp None; STable []; SHead None]
  ++ [SSize (ht_size t'); SCount (ht_count t'); SHashfunc (ht_hashfunc t'); SKeycmp (ht_keycmp t'); STable (ht_table t'); SHead (ht_head t')].

(** addto_hashtable, src/hash.c:161-179 *)
Definition add_stores {K D} (t : htable K D) (key : K) (data : D) : outcome (list (hstore K D)) :=
  do newsize <- grow_size (S (S (Z.to_nat (ht_count t)))) (ht_count t) (ht_size t);
  do t' <- (if newsize =? ht_size t then Ok t else grow_hashtable t newsize);
  match ht_hashfunc t' with
  | None => Fault NullDeref
  | Some hf =>
    do l <- insert_stores t' key data (hf key);
    Ok ((if newsize =? ht_size t then [] else grow_stores t') ++ l)
  end.

(** removefrom_hashtable, src/hash.c:181-200 *)
Definition remove_stores {K D} (t : htable K D) (key : K) : outcome (list (hstore K D)) :=
  do r <- lookup t key;
  match r with
  | None => Ok []
  | Some i =>
    match nth_error (ht_table t) i with
    | None => Fault OutOfBounds
    | Some entry =>
      Ok ([SKey i None; SData i None; SHash i 0; SStatus i TOMBSTONE]
          ++ (match he_next entry with Some nx => [SPrev nx (he_prev entry)] | None => [] end)
          ++ (match he_prev entry with Some pv => [SNext pv (he_next entry)] | None => [] end)
          ++ (match ht_head t with Some h => if Nat.eqb h i then [SHead (he_next entry)] else [] | None => [] end)
          ++ [SCount (ht_count t - 1)])
    end
  end.

(** what insert_at_head (src/gotcha.c:121-130) stores to the table of functions *)
Definition head_stores (t : htable cstr nat) (name : cstr) (b : nat) : outcome (list (hstore cstr nat)) :=
  do l1 <- remove_stores t name;
  do ' (t', _) <- removefrom_hashtable t name;
  do l2 <- add_stores t' name b;
  Ok (l1 ++ l2).
