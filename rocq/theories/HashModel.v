(** Model of src/hash.c (open-addressing hash table threaded by a doubly linked list). *)
From Verif Require Import Base.

(** src/hash.c:20-22 *)
Inductive hstatus := EMPTY | TOMBSTONE | INUSE.

(** struct hash_entry_t, src/hash.c:24-31.  [next]/[prev] are indices into the
    table array instead of pointers; key and data are [None] when NULL. *)
Record hentry (K D : Type) := mkHE {
  he_key : option K;
  he_data : option D;
  he_hash : Z;
  he_next : option nat;
  he_prev : option nat;
  he_status : hstatus }.
Arguments mkHE {K D}. Arguments he_key {K D}. Arguments he_data {K D}. Arguments he_hash {K D}.
Arguments he_next {K D}. Arguments he_prev {K D}. Arguments he_status {K D}.

(** hash_table_t, src/hash.h:30-37.  Function pointers are [None] when NULL. *)
Record htable (K D : Type) := mkHT {
  ht_size : Z;
  ht_count : Z;
  ht_hashfunc : option (K -> Z);
  ht_keycmp : option (K -> K -> Z);
  ht_table : list (hentry K D);
  ht_head : option nat }.
Arguments mkHT {K D}. Arguments ht_size {K D}. Arguments ht_count {K D}. Arguments ht_hashfunc {K D}.
Arguments ht_keycmp {K D}. Arguments ht_table {K D}. Arguments ht_head {K D}.

(** a zeroed entry (memset 0): src/hash.c:46, 100 *)
Definition empty_entry {K D} : hentry K D := mkHE None None 0 None None EMPTY.

(** field assignments *)
Definition set_next {K D} (v : option nat) (e : hentry K D) : hentry K D :=
  mkHE (he_key e) (he_data e) (he_hash e) v (he_prev e) (he_status e).
Definition set_prev {K D} (v : option nat) (e : hentry K D) : hentry K D :=
  mkHE (he_key e) (he_data e) (he_hash e) (he_next e) v (he_status e).

(** sizeof(hash_entry_t) on LP64: 8+8+4(+4)+8+8+4(+4) *)
Definition sizeof_hash_entry : Z := 48.

(** create_hashtable, src/hash.c:35-56.  [ps] is gotcha_getpagesize().
    Simplification: malloc succeeds; the multiplication by sizeof does not overflow. *)
Definition create_hashtable {K D} (ps : Z) (initial_size : Z) (hf : K -> Z) (cmp : K -> K -> Z)
  : outcome (htable K D) :=
  let entries_per_page := ps / sizeof_hash_entry in
  if entries_per_page =? 0 then Fault DivByZero
  else
    let initial_size :=
      if negb (initial_size mod entries_per_page =? 0)
      then initial_size + (entries_per_page - initial_size mod entries_per_page)
      else initial_size in
    Ok (mkHT initial_size 0 (Some hf) (Some cmp) (repeat empty_entry (Z.to_nat initial_size)) None).

(** probe loop of insert, src/hash.c:60-75.  Result: (slot is free, last slot inspected). *)
Fixpoint insert_probe {K D} (fuel : nat) (tbl : list (hentry K D)) (size index start : nat)
  : outcome (bool * nat) :=
  match fuel with
  | O => Fault NoTermination
  | S f =>
    match nth_error tbl index with
    | None => Fault OutOfBounds
    | Some entry =>
      match he_status entry with
      | EMPTY | TOMBSTONE => Ok (true, index)
      | INUSE =>
        let index' := S index in
        let index' := if Nat.eqb index' size then O else index' in
        if Nat.eqb index' start then Ok (false, index)
        else insert_probe f tbl size index' start
      end
    end
  end.

(** insert, src/hash.c:58-86.  When no slot is free the C code relinks the last
    slot inspected; that behaviour is kept. Result: new table and entry index. *)
Definition insert {K D} (t : htable K D) (key : K) (data : D) (value : Z)
  : outcome (htable K D * nat) :=
  if ht_size t =? 0 then Fault DivByZero
  else
    let index := Z.to_nat (u64 value mod ht_size t) in
    let n := Z.to_nat (ht_size t) in
    do ' (free, entry) <- insert_probe n (ht_table t) n index index;
    let tbl :=
      if (free : bool)
      then upd (ht_table t) entry
             (fun e => mkHE (Some key) (Some data) value (he_next e) (he_prev e) INUSE)
      else ht_table t in
    let tbl := upd tbl entry (set_next (ht_head t)) in
    let tbl := upd tbl entry (set_prev None) in
    let tbl := match ht_head t with
               | Some h => upd tbl h (set_prev (Some entry))
               | None => tbl end in
    Ok (mkHT (ht_size t) (ht_count t + 1) (ht_hashfunc t) (ht_keycmp t) tbl (Some entry), entry).

(** destroy_hashtable, src/hash.c:117-126 *)
Definition destroy_hashtable {K D} (t : htable K D) : htable K D :=
  mkHT 0 0 None None [] None.

(** copy loop of grow_hashtable, src/hash.c:102-110 *)
Fixpoint grow_loop {K D} (entries : list (hentry K D)) (newtable : htable K D)
  : outcome (htable K D) :=
  match entries with
  | [] => Ok newtable
  | e :: r =>
    match he_status e with
    | EMPTY | TOMBSTONE => grow_loop r newtable
    | INUSE =>
      match he_key e, he_data e with
      | Some k, Some d =>
        do ' (newtable', _) <- insert newtable k d (he_hash e);
        grow_loop r newtable'
      | _, _ => Fault NullDeref
      end
    end
  end.

(** grow_hashtable, src/hash.c:88-115.  malloc assumed to succeed (the code does not check it).
    An in-use entry always carries non-NULL key and data in this model. *)
Definition grow_hashtable {K D} (t : htable K D) (new_size : Z) : outcome (htable K D) :=
  let newtable := mkHT new_size 0 (ht_hashfunc t) (ht_keycmp t)
                       (repeat empty_entry (Z.to_nat new_size)) None in
  grow_loop (ht_table t) newtable.

(** for(;;) loop of lookup, src/hash.c:136-148.  [Some i]: found at i; [None]: -1. *)
Fixpoint lookup_loop {K D} (fuel : nat) (tbl : list (hentry K D)) (size : nat)
    (keycmp : K -> K -> Z) (key : K) (hashval : Z) (index start : nat)
  : outcome (option nat) :=
  match fuel with
  | O => Fault NoTermination
  | S f =>
    match nth_error tbl index with
    | None => Fault OutOfBounds
    | Some cur =>
      do hit <- (match he_status cur with
                 | INUSE =>
                   if he_hash cur =? hashval
                   then match he_key cur with
                        | Some k => Ok (keycmp k key =? 0)
                        | None => Fault NullDeref
                        end
                   else Ok false
                 | _ => Ok false
                 end);
      if (hit : bool) then Ok (Some index)
      else match he_status cur with
           | EMPTY => Ok None
           | _ =>
             let index' := S index in
             let index' := if Nat.eqb index' size then O else index' in
             if Nat.eqb index' start then Ok None
             else lookup_loop f tbl size keycmp key hashval index' start
           end
    end
  end.

(** lookup, src/hash.c:128-149 *)
Definition lookup {K D} (t : htable K D) (key : K) : outcome (option nat) :=
  match ht_hashfunc t, ht_keycmp t with
  | Some hf, Some cmp =>
    let hashval := hf key in
    if ht_size t =? 0 then Fault DivByZero
    else
      let index := Z.to_nat (u64 hashval mod ht_size t) in
      let n := Z.to_nat (ht_size t) in
      lookup_loop n (ht_table t) n cmp key hashval index index
  | _, _ => Fault NullDeref
  end.

(** lookup_hashtable, src/hash.c:151-159: [Some d] = 0 with *data = d, [None] = -1 *)
Definition lookup_hashtable {K D} (t : htable K D) (key : K) : outcome (option D) :=
  do r <- lookup t key;
  match r with
  | None => Ok None
  | Some i =>
    match nth_error (ht_table t) i with
    | Some e => match he_data e with Some d => Ok (Some d) | None => Fault NullDeref end
    | None => Fault OutOfBounds
    end
  end.

(** while (table->entry_count > newsize / 2) newsize *= 2;  src/hash.c:167-168 *)
Fixpoint grow_size (fuel : nat) (count newsize : Z) : outcome Z :=
  match fuel with
  | O => Fault NoTermination
  | S f => if count >? newsize / 2 then grow_size f count (newsize * 2) else Ok newsize
  end.

(** addto_hashtable, src/hash.c:161-179 (always returns 0 when it returns) *)
Definition addto_hashtable {K D} (t : htable K D) (key : K) (data : D) : outcome (htable K D) :=
  do newsize <- grow_size (S (S (Z.to_nat (ht_count t)))) (ht_count t) (ht_size t);
  do t' <- (if newsize =? ht_size t then Ok t else grow_hashtable t newsize);
  match ht_hashfunc t' with
  | None => Fault NullDeref
  | Some hf =>
    do ' (t'', _) <- insert t' key data (hf key);
    Ok t''
  end.

(** removefrom_hashtable, src/hash.c:181-200.  Result: (table, true) = 0, (table, false) = -1.
    As in the C code the removed entry keeps its next/prev links. *)
Definition removefrom_hashtable {K D} (t : htable K D) (key : K) : outcome (htable K D * bool) :=
  do r <- lookup t key;
  match r with
  | None => Ok (t, false)
  | Some i =>
    match nth_error (ht_table t) i with
    | None => Fault OutOfBounds
    | Some entry =>
      let tbl := upd (ht_table t) i
                   (fun e => mkHE None None 0 (he_next e) (he_prev e) TOMBSTONE) in
      let tbl := match he_next entry with
                 | Some nx => upd tbl nx (set_prev (he_prev entry))
                 | None => tbl end in
      let tbl := match he_prev entry with
                 | Some pv => upd tbl pv (set_next (he_next entry))
                 | None => tbl end in
      let head := match ht_head t with
                  | Some h => if Nat.eqb h i then he_next entry else ht_head t
                  | None => None end in
      Ok (mkHT (ht_size t) (ht_count t - 1) (ht_hashfunc t) (ht_keycmp t) tbl head, true)
    end
  end.

(** foreach_hash_entry, src/hash.c:202-212.  The callback may modify the world [S],
    including the table being iterated, which is read through [get] at every step. *)
Fixpoint foreach_loop {K D S} (fuel : nat) (get : S -> htable K D)
    (cb : option K -> option D -> S -> outcome (S * Z)) (i : option nat) (s : S)
  : outcome (S * Z) :=
  match i with
  | None => Ok (s, 0)
  | Some p =>
    match fuel with
    | O => Fault NoTermination
    | Datatypes.S f =>
      match nth_error (ht_table (get s)) p with
      | None => Fault OutOfBounds
      | Some e =>
        do ' (s', result) <- cb (he_key e) (he_data e) s;
        if negb (result =? 0) then Ok (s', result)
        else match nth_error (ht_table (get s')) p with
             | None => Fault OutOfBounds
             | Some e' => foreach_loop f get cb (he_next e') s'
             end
      end
    end
  end.

Definition foreach_hash_entry {K D S} (get : S -> htable K D)
    (cb : option K -> option D -> S -> outcome (S * Z)) (s : S) : outcome (S * Z) :=
  foreach_loop (length (ht_table (get s))) get cb (ht_head (get s)) s.
