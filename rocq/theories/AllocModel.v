(** Model of the internal allocator, src/libc_wrappers.c:33-132: gotcha_malloc, gotcha_realloc, gotcha_free.
    Memory is modelled by its 8-byte words: an address that is not mapped, or not a multiple of 8, has no word.
    All accesses of the allocator are to such words; gotcha_memcpy copies a multiple of 8 bytes.
    A malloc_link_t at address a has its header.size at a and its next at a + 8. *)
From Verif Require Import Base.

Definition memory := Z -> option Z.
Definition ldw (m : memory) (a : Z) : outcome Z := match m a with Some v => Ok v | None => Fault OutOfBounds end.
Definition set_word (m : memory) (a v : Z) : memory := fun x => if x =? a then Some v else m x.
Definition stw (m : memory) (a v : Z) : outcome memory := do _ <- ldw m a; Ok (set_word m a v).
(** the effect of a successful mmap of fresh pages at [r] *)
Definition mapped (m : memory) (r len : Z) : memory := fun a => if (r <=? a) && (a <? r + len) && (a mod 8 =? 0) then Some 0 else m a.

(** the memory, the variable free_list (:45), the regions obtained from mmap (address and length), latest first,
    and a bound on the length of the free list: the number of times an element was put into it.  The last two are
    not part of the program. *)
Record heap := mkHeap { h_mem : memory; h_free : Z; h_maps : list (Z * Z); h_pushes : nat }.

(** sizeof(malloc_link_t), sizeof(malloc_header_t) (:33-40), MIN_SIZE and MIN_BLOCK_SIZE (:42-43) *)
Definition LINK_SIZE : Z := 16.
Definition HEADER_SIZE : Z := 8.
Definition MIN_SIZE : Z := LINK_SIZE - HEADER_SIZE.
Definition MIN_BLOCK_SIZE : Z := 1024 * 32.

(** split_allocation, :47-58 *)
Definition split_allocation (h : heap) (allocation new_size : Z) : outcome heap :=
  do orig_size <- ldw (h_mem h) allocation;
  if u64 (orig_size - new_size) <=? LINK_SIZE then Ok h
  else
    do m <- stw (h_mem h) allocation new_size;
    let newalloc := u64 (allocation + 8 + new_size) in
    do m <- stw m newalloc (u64 (u64 (orig_size - new_size) - HEADER_SIZE));
    do m <- stw m (u64 (newalloc + 8)) (h_free h);
    Ok (mkHeap m newalloc (h_maps h) (S (h_pushes h))).

(** the search for the tightest fit, :70-79: best_fit_prev, best_fit and best_fit_diff *)
Fixpoint best_fit (fuel : nat) (m : memory) (size prev cur : Z) (best : option (Z * Z * Z)) : outcome (option (Z * Z * Z)) :=
  match fuel with
  | O => Fault NoTermination
  | S f =>
    if cur =? 0 then Ok best
    else
      do sz <- ldw m cur;
      let diff := s64 (sz - size) in
      if (0 <=? diff) && (match best with None => true | Some (_, _, d) => diff <? d end) then
        if diff =? 0 then Ok (Some (prev, cur, diff))
        else do next <- ldw m (u64 (cur + 8)); best_fit f m size cur next (Some (prev, cur, diff))
      else do next <- ldw m (u64 (cur + 8)); best_fit f m size cur next best
  end.

(** :66-67 *)
Definition round_size (size : Z) : Z :=
  let size := if size <? MIN_SIZE then MIN_SIZE else size in
  if size mod 8 =? 0 then size else u64 (size + (8 - size mod 8)).
(** :92-98; [pagesz] is what gotcha_getpagesize returns *)
Definition block_size (pagesz size : Z) : outcome Z :=
  if u64 (size + HEADER_SIZE) >? MIN_BLOCK_SIZE then
    let block_size := s64 (u64 (size + HEADER_SIZE)) in
    if pagesz =? 0 then Fault DivByZero
    else
      let diff := Z.rem block_size pagesz in
      if diff =? 0 then Ok block_size
      else if block_size + (pagesz - diff) <=? 9223372036854775807 then Ok (block_size + (pagesz - diff)) else Fault SignedOverflow
  else Ok MIN_BLOCK_SIZE.

(** gotcha_malloc, :60-107.  [kernel len] is mmap's answer to a request of [len] bytes, [None] for MAP_FAILED.
    The result is the pointer, 0 for NULL. *)
Definition gotcha_malloc (pagesz : Z) (kernel : Z -> option Z) (h : heap) (size : Z) : outcome (heap * Z) :=
  let size := round_size size in
  do fit <- best_fit (S (h_pushes h)) (h_mem h) size 0 (h_free h) None;
  match fit with
  | Some (prev, best, _) =>
    do next <- ldw (h_mem h) (u64 (best + 8));
    do h <- (if negb (prev =? 0) then do m <- stw (h_mem h) (u64 (prev + 8)) next; Ok (mkHeap m (h_free h) (h_maps h) (h_pushes h))
             else Ok (mkHeap (h_mem h) next (h_maps h) (h_pushes h)));
    do h <- split_allocation h best size;
    Ok (h, u64 (best + 8))
  | None =>
    do len <- block_size pagesz size;
    match kernel (u64 len) with
    | None => Ok (h, 0)
    | Some newalloc =>
      let h := mkHeap (mapped (h_mem h) newalloc (u64 len)) (h_free h) ((newalloc, u64 len) :: h_maps h) (h_pushes h) in
      do m <- stw (h_mem h) newalloc (u64 (len - HEADER_SIZE));
      do h <- split_allocation (mkHeap m (h_free h) (h_maps h) (h_pushes h)) newalloc size;
      Ok (h, u64 (newalloc + 8))
    end
  end.

(** gotcha_free, :126-132 *)
Definition gotcha_free (h : heap) (buffer : Z) : outcome heap :=
  let alloc := u64 (buffer - 8) in
  do m <- stw (h_mem h) (u64 (alloc + 8)) (h_free h);
  Ok (mkHeap m alloc (h_maps h) (S (h_pushes h))).

(** gotcha_memcpy, :134-139, of [n] words; [n] is the size, a multiple of 8 in all reachable states, divided by 8 *)
Fixpoint copy_words (n : nat) (m : memory) (dest src : Z) : outcome memory :=
  match n with
  | O => Ok m
  | S k => do v <- ldw m src; do m <- stw m dest v; copy_words k m (u64 (dest + 8)) (u64 (src + 8))
  end.
(** gotcha_realloc, :109-124 *)
Definition gotcha_realloc (pagesz : Z) (kernel : Z -> option Z) (h : heap) (buffer size : Z) : outcome (heap * Z) :=
  let alloc := u64 (buffer - 8) in
  do old <- ldw (h_mem h) alloc;
  if size <=? old then Ok (h, buffer)
  else
    do ' (h, newbuffer) <- gotcha_malloc pagesz kernel h size;
    if newbuffer =? 0 then Ok (h, 0)
    else
      do old <- ldw (h_mem h) alloc;
      do m <- copy_words (Z.to_nat (old / 8)) (h_mem h) newbuffer buffer;
      do h <- gotcha_free (mkHeap m (h_free h) (h_maps h) (h_pushes h)) buffer;
      Ok (h, newbuffer).
