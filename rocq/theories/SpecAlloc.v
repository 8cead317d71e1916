(** Vocabulary for the statements about the internal allocator. *)
From Verif Require Import Base AllocModel.

(** what a program does with the allocator.  [kernel] answers the mmap calls of the operation.  [Write a v] stores
    a word. *)
Inductive op :=
| Malloc (kernel : Z -> option Z) (size : Z)
| Free (p : Z)
| Realloc (kernel : Z -> option Z) (p size : Z)
| Write (a v : Z).
Definition run_op (pagesz : Z) (h : heap) (o : op) : outcome (heap * Z) :=
  match o with
  | Malloc kernel size => gotcha_malloc pagesz kernel h size
  | Free p => do h <- gotcha_free h p; Ok (h, 0)
  | Realloc kernel p size => gotcha_realloc pagesz kernel h p size
  | Write a v => do m <- stw (h_mem h) a v; Ok (mkHeap m (h_free h) (h_maps h) (h_pushes h), 0)
  end.

(** the blocks handed out and not freed: pointer and size requested *)
Definition blocks := list (Z * Z).
Definition drop (p : Z) (l : blocks) : blocks := filter (fun b => negb (fst b =? p)) l.
Definition after (l : blocks) (o : op) (r : Z) : blocks :=
  match o with
  | Malloc _ size => if r =? 0 then l else (r, size) :: l
  | Free p => drop p l
  | Realloc _ p size => if r =? 0 then l else (r, size) :: drop p l
  | Write _ _ => l
  end.

(** the byte at [a] belongs to block [b]; a word does if one of its bytes does *)
Definition inside (b : Z * Z) (a : Z) : Prop := fst b <= a < fst b + snd b.
Definition word_inside (b : Z * Z) (a : Z) : Prop := exists x, a <= x < a + 8 /\ inside b x.

(** mmap gives memory that is not in use, 8-byte aligned and in the lower half of the address space *)
Definition kernel_ok (m : memory) (kernel : Z -> option Z) : Prop :=
  forall len r, kernel len = Some r -> 0 < r /\ r mod 8 = 0 /\ r + len <= 9223372036854775808 /\ forall a, r <= a < r + len -> m a = None.
(** requests up to 2^63 - 2^33 *)
Definition MAX_REQUEST : Z := 9223372036854775808 - 8589934592.
(** the operations a program may do: only blocks it has, only writes inside them *)
Definition valid (h : heap) (l : blocks) (o : op) : Prop :=
  match o with
  | Malloc kernel size => 0 <= size <= MAX_REQUEST /\ kernel_ok (h_mem h) kernel
  | Free p => In p (map fst l)
  | Realloc kernel p size => In p (map fst l) /\ 0 <= size <= MAX_REQUEST /\ kernel_ok (h_mem h) kernel
  | Write a v => a mod 8 = 0 /\ exists b, In b l /\ word_inside b a
  end.
(** page sizes *)
Definition page_ok (pagesz : Z) : Prop := 0 < pagesz < two32 /\ pagesz mod 8 = 0.
(** before the first use; [m0] is the memory of the process *)
Definition heap0 (m0 : memory) : heap := mkHeap m0 0 [] 0.

(** a history: [runs pagesz h l os h' l'] *)
Inductive runs (pagesz : Z) : heap -> blocks -> list op -> heap -> blocks -> Prop :=
| RNil h l : runs pagesz h l [] h l
| RCons h l o h1 r os h2 l2 : valid h l o -> run_op pagesz h o = Ok (h1, r) -> runs pagesz h1 (after l o r) os h2 l2 -> runs pagesz h l (o :: os) h2 l2.

(** two blocks have no byte in common, not even in their last words *)
Definition apart (b c : Z * Z) : Prop := forall a, ~ (word_inside b a /\ word_inside c a /\ a mod 8 = 0).
(** the header of a block, where the allocator keeps its size *)
Definition header (b : Z * Z) : Z := fst b - 8.
(** the elements of the free list *)
Inductive free_elements (m : memory) : Z -> list Z -> Prop :=
| FNil : free_elements m 0 []
| FCons a next r : a <> 0 -> m (a + 8) = Some next -> free_elements m next r -> free_elements m a (a :: r).
