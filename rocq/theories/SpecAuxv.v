(** Vocabulary for the statements about the auxiliary vector, the vdso and /proc/self/maps. *)
From Verif Require Import Base LibcModel SpecLibc AuxvModel.
From Coq Require String. Import String.StringSyntax.
Open Scope string_scope. Open Scope list_scope. Open Scope Z_scope.

(** *** the auxiliary vector *)
(** the [n] bytes of a word, little endian *)
Fixpoint enc (n : nat) (v : Z) : list Z := match n with O => [] | S k => v mod 256 :: enc k (v / 256) end.
Definition entry := (Z * Z)%type.
Definition enc_entry (e : entry) : list Z := enc 8 (fst e) ++ enc 8 (snd e).
(** entries as the kernel writes them, before the terminating AT_NULL *)
Definition wf_entry (e : entry) : Prop := 0 < fst e < two64 /\ 0 <= snd e < two64.
(** [data] is the content of an auxiliary vector with the entries [ents], of which GOTCHA's buffer holds all up
    to the type of the last *)
Definition auxv_content (ents : list entry) (data : list Z) : Prop :=
  Forall wf_entry ents /\ (exists rest, data = flat_map enc_entry ents ++ enc 8 0 ++ rest) /\ 16 * Z.of_nat (length ents) + 8 <= 4096.
(** no read fails *)
Definition no_error (sched : list rd) : Prop := ~ In RErr sched.
(** the number of bytes that the answers can give *)
Fixpoint given (sched : list rd) : nat := match sched with [] => 0 | RGive n :: r => S n + given r | _ :: r => given r end.
(** a read fails before the buffer is full or the end reached *)
Definition fails (data : list Z) (sched : list rd) : Prop :=
  exists pre post, sched = pre ++ RErr :: post /\ no_error pre /\ Z.of_nat (given pre) < Z.min 4096 (Z.of_nat (length data)).

(** *** /proc/self/maps *)
(** a hexadecimal number as written by the kernel: at least one digit, leading zeros allowed *)
Definition hex_text (s : cstr) (v : Z) : Prop :=
  exists up ds, Forall (fun d => 0 <= d < 16) ds /\ ds <> [] /\ number 16 ds = v /\ s = map (hex_char up) ds.
(** a word without white space: space, tab, newline *)
Definition plain_word (s : cstr) : Prop := wf_cstr s /\ s <> [] /\ Forall (fun c => ~ In c [32; 9; 10]) s.
(** a line of maps without its newline: [b]-[e] perms offset dev inode [name]; the name may be missing *)
Definition maps_line (l : cstr) (b e : Z) (name : cstr) : Prop :=
  exists bs es perms off dev inode pad,
    hex_text bs b /\ hex_text es e /\ plain_word perms /\ plain_word off /\ plain_word dev /\ plain_word inode /\
    Forall (fun c => c = 32) pad /\ (name = [] \/ plain_word name /\ pad <> []) /\
    l = bs ++ [45] ++ es ++ [32] ++ perms ++ [32] ++ off ++ [32] ++ dev ++ [32] ++ inode ++ pad ++ name.
Definition in_u64 (v : Z) : Prop := 0 <= v < two64.

(** *** link maps *)
(** [m] is the first of [l] with property [P] *)
Definition first_with {A} (P : A -> Prop) (l : list A) (m : A) : Prop :=
  exists before after, l = before ++ m :: after /\ P m /\ forall x, In x before -> ~ P x.
(** the names of the vdso, spelt out here: linux-vdso.so and linux-gate.so ... *)
Definition alias_names : list cstr := [of_string "linux-vdso.so"; of_string "linux-gate.so"].
Definition named_alias (m : vmap) : Prop := exists n, vm_name m = Some n /\ In n alias_names.
(** ... and its label in /proc/self/maps *)
Definition vdso_label : cstr := of_string "[vdso]".

(** the offset of the dynamic section that the program headers give (PT_DYNAMIC = 2) *)
Definition dynamic_offset (phdrs : list (Z * Z)) (d : Z) : Prop :=
  exists l1 l2, phdrs = l1 ++ (2, d) :: l2 /\ forall d', ~ In (2, d') l2.
(** the vdso is mapped at [ehdr]: its entry says so *)
Definition last_entry (ents : list entry) (t v : Z) : Prop :=
  exists l1 l2, ents = l1 ++ (t, v) :: l2 /\ forall w, ~ In (t, w) l2.
Definition no_entry (ents : list entry) (t : Z) : Prop := forall w, ~ In (t, w) ents.

(** a sequence of calls of is_vdso; the world may change between them *)
Fixpoint vdso_calls (l : list (world * Z)) (s : vstate) : outcome (list bool) :=
  match l with
  | [] => Ok []
  | (w, map) :: r => do ' (s, b) <- is_vdso w map s; do bs <- vdso_calls r s; Ok (b :: bs)
  end.
(** a sequence of calls of gotcha_getpagesize *)
Fixpoint pagesize_calls (l : list (option file * list Z)) (s : auxv * Z) : outcome (list Z) :=
  match l with
  | [] => Ok []
  | (f, buffer) :: r => do ' (s, p) <- gotcha_getpagesize f buffer s; do ps <- pagesize_calls r s; Ok (p :: ps)
  end.

(** the entries of a maps file: begin, end and name *)
Definition mapping := (Z * Z * cstr)%type.
Definition describes (l : cstr) (x : mapping) : Prop :=
  let '(b, e, name) := x in maps_line l b e name /\ in_u64 b /\ in_u64 e /\ Z.of_nat (length l) <= 4094.
Definition maps_file (es : list mapping) (data : list Z) : Prop :=
  exists ls, Forall2 describes ls es /\ data = flat_map (fun l => l ++ [10]) ls.
(** every read gives data *)
Definition steady (sched : list rd) : Prop := Forall (fun r => exists n, r = RGive n) sched.
(** the answers [sched] to reads of one byte of [l] each; [None] stands for an interrupted read.  [sched'] is what remains *)
Inductive with_gaps : list rd -> list Z -> list (option Z) -> list rd -> Prop :=
| gaps_nil s : with_gaps s [] [] s
| gaps_over b l g s' : with_gaps [] l g s' -> with_gaps [] (b :: l) (Some b :: g) s'
| gaps_give n s b l g s' : with_gaps s l g s' -> with_gaps (RGive n :: s) (b :: l) (Some b :: g) s'
| gaps_intr s b l g s' : with_gaps s (b :: l) g s' -> with_gaps (RIntr :: s) (b :: l) (None :: g) s'.
(** from [p] the memory [m'] shows the bytes of [g], and in the gaps what [m] holds *)
Fixpoint overlay (m m' : bytes) (p : Z) (g : list (option Z)) : Prop :=
  match g with
  | [] => True
  | Some b :: r => holds m' p b /\ overlay m m' (p + 1) r
  | None :: r => nth_error m' (Z.to_nat p) = nth_error m (Z.to_nat p) /\ overlay m m' (p + 1) r
  end.
(** the same with any name: it may contain white space, but no newline, and does not begin with white space *)
Definition maps_text (l : cstr) (b e : Z) (name : cstr) : Prop :=
  exists bs es perms off dev inode pad,
    hex_text bs b /\ hex_text es e /\ plain_word perms /\ plain_word off /\ plain_word dev /\ plain_word inode /\
    Forall (fun c => c = 32) pad /\
    (name = [] \/ wf_cstr name /\ ~ In 10 name /\ (exists c r, name = c :: r /\ ~ In c [32; 9; 10]) /\ pad <> []) /\
    l = bs ++ [45] ++ es ++ [32] ++ perms ++ [32] ++ off ++ [32] ++ dev ++ [32] ++ inode ++ pad ++ name.
(** the part of the name before the first white space *)
Definition first_word (name w : cstr) : Prop :=
  exists t, name = w ++ t /\ Forall (fun c => ~ In c [32; 9; 10]) w /\ (t = [] \/ exists c r, t = c :: r /\ In c [32; 9; 10]).
Definition text_describes (l : cstr) (x : mapping) : Prop :=
  let '(b, e, name) := x in maps_text l b e name /\ in_u64 b /\ in_u64 e /\ Z.of_nat (length l) <= 4094.
Definition text_file (es : list mapping) (data : list Z) : Prop :=
  exists ls, Forall2 text_describes ls es /\ data = flat_map (fun l => l ++ [10]) ls.
(** the mapping of the vdso: the first one named [vdso] *)
Definition vdso_range (es : list mapping) (r : option (Z * Z)) : Prop :=
  match r with
  | Some (b, e) => first_with (fun x => snd x = vdso_label) es (b, e, vdso_label)
  | None => forall x, In x es -> snd x <> vdso_label
  end.

(** *** which library is taken for the vdso, in every case *)
(** the address of the vdso that /proc/self/auxv gives: AT_SYSINFO_EHDR = 33; 0 if there is no such entry or the file
    cannot be read *)
Inductive ehdr_said (w : world) : Z -> Prop :=
| said_entry ents data sched e : w_auxv w = Some (data, sched) -> auxv_content ents data -> no_error sched -> last_entry ents 33 e -> ehdr_said w e
| said_none ents data sched : w_auxv w = Some (data, sched) -> auxv_content ents data -> no_error sched -> no_entry ents 33 -> ehdr_said w 0
| said_closed : w_auxv w = None -> ehdr_said w 0
| said_error data sched : w_auxv w = Some (data, sched) -> fails data sched -> ehdr_said w 0.
(** the offset of the dynamic section, 0 without PT_DYNAMIC *)
Definition offset_said (phdrs : list (Z * Z)) (d : Z) : Prop := dynamic_offset phdrs d \/ (forall d', ~ In (2, d') phdrs) /\ d = 0.
(** a line of maps that GOTCHA takes for that of the vdso *)
Definition labelled (x : mapping) : Prop := first_word (snd x) vdso_label.
(** the address range that /proc/self/maps gives *)
Inductive range_said (w : world) : option (Z * Z) -> Prop :=
| range_closed : w_maps w = None -> range_said w None
| range_none es data sched : w_maps w = Some (data, sched) -> text_file es data -> steady sched -> (forall x, In x es -> ~ labelled x) -> range_said w None
| range_some es data sched b e n : w_maps w = Some (data, sched) -> text_file es data -> steady sched -> first_with labelled es (b, e, n) -> range_said w (Some (b, e)).
Definition first_or_none (P : vmap -> Prop) (l : list vmap) (r : option vmap) : Prop :=
  match r with Some m => first_with P l m | None => forall m, In m l -> ~ P m end.
(** the dynamic section lies at offset [d] *)
Definition at_offset (d : Z) (m : vmap) : Prop := vm_ld m = (vm_addr m + d) mod 2 ^ 64.
(** ... in a mapping *)
Definition in_mapping (b e : Z) (m : vmap) : Prop := b <= vm_ld m < e.
Inductive taken (w : world) : option vmap -> Prop :=
| taken_alias m : first_with named_alias (w_rmap w) m -> taken w (Some m)
| taken_auxv e d m : (forall m, In m (w_rmap w) -> ~ named_alias m) -> ehdr_said w e -> e <> 0 -> offset_said (w_image w e) d ->
    first_with (at_offset d) (w_rmap w) m -> taken w (Some m)
| taken_maps e r m : (forall m, In m (w_rmap w) -> ~ named_alias m) -> ehdr_said w e ->
    e = 0 \/ (exists d, offset_said (w_image w e) d /\ forall m, In m (w_rmap w) -> ~ at_offset d m) -> range_said w r ->
    first_or_none (fun m => exists b e, r = Some (b, e) /\ in_mapping b e m) (w_rmap w) m -> taken w m.
