(** Model of src/gotcha_auxv.c: the page size and the recognition of the vdso, and of gotcha_getpagesize
    (src/libc_wrappers.c).  Files under /proc are modelled by their content and the way the kernel answers
    read calls. *)
From Verif Require Import Base LibcModel.

(** *** reading files *)
(** one answer of read: at most n + 1 bytes, EINTR, or another error.  After the listed answers read gives as
    much as it can. *)
Inductive rd := RGive (n : nat) | RIntr | RErr.
Definition file := (list Z * list rd)%type.
Inductive rres := Got (l : list Z) | Intr | Err.
(** read(fd, buf, req) *)
Definition kread (req : nat) (f : file) : rres * file :=
  let '(data, sched) := f in
  match sched with
  | RIntr :: s => (Intr, (data, s))
  | RErr :: s => (Err, (data, s))
  | RGive n :: s => let k := Nat.min req (S n) in (Got (firstn k data), (skipn k data, s))
  | [] => (Got (firstn req data), (skipn req data, []))
  end.

(** *** /proc/self/auxv *)
(** parsed_auxv, vdso_ehdr and auxv_pagesz, src/gotcha_auxv.c:32-43 *)
Record auxv := mkAuxv { av_parsed : Z; av_ehdr : Z; av_pagesz : Z }.
Definition auxv_init : auxv := mkAuxv 0 0 0.
Definition BUFFER_LEN : Z := 4096.
Definition AT_NULL : Z := 0.
Definition AT_PAGESZ : Z := 6.
Definition AT_SYSINFO_EHDR : Z := 33.

(** the bytes [l] written into the array [b] from [i]; writing outside is an error *)
Fixpoint fill (b : list Z) (i : nat) (l : list Z) : outcome (list Z) :=
  match l with
  | [] => Ok b
  | x :: r => if (i <? length b)%nat then fill (upd b i (fun _ => x)) (S i) r else Fault OutOfBounds
  end.
(** a 64-bit word of the array, little endian *)
Fixpoint le (l : list Z) : Z := match l with [] => 0 | b :: r => b + 256 * le r end.
Definition word (b : list Z) (i : nat) : outcome Z :=
  if (i + 8 <=? length b)%nat then Ok (le (firstn 8 (skipn i b))) else Fault OutOfBounds.

(** the inner for loop, src/gotcha_auxv.c:55-73: the result is the buffer, the offset, [Some done] or [None]
    for a read error, and the rest of the file *)
Fixpoint read_loop (fuel : nat) (buffer : list Z) (offset : Z) (f : file) : outcome (list Z * Z * option bool * file) :=
  match fuel with
  | O => Fault NoTermination
  | S g =>
    match kread (Z.to_nat (BUFFER_LEN - offset)) f with
    | (Intr, f) => read_loop g buffer offset f
    | (Err, f) => Ok (buffer, offset, None, f)
    | (Got l, f) =>
      do buffer <- fill buffer (Z.to_nat offset) l;
      if Z.of_nat (length l) =? 0 then Ok (buffer, offset, Some true, f)
      else if offset =? BUFFER_LEN then Ok (buffer, offset, Some false, f)
      else read_loop g buffer (offset + Z.of_nat (length l)) f
    end
  end.
(** the scan, src/gotcha_auxv.c:75-82; [i] is the byte offset of the entry *)
Fixpoint scan (fuel : nat) (buffer : list Z) (i : nat) (a : auxv) : outcome auxv :=
  match fuel with
  | O => Fault NoTermination
  | S g =>
    do t <- word buffer i;
    if t =? AT_NULL then Ok a
    else if t =? AT_SYSINFO_EHDR then do v <- word buffer (i + 8); scan g buffer (i + 16) (mkAuxv (av_parsed a) v (av_pagesz a))
    else if t =? AT_PAGESZ then do v <- word buffer (i + 8); scan g buffer (i + 16) (mkAuxv (av_parsed a) (av_ehdr a) (u32 (s32 v)))
    else scan g buffer (i + 16) a
  end.
(** the do loop, src/gotcha_auxv.c:54-83 *)
Fixpoint parse_loop (fuel : nat) (buffer : list Z) (offset : Z) (f : file) (a : auxv) : outcome (auxv * Z) :=
  match fuel with
  | O => Fault NoTermination
  | S g =>
    do ' (buffer, offset, r, f) <- read_loop (S (S (S (length (snd f))))) buffer offset f;
    match r with
    | None => Ok (mkAuxv (-1) (av_ehdr a) (av_pagesz a), -1)
    | Some fin =>
      do a <- scan (S (length buffer)) buffer 0 a;
      if fin : bool then Ok (a, 0) else parse_loop g buffer offset f a
    end
  end.
(** parse_auxv_contents, src/gotcha_auxv.c:36-86.  [f] is /proc/self/auxv, [None] if open fails; [buffer] is the
    initial content of the local array. *)
Definition parse_auxv_contents (f : option file) (buffer : list Z) (a : auxv) : outcome (auxv * Z) :=
  if negb (av_parsed a =? 0) then Ok (a, if av_parsed a =? -1 then -1 else 0)
  else
    match f with
    | None => Ok (mkAuxv (-1) (av_ehdr a) (av_pagesz a), -1)
    | Some f => parse_loop (S (length (snd f))) buffer 0 f (mkAuxv 1 (av_ehdr a) (av_pagesz a))
    end.
(** get_auxv_pagesize, src/gotcha_auxv.c:116-120 *)
Definition get_auxv_pagesize (f : option file) (buffer : list Z) (a : auxv) : outcome (auxv * Z) :=
  do ' (a, result) <- parse_auxv_contents f buffer a; Ok (a, if result =? -1 then 0 else av_pagesz a).
(** gotcha_getpagesize, src/libc_wrappers.c:298-305; [pagesz] is the static variable, initially 0 *)
Definition gotcha_getpagesize (f : option file) (buffer : list Z) (s : auxv * Z) : outcome (auxv * Z * Z) :=
  let '(a, pagesz) := s in
  if negb (pagesz =? 0) then Ok (a, pagesz, pagesz)
  else
    do ' (a, p) <- get_auxv_pagesize f buffer a;
    let p := if p =? 0 then 4096 else p in Ok (a, p, p).

(** *** link maps *)
(** struct link_map as far as used here; [vm_id] is the pointer, never 0 *)
Record vmap := mkVmap { vm_id : Z; vm_name : option cstr; vm_addr : Z; vm_ld : Z }.
(** get_vdso_from_aliases, src/gotcha_auxv.c:122-136 *)
Definition vdso_aliases : list cstr :=
  [ [108; 105; 110; 117; 120; 45; 118; 100; 115; 111; 46; 115; 111] (* linux-vdso.so *);
    [108; 105; 110; 117; 120; 45; 103; 97; 116; 101; 46; 115; 111] (* linux-gate.so *) ].
Definition has_alias (m : vmap) : bool :=
  existsb (fun al => match vm_name m with Some n => libc_strcmp n al =? 0 | None => false end) vdso_aliases.
Definition get_vdso_from_aliases (r_map : list vmap) : option vmap := find has_alias r_map.

(** program headers of the vdso: p_type and p_vaddr *)
Definition PT_DYNAMIC : Z := 2.
(** src/gotcha_auxv.c:101-105 *)
Definition vdso_dynamic (phdrs : list (Z * Z)) : Z :=
  fold_left (fun d p => if fst p =? PT_DYNAMIC then snd p else d) phdrs 0.
(** get_vdso_from_auxv, src/gotcha_auxv.c:88-114; [image e] are the program headers found through the ELF header
    at address [e] *)
Definition get_vdso_from_auxv (f : option file) (buffer : list Z) (image : Z -> list (Z * Z)) (r_map : list vmap) (a : auxv) : outcome (auxv * option vmap) :=
  do ' (a, _) <- parse_auxv_contents f buffer a;
  if av_ehdr a =? 0 then Ok (a, None)
  else Ok (a, find (fun m => u64 (vm_addr m + vdso_dynamic (image (av_ehdr a))) =? vm_ld m) r_map).

(** *** /proc/self/maps *)
(** read_line, src/gotcha_auxv.c:138-154.  The result is the array, the return value and the rest of the file. *)
Fixpoint read_line_loop (n : nat) (line : bytes) (i : Z) (size : Z) (f : file) : outcome (bytes * Z * file) :=
  match n with
  | O => do line <- st line (size - 1) 0; Ok (line, 0, f)
  | S k =>
    match kread 1 f with
    | (Intr, f) => read_line_loop k line (i + 1) size f
    | (Err, f) | (Got [], f) => do line <- st line i 0; Ok (line, -1, f)
    | (Got (b :: _), f) =>
      do line <- st line i b;
      if b =? 10 then do line <- st line (i + 1) 0; Ok (line, 0, f)
      else read_line_loop k line (i + 1) size f
    end
  end.
Definition read_line (line : bytes) (size : Z) (f : file) : outcome (bytes * Z * file) :=
  read_line_loop (Z.to_nat (size - 1)) line 0 size f.
(** read_hex, src/gotcha_auxv.c:156-174; the result is the value and the length *)
Fixpoint read_hex_loop (fuel : nat) (m : bytes) (str val len : Z) : outcome (Z * Z) :=
  match fuel with
  | O => Fault NoTermination
  | S f =>
    do c <- ld m str;
    if (48 <=? c) && (c <=? 57) then read_hex_loop f m (str + 1) (u64 (val * 16 + (c - 48))) (len + 1)
    else if (97 <=? c) && (c <=? 102) then read_hex_loop f m (str + 1) (u64 (val * 16 + (c - 97 + 10))) (len + 1)
    else if (65 <=? c) && (c <=? 70) then read_hex_loop f m (str + 1) (u64 (val * 16 + (c - 65 + 10))) (len + 1)
    else Ok (val, len)
  end.
Definition read_hex (m : bytes) (str : Z) : outcome (Z * Z) := read_hex_loop (S (length m)) m str 0 0.
(** read_word, src/gotcha_auxv.c:176-201; [word] is [None] for NULL, else the array at whose beginning the word
    is stored.  The result is the array and the return value. *)
Definition is_space (c : Z) : bool := (c =? 32) || (c =? 9) || (c =? 10).
Fixpoint skip_spaces (fuel : nat) (m : bytes) (str len : Z) : outcome (Z * Z) :=
  match fuel with
  | O => Fault NoTermination
  | S f => do c <- ld m str; if is_space c then skip_spaces f m (str + 1) (len + 1) else Ok (str, len)
  end.
Definition store (word : option bytes) (i v : Z) : outcome (option bytes) :=
  match word with None => Ok None | Some w => do w <- st w i v; Ok (Some w) end.
Fixpoint word_loop (fuel : nat) (m : bytes) (str : Z) (word : option bytes) (word_size word_cur len : Z) : outcome (option bytes * Z) :=
  match fuel with
  | O => Fault NoTermination
  | S f =>
    do c <- ld m str;
    if negb (is_space c) && negb (c =? 0) then
      if (match word with Some _ => true | None => false end) && (word_cur >=? word_size) then
        do word <- (if word_size >? 0 then store word (word_size - 1) 0 else Ok word);
        Ok (word, word_cur)
      else
        do word <- store word word_cur c;
        word_loop f m (str + 1) word word_size (word_cur + 1) (len + 1)
    else
      let word_cur := if word_cur >=? word_size then word_cur - 1 else word_cur in
      do word <- store word word_cur 0;
      Ok (word, len)
  end.
Definition read_word (m : bytes) (str : Z) (word : option bytes) (word_size : Z) : outcome (option bytes * Z) :=
  do ' (str, len) <- skip_spaces (S (length m)) m str 0;
  do c <- ld m str;
  if c =? 0 then
    match word with
    | None => Fault NullDeref
    | Some w => do w <- st w 0 0; Ok (Some w, len)
    end
  else word_loop (S (length m)) m str word word_size 0 len.
(** "[vdso]" *)
Definition vdso_name : cstr := [91; 118; 100; 115; 111; 93].
(** one turn of the loop in get_vdso_from_maps, src/gotcha_auxv.c:215-228, on the line read; the result is the
    content of name and, if the line is the one of the vdso, the range.  strcmp is modelled by GOTCHA's own,
    which agrees with that of libc on equality. *)
Definition parse_maps_line (line name : bytes) : outcome (bytes * option (Z * Z)) :=
  do ' (addr_begin, n) <- read_hex line 0;
  do c <- ld line n;
  if negb (c =? 45) then Ok (name, None)
  else
    do ' (addr_end, k) <- read_hex line (n + 1);
    let pos := n + 1 + k in
    do ' (_, k) <- read_word line pos None 0; let pos := pos + k in
    do ' (_, k) <- read_word line pos None 0; let pos := pos + k in
    do ' (_, k) <- read_word line pos None 0; let pos := pos + k in
    do ' (_, k) <- read_word line pos None 0; let pos := pos + k in
    do ' (w, _) <- read_word line pos (Some name) BUFFER_LEN;
    let name := match w with Some w => w | None => name end in
    do c <- gotcha_strcmp (name ++ literal vdso_name) 0 (Z.of_nat (length name));
    Ok (name, if c =? 0 then Some (addr_begin, addr_end) else None).
(** the for loop, src/gotcha_auxv.c:209-229 *)
Fixpoint maps_loop (fuel : nat) (line name : bytes) (f : file) : outcome (option (Z * Z)) :=
  match fuel with
  | O => Fault NoTermination
  | S g =>
    do ' (line, hit_eof, f) <- read_line line BUFFER_LEN f;
    if negb (hit_eof =? 0) then Ok None
    else
      do ' (name, r) <- parse_maps_line line name;
      match r with
      | Some range => Ok (Some range)
      | None => maps_loop g line name f
      end
  end.
(** get_vdso_from_maps, src/gotcha_auxv.c:203-237; [f] is /proc/self/maps, [None] if open fails (then read fails);
    [line] and [name] are the initial contents of the local arrays *)
Definition get_vdso_from_maps (f : option file) (line name : bytes) (r_map : list vmap) : outcome (option vmap) :=
  let f := match f with Some f => f | None => ([], [RErr]) end in
  do r <- maps_loop (S (length (fst f) + length (snd f))) line name f;
  match r with
  | None => Ok None
  | Some (b, e) => Ok (find (fun m => (b <=? vm_ld m) && (vm_ld m <? e)) r_map)
  end.

(** *** is_vdso, src/gotcha_auxv.c:239-268 *)
(** what the process offers at the time of a call *)
Record world := mkWorld {
  w_auxv : option file; w_buffer : list Z; w_image : Z -> list (Z * Z);
  w_maps : option file; w_line : bytes; w_name : bytes; w_rmap : list vmap }.
(** vdso_checked, vdso (0 is NULL) and the variables of parse_auxv_contents *)
Record vstate := mkVst { vs_checked : bool; vs_vdso : Z; vs_auxv : auxv }.
Definition vst_init : vstate := mkVst false 0 auxv_init.
(** [map] is a link_map pointer, 0 is NULL; the result is the new state and the answer *)
Definition is_vdso (w : world) (map : Z) (s : vstate) : outcome (vstate * bool) :=
  if map =? 0 then Ok (s, false)
  else if vs_checked s then Ok (s, map =? vs_vdso s)
  else
    match get_vdso_from_aliases (w_rmap w) with
    | Some m => Ok (mkVst true (vm_id m) (vs_auxv s), map =? vm_id m)
    | None =>
      do ' (a, r) <- get_vdso_from_auxv (w_auxv w) (w_buffer w) (w_image w) (w_rmap w) (vs_auxv s);
      match r with
      | Some m => Ok (mkVst true (vm_id m) a, map =? vm_id m)
      | None =>
        do r <- get_vdso_from_maps (w_maps w) (w_line w) (w_name w) (w_rmap w);
        match r with
        | Some m => Ok (mkVst true (vm_id m) a, map =? vm_id m)
        | None => Ok (mkVst true (vs_vdso s) a, false)
        end
      end
    end.
