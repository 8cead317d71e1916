(** Model of src/elf_ops.c, src/elf_ops.h, and of the ELF-reading parts of src/gotcha.c
    (lookup_exported_symbol, find_relro_boundary, mark_got_writable). *)
From Verif Require Import Base.

(** ElfW(Sym), the fields GOTCHA reads (st_name, st_size, st_value) plus type and section,
    which GOTCHA does not read but which the specification talks about. *)
Record esym := mkSym { st_name : Z; st_value : Z; st_size : Z; st_type : Z; st_shndx : Z }.

(** The parts of a mapped library image GOTCHA dereferences, as typed views of the memory found at
    an address.  Simplification: tables of one library do not overlap each other or the GOT slots
    being rewritten, so reading them is not affected by GOTCHA's writes. *)
Record image := mkImage {
  im_dyn : list (Z * Z);             (* dynamic section at l_ld: (d_tag, d_un) entries *)
  im_rels : Z -> list (Z * Z);       (* array of ElfW(Rel) at an address: (r_offset, r_info) *)
  im_relas : Z -> list (Z * Z);      (* array of ElfW(Rela) at an address: (r_offset, r_info) *)
  im_syms : Z -> list esym;          (* symbol table at an address *)
  im_str : Z -> cstr;                (* C string at an address *)
  im_halfs : Z -> list Z;            (* array of ElfW(Half) at an address *)
  im_words : Z -> list Z }.          (* array of 32-bit words at an address *)

(** struct link_map (link.h): the node's own address, l_name ([None] = NULL), l_addr, l_ld, and
    what is mapped there.  l_next is given by the position in the list of link maps. *)
Record lmap := mkLmap {
  lm_ptr : Z;
  lm_name : option cstr;
  lm_addr : Z;
  lm_ld : Z;
  lm_image : image }.

(** dynamic tags used (elf.h) *)
Definition DT_NULL : Z := 0.
Definition DT_PLTRELSZ : Z := 2.
Definition DT_PLTGOT : Z := 3.
Definition DT_HASH : Z := 4.
Definition DT_STRTAB : Z := 5.
Definition DT_SYMTAB : Z := 6.
Definition DT_RELA : Z := 7.
Definition DT_RELASZ : Z := 8.
Definition DT_RELAENT : Z := 9.
Definition DT_REL : Z := 17.
Definition DT_RELSZ : Z := 18.
Definition DT_RELENT : Z := 19.
Definition DT_PLTREL : Z := 20.
Definition DT_JMPREL : Z := 23.
Definition DT_GNU_HASH : Z := 1879047925.   (* 0x6ffffef5 *)
Definition DT_VERSYM : Z := 1879048176.     (* 0x6ffffff0 *)

(** the local variables declared by INIT_DYNAMIC, src/elf_ops.h:101-113 *)
Record dynvars := mkDV {
  dv_rela : Z; dv_rel : Z; dv_jmprel : Z; dv_symtab : Z; dv_gnu_hash : Z; dv_elf_hash : Z;
  dv_got : Z; dv_versym : Z; dv_strtab : Z;
  dv_rel_size : Z; dv_is_rela : bool; dv_rela_size : Z; dv_rela_esz : Z;
  dv_jmprel_size : Z; dv_rel_esz : Z }.

Definition dv_init : dynvars := mkDV 0 0 0 0 0 0 0 0 0 0 false 0 1 0 1.

(** one iteration of the switch in INIT_DYNAMIC, src/elf_ops.h:117-179;
    sizes are truncated to unsigned int as in the code *)
Definition dyn_step (v : dynvars) (tag val : Z) : dynvars :=
  if tag =? DT_REL then mkDV (dv_rela v) val (dv_jmprel v) (dv_symtab v) (dv_gnu_hash v) (dv_elf_hash v) (dv_got v) (dv_versym v) (dv_strtab v) (dv_rel_size v) (dv_is_rela v) (dv_rela_size v) (dv_rela_esz v) (dv_jmprel_size v) (dv_rel_esz v)
  else if tag =? DT_RELSZ then mkDV (dv_rela v) (dv_rel v) (dv_jmprel v) (dv_symtab v) (dv_gnu_hash v) (dv_elf_hash v) (dv_got v) (dv_versym v) (dv_strtab v) (u32 val) (dv_is_rela v) (dv_rela_size v) (dv_rela_esz v) (dv_jmprel_size v) (dv_rel_esz v)
  else if tag =? DT_RELENT then mkDV (dv_rela v) (dv_rel v) (dv_jmprel v) (dv_symtab v) (dv_gnu_hash v) (dv_elf_hash v) (dv_got v) (dv_versym v) (dv_strtab v) (dv_rel_size v) (dv_is_rela v) (dv_rela_size v) (dv_rela_esz v) (dv_jmprel_size v) (u32 val)
  else if tag =? DT_RELA then mkDV val (dv_rel v) (dv_jmprel v) (dv_symtab v) (dv_gnu_hash v) (dv_elf_hash v) (dv_got v) (dv_versym v) (dv_strtab v) (dv_rel_size v) (dv_is_rela v) (dv_rela_size v) (dv_rela_esz v) (dv_jmprel_size v) (dv_rel_esz v)
  else if tag =? DT_RELASZ then mkDV (dv_rela v) (dv_rel v) (dv_jmprel v) (dv_symtab v) (dv_gnu_hash v) (dv_elf_hash v) (dv_got v) (dv_versym v) (dv_strtab v) (dv_rel_size v) (dv_is_rela v) (u32 val) (dv_rela_esz v) (dv_jmprel_size v) (dv_rel_esz v)
  else if tag =? DT_RELAENT then mkDV (dv_rela v) (dv_rel v) (dv_jmprel v) (dv_symtab v) (dv_gnu_hash v) (dv_elf_hash v) (dv_got v) (dv_versym v) (dv_strtab v) (dv_rel_size v) (dv_is_rela v) (dv_rela_size v) (u32 val) (dv_jmprel_size v) (dv_rel_esz v)
  else if tag =? DT_PLTRELSZ then mkDV (dv_rela v) (dv_rel v) (dv_jmprel v) (dv_symtab v) (dv_gnu_hash v) (dv_elf_hash v) (dv_got v) (dv_versym v) (dv_strtab v) (dv_rel_size v) (dv_is_rela v) (dv_rela_size v) (dv_rela_esz v) (u32 val) (dv_rel_esz v)
  else if tag =? DT_PLTGOT then mkDV (dv_rela v) (dv_rel v) (dv_jmprel v) (dv_symtab v) (dv_gnu_hash v) (dv_elf_hash v) val (dv_versym v) (dv_strtab v) (dv_rel_size v) (dv_is_rela v) (dv_rela_size v) (dv_rela_esz v) (dv_jmprel_size v) (dv_rel_esz v)
  else if tag =? DT_HASH then mkDV (dv_rela v) (dv_rel v) (dv_jmprel v) (dv_symtab v) (dv_gnu_hash v) val (dv_got v) (dv_versym v) (dv_strtab v) (dv_rel_size v) (dv_is_rela v) (dv_rela_size v) (dv_rela_esz v) (dv_jmprel_size v) (dv_rel_esz v)
  else if tag =? DT_STRTAB then mkDV (dv_rela v) (dv_rel v) (dv_jmprel v) (dv_symtab v) (dv_gnu_hash v) (dv_elf_hash v) (dv_got v) (dv_versym v) val (dv_rel_size v) (dv_is_rela v) (dv_rela_size v) (dv_rela_esz v) (dv_jmprel_size v) (dv_rel_esz v)
  else if tag =? DT_SYMTAB then mkDV (dv_rela v) (dv_rel v) (dv_jmprel v) val (dv_gnu_hash v) (dv_elf_hash v) (dv_got v) (dv_versym v) (dv_strtab v) (dv_rel_size v) (dv_is_rela v) (dv_rela_size v) (dv_rela_esz v) (dv_jmprel_size v) (dv_rel_esz v)
  else if tag =? DT_PLTREL then mkDV (dv_rela v) (dv_rel v) (dv_jmprel v) (dv_symtab v) (dv_gnu_hash v) (dv_elf_hash v) (dv_got v) (dv_versym v) (dv_strtab v) (dv_rel_size v) (val =? DT_RELA) (dv_rela_size v) (dv_rela_esz v) (dv_jmprel_size v) (dv_rel_esz v)
  else if tag =? DT_JMPREL then mkDV (dv_rela v) (dv_rel v) val (dv_symtab v) (dv_gnu_hash v) (dv_elf_hash v) (dv_got v) (dv_versym v) (dv_strtab v) (dv_rel_size v) (dv_is_rela v) (dv_rela_size v) (dv_rela_esz v) (dv_jmprel_size v) (dv_rel_esz v)
  else if tag =? DT_GNU_HASH then mkDV (dv_rela v) (dv_rel v) (dv_jmprel v) (dv_symtab v) val (dv_elf_hash v) (dv_got v) (dv_versym v) (dv_strtab v) (dv_rel_size v) (dv_is_rela v) (dv_rela_size v) (dv_rela_esz v) (dv_jmprel_size v) (dv_rel_esz v)
  else if tag =? DT_VERSYM then mkDV (dv_rela v) (dv_rel v) (dv_jmprel v) (dv_symtab v) (dv_gnu_hash v) (dv_elf_hash v) (dv_got v) val (dv_strtab v) (dv_rel_size v) (dv_is_rela v) (dv_rela_size v) (dv_rela_esz v) (dv_jmprel_size v) (dv_rel_esz v)
  else v.

(** the dentry loop of INIT_DYNAMIC, src/elf_ops.h:116-180; a section without DT_NULL is overrun *)
Fixpoint dyn_loop (es : list (Z * Z)) (v : dynvars) : outcome dynvars :=
  match es with
  | [] => Fault OutOfBounds
  | (tag, val) :: r => if tag =? DT_NULL then Ok v else dyn_loop r (dyn_step v tag val)
  end.

(** INIT_DYNAMIC, src/elf_ops.h:100-197.  [None]: l_ld is NULL and the enclosing function
    returns -1.  The quotients rel_size/rel_esz and rela_size/rela_esz are always computed when
    the table exists, hence the division faults here. *)
Definition init_dynamic (m : lmap) : outcome (option dynvars) :=
  if lm_ld m =? 0 then Ok None
  else
    do v <- dyn_loop (im_dyn (lm_image m)) dv_init;
    if negb (dv_rel v =? 0) && (dv_rel_esz v =? 0) then Fault DivByZero
    else if negb (dv_rela v =? 0) && (dv_rela_esz v =? 0) then Fault DivByZero
    else Ok (Some v).

(** src/elf_ops.h:181-184; sizeof(ElfW(Rela)) = 24, sizeof(ElfW(Rel)) = 16 *)
Definition jmprel_count (v : dynvars) : Z := dv_jmprel_size v / (if dv_is_rela v then 24 else 16).
Definition rel_count (v : dynvars) : Z := if dv_rel v =? 0 then 0 else dv_rel_size v / dv_rel_esz v.
Definition rela_count (v : dynvars) : Z := if dv_rela v =? 0 then 0 else dv_rela_size v / dv_rela_esz v.

(** FOR_EACH_PLTREL_INT, src/elf_ops.h:213-220: the (offset, symbol name) pairs passed to op.
    R_SYM(info) = info >> 32 (src/gotcha_utils.h:85-89). *)
Fixpoint pltrel_int (im : image) (symtab strtab : Z) (relptr : list (Z * Z)) (count : nat) {struct count}
  : outcome (list (Z * cstr)) :=
  match count with
  | O => Ok []
  | S n =>
    match relptr with
    | [] => Fault OutOfBounds
    | (r_offset, r_info) :: r =>
      match nth_error (im_syms im symtab) (Z.to_nat (Z.shiftr r_info 32)) with
      | None => Fault OutOfBounds
      | Some sym =>
        do rest <- pltrel_int im symtab strtab r n;
        Ok ((r_offset, im_str im (strtab + st_name sym)) :: rest)
      end
    end
  end.

(** FOR_EACH_PLTREL, src/elf_ops.h:236-254.  [None]: returned early because l_ld is NULL.
    The sequence of (offset, name) passed to op; op cannot influence the iteration. *)
Definition for_each_pltrel (m : lmap) : outcome (option (list (Z * cstr))) :=
  do ov <- init_dynamic m;
  match ov with
  | None => Ok None
  | Some v =>
    let im := lm_image m in
    if dv_is_rela v then
      do jmp <- pltrel_int im (dv_symtab v) (dv_strtab v) (im_relas im (dv_jmprel v)) (Z.to_nat (jmprel_count v));
      do rest <- (if negb (dv_rela v =? 0)
                  then pltrel_int im (dv_symtab v) (dv_strtab v) (im_relas im (dv_rela v)) (Z.to_nat (rela_count v))
                  else Ok []);
      Ok (Some (jmp ++ rest))
    else
      do jmp <- pltrel_int im (dv_symtab v) (dv_strtab v) (im_rels im (dv_jmprel v)) (Z.to_nat (jmprel_count v));
      do rest <- (if negb (dv_rel v =? 0)
                  then pltrel_int im (dv_symtab v) (dv_strtab v) (im_rels im (dv_rel v)) (Z.to_nat (rel_count v))
                  else Ok []);
      Ok (Some (jmp ++ rest))
  end.

(** gnu_hash_func, src/elf_ops.c:29-35: characters are (signed) char *)
Definition gnu_hash_func (s : cstr) : Z :=
  fold_left (fun h c => u32 (h * 33 + schar c)) s 5381.

(** version selection state of both lookups: (latest_sym, latest_sym_ver), -1 as [None] *)
Definition vstate : Type := (option Z * Z)%type.

(** body executed for a name match, src/elf_ops.c:72-80 and 115-123.
    [inl r]: return r; [inr st]: continue. *)
Definition on_match (versym : option (list Z)) (cur : Z) (st : vstate) : outcome (option Z + vstate) :=
  match versym with
  | None => Ok (inl (Some cur))
  | Some vs =>
    match nth_error vs (Z.to_nat cur) with
    | None => Fault OutOfBounds
    | Some v =>
      let ver := Z.land v 32767 in
      if ver >? snd st then Ok (inr (Some cur, ver)) else Ok (inr st)
    end
  end.

(** for(;;) loop of lookup_gnu_hash_symbol, src/elf_ops.c:69-86.
    [vals] is the hash value array; uint32_t arithmetic on cur_sym. *)
Fixpoint gnu_loop (fuel : nat) (name : cstr) (syms : list esym) (versym : option (list Z)) (str : Z -> cstr)
    (vals : list Z) (symndx hash_val cur_sym : Z) (st : vstate) : outcome (option Z) :=
  match fuel with
  | O => Fault NoTermination
  | S f =>
    match nth_error vals (Z.to_nat (u32 (cur_sym - symndx))) with
    | None => Fault OutOfBounds
    | Some v =>
      do step <-
        (if Z.land v (Z.lnot 1) =? hash_val
         then match nth_error syms (Z.to_nat cur_sym) with
              | None => Fault OutOfBounds
              | Some s =>
                if libc_strcmp name (str (st_name s)) =? 0
                then on_match versym cur_sym st
                else Ok (inr st)
              end
         else Ok (inr st));
      match step with
      | inl r => Ok r
      | inr st' =>
        if negb (Z.land v 1 =? 0) then Ok (fst st')
        else gnu_loop f name syms versym str vals symndx hash_val (u32 (cur_sym + 1)) st'
      end
    end
  end.

(** lookup_gnu_hash_symbol, src/elf_ops.c:48-89.  [words] is the table as 32-bit words: header of
    four words (struct gnu_hash_header, lines 21-27), 2*maskwords bloom words, buckets, values. *)
Definition lookup_gnu_hash_symbol (name : cstr) (syms : list esym) (versym : option (list Z))
    (str : Z -> cstr) (words : list Z) : outcome (option Z) :=
  match words with
  | nbuckets :: symndx :: maskwords :: _ :: rest =>
    let buckets := skipn (Z.to_nat (2 * maskwords)) rest in
    let vals := skipn (Z.to_nat nbuckets) buckets in
    let hash_val := gnu_hash_func name in
    if nbuckets =? 0 then Fault DivByZero
    else
      match nth_error buckets (Z.to_nat (hash_val mod nbuckets)) with
      | None => Fault OutOfBounds
      | Some cur_sym =>
        if cur_sym =? 0 then Ok None
        else gnu_loop (S (length vals)) name syms versym str vals symndx
               (Z.land hash_val (Z.lnot 1)) cur_sym (None, 0)
      end
  | _ => Fault OutOfBounds
  end.

(** elf_hash, src/elf_ops.c:91-101: h is unsigned int, characters are unsigned *)
Definition elf_hash_step (h c : Z) : Z :=
  let h := u32 (u32 (Z.shiftl h 4) + c) in
  let g := Z.land h 4026531840 in              (* 0xf0000000 *)
  let h := if negb (g =? 0) then Z.lxor h (Z.shiftr g 24) else h in
  Z.land h (Z.lnot g).
Definition elf_hash (s : cstr) : Z := fold_left elf_hash_step s 0.

(** while loop of lookup_elf_hash_symbol, src/elf_ops.c:114-127 *)
Fixpoint elf_loop (fuel : nat) (name : cstr) (syms : list esym) (versym : option (list Z)) (str : Z -> cstr)
    (chains : list Z) (y : Z) (st : vstate) : outcome (option Z) :=
  if y =? 0 then Ok (fst st)
  else
    match fuel with
    | O => Fault NoTermination
    | S f =>
      match nth_error syms (Z.to_nat y) with
      | None => Fault OutOfBounds
      | Some s =>
        do step <- (if libc_strcmp name (str (st_name s)) =? 0 then on_match versym y st else Ok (inr st));
        match step with
        | inl r => Ok r
        | inr st' =>
          match nth_error chains (Z.to_nat y) with
          | None => Fault OutOfBounds
          | Some y' => elf_loop f name syms versym str chains y' st'
          end
        end
      end
    end.

(** lookup_elf_hash_symbol, src/elf_ops.c:103-130: words are nbucket, nchain, buckets, chains *)
Definition lookup_elf_hash_symbol (name : cstr) (syms : list esym) (versym : option (list Z))
    (str : Z -> cstr) (words : list Z) : outcome (option Z) :=
  match words with
  | nbucket :: _ :: buckets =>
    let chains := skipn (Z.to_nat nbucket) buckets in
    let x := elf_hash name in
    if nbucket =? 0 then Fault DivByZero
    else
      match nth_error buckets (Z.to_nat (x mod nbucket)) with
      | None => Fault OutOfBounds
      | Some y => elf_loop (S (length chains)) name syms versym str chains y (None, 0)
      end
  | _ => Fault OutOfBounds
  end.

(** GOTCHA_CHECK_VISIBILITY, src/elf_ops.h:31 *)
Definition check_visibility (s : esym) : bool := st_size s >? 0.

(** lookup_exported_symbol, src/gotcha.c:55-96.  [is_vdso] is the answer of is_vdso(lib).
    [Some a]: found, *symbol = a; [None]: -1. *)
Definition lookup_exported_symbol (is_vdso : bool) (name : cstr) (lib : lmap) : outcome (option Z) :=
  if is_vdso then Ok None
  else
    do ov <- init_dynamic lib;
    match ov with
    | None => Ok None
    | Some v =>
      let im := lm_image lib in
      let syms := im_syms im (dv_symtab v) in
      let versym := if dv_versym v =? 0 then None else Some (im_halfs im (dv_versym v)) in
      let str := fun off => im_str im (dv_strtab v + off) in
      if (dv_gnu_hash v =? 0) && (dv_elf_hash v =? 0) then Ok None
      else
        do result <- (if negb (dv_gnu_hash v =? 0)
                      then lookup_gnu_hash_symbol name syms versym str (im_words im (dv_gnu_hash v))
                      else Ok None);
        do result <- (if negb (dv_elf_hash v =? 0) && (match result with None => true | Some _ => false end)
                      then lookup_elf_hash_symbol name syms versym str (im_words im (dv_elf_hash v))
                      else Ok result);
        match result with
        | None => Ok None
        | Some i =>
          match nth_error syms (Z.to_nat i) with
          | None => Fault OutOfBounds
          | Some s =>
            if negb (check_visibility s) then Ok None
            else Ok (Some (u64 (st_value s + lm_addr lib)))
          end
        end
    end.

(** *** mprotect ranges *)

(** program headers as delivered by dl_iterate_phdr *)
Record phdr := mkPhdr { p_type : Z; p_vaddr : Z; p_memsz : Z }.
Record phdr_info := mkPhi { dlpi_name : cstr; dlpi_addr : Z; dlpi_phdr : list phdr }.
Definition PT_LOAD : Z := 1.
Definition PT_DYNAMIC : Z := 2.
Definition PT_GNU_RELRO : Z := 1685382482.  (* 0x6474e552 *)

(** find_relro_boundary, src/gotcha.c:239-262: [Some (start, end)] iff it sets found and returns 1 *)
Definition find_relro_boundary (l_name : cstr) (load_addr : Z) (info : phdr_info) : option (Z * Z) :=
  let found := existsb (fun p => (p_type p =? PT_LOAD) && (libc_strcmp l_name (dlpi_name info) =? 0)
                                  && (load_addr =? dlpi_addr info)) (dlpi_phdr info) in
  if found then
    match find (fun p => p_type p =? PT_GNU_RELRO) (dlpi_phdr info) with
    | Some p => let s := u64 (load_addr + p_vaddr p) in Some (s, u64 (s + p_memsz p))
    | None => None
    end
  else None.

(** dl_iterate_phdr: calls the callback on each object until it returns nonzero *)
Fixpoint iterate_phdr {A} (cb : phdr_info -> option A) (infos : list phdr_info) : option A :=
  match infos with
  | [] => None
  | i :: r => match cb i with Some a => Some a | None => iterate_phdr cb r end
  end.

(** BOUNDARY_BEFORE, src/gotcha_utils.h:99-100 *)
Definition boundary_before (p ps : Z) : Z := Z.land p (u64 (- ps)).

(** round up as in src/gotcha.c:272-274 and 284-286 *)
Definition round_up (x ps : Z) : Z := if x mod ps =? 0 then x else u64 (x + (ps - x mod ps)).

(** mark_got_writable, src/gotcha.c:264-360: the list of gotcha_mprotect (address, length) calls.
    mprotect failures are only reported, not acted upon. *)
Definition mark_got_writable (ps : Z) (infos : list phdr_info) (lib : lmap) : outcome (list (Z * Z)) :=
  do ov <- init_dynamic lib;
  match ov with
  | None => Ok []
  | Some v =>
    if dv_got v =? 0 then Ok []
    else if ps =? 0 then Fault DivByZero
    else
      let plt_got_size := round_up (Z.max (dv_rel_size v) ps) ps in
      let plt_got_addr := boundary_before (dv_got v) ps in
      match lm_name lib with
      | None => Fault NullDeref
      | Some nm =>
        match iterate_phdr (find_relro_boundary nm (lm_addr lib)) infos with
        | Some (start_addr, end_addr) =>
          let got_end := round_up (Z.max end_addr ps) ps in
          let got_addr := boundary_before start_addr ps in
          let got_size := u64 (got_end - got_addr) in
          if got_addr =? u64 (plt_got_addr + plt_got_size)
          then Ok [(plt_got_addr, u64 (plt_got_size + got_size))]
          else if plt_got_addr =? u64 (got_addr + got_size)
          then Ok [(got_addr, u64 (plt_got_size + got_size))]
          else Ok [(got_addr, got_size); (plt_got_addr, plt_got_size)]
        | None => Ok [(plt_got_addr, plt_got_size)]
        end
      end
  end.
