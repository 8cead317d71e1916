(** Independent specification of the ELF parts: what the ABI documents say about hash tables,
    versions, relocation tables and page ranges.  Refers to the model only for the types of
    images and link maps. *)
From Verif Require Import Base ElfModel.

(** *** symbol names *)
Definition sym_name (syms : list esym) (str : Z -> cstr) (i : Z) : option cstr :=
  match nth_error syms (Z.to_nat i) with Some s => Some (str (st_name s)) | None => None end.

(** *** GNU hash (ABI): bytes are unsigned *)
Definition gnu_hash_abi (s : cstr) : Z := fold_left (fun h c => (h * 33 + c) mod 2 ^ 32) s 5381.

(** maximal run of symbol indices starting at [s], ended by the first odd hash word *)
Inductive gnu_chain (vals : list Z) (symndx : Z) : Z -> list Z -> Prop :=
| gc_last s v : symndx <= s -> nth_error vals (Z.to_nat (s - symndx)) = Some v -> v mod 2 = 1 ->
    gnu_chain vals symndx s [s]
| gc_more s v r : symndx <= s -> nth_error vals (Z.to_nat (s - symndx)) = Some v -> v mod 2 = 0 ->
    gnu_chain vals symndx (s + 1) r -> gnu_chain vals symndx s (s :: r).

Record wf_gnu (syms : list esym) (str : Z -> cstr) (words : list Z)
    (nb symndx : Z) (buckets vals : list Z) : Prop := {
  wg_words : exists mw sh bloom, words = nb :: symndx :: mw :: sh :: bloom ++ buckets ++ vals /\
               Z.of_nat (length bloom) = 2 * mw /\ 0 <= mw;
  wg_nb : 0 < nb /\ Z.of_nat (length buckets) = nb;
  wg_ndx : 0 < symndx /\ Z.of_nat (length syms) < 2 ^ 32;
  wg_vals : Z.of_nat (length vals) = Z.of_nat (length syms) - symndx;
  (* every bucket is empty or starts a terminated chain *)
  wg_chain : forall b s, nth_error buckets b = Some s -> s = 0 \/ exists ch, gnu_chain vals symndx s ch;
  (* every covered symbol is in the chain of its bucket and its hash word agrees with its name *)
  wg_cover : forall i n, symndx <= i < Z.of_nat (length syms) -> sym_name syms str i = Some n ->
    (exists v, nth_error vals (Z.to_nat (i - symndx)) = Some v /\ v / 2 = gnu_hash_abi n / 2) /\
    (exists s ch, nth_error buckets (Z.to_nat (gnu_hash_abi n mod nb)) = Some s /\
       gnu_chain vals symndx s ch /\ In i ch) }.

(** *** SysV hash (ABI), written arithmetically *)
Definition sysv_step (h c : Z) : Z :=
  let t := (h * 16 + c) mod 2 ^ 32 in
  Z.lxor (t mod 2 ^ 28) ((t / 2 ^ 28) * 16).
Definition sysv_hash_abi (s : cstr) : Z := fold_left sysv_step s 0.

Inductive sysv_chain (chains : list Z) : Z -> list Z -> Prop :=
| sc_end : sysv_chain chains 0 []
| sc_next y y' r : 0 < y -> nth_error chains (Z.to_nat y) = Some y' -> sysv_chain chains y' r ->
    sysv_chain chains y (y :: r).

Record wf_sysv (syms : list esym) (str : Z -> cstr) (words : list Z)
    (nb : Z) (buckets chains : list Z) : Prop := {
  ws_words : exists nchain, words = nb :: nchain :: buckets ++ chains;
  ws_nb : 0 < nb /\ Z.of_nat (length buckets) = nb;
  ws_len : length chains = length syms;
  ws_chain : forall b s, nth_error buckets b = Some s -> exists ch, sysv_chain chains s ch;
  ws_cover : forall i n, 0 < i < Z.of_nat (length syms) -> sym_name syms str i = Some n ->
    exists s ch, nth_error buckets (Z.to_nat (sysv_hash_abi n mod nb)) = Some s /\
      sysv_chain chains s ch /\ In i ch }.

(** *** versions *)
Definition version_of (vs : list Z) (i : Z) : Z :=
  match nth_error vs (Z.to_nat i) with Some v => v mod 2 ^ 15 | None => 0 end.

(** which of the matching symbols [ms] (in chain order) is to be returned *)
Definition selects (versym : option (list Z)) (ms : list Z) (r : option Z) : Prop :=
  match versym with
  | None => r = hd_error ms
  | Some vs =>
    match r with
    | None => forall j, In j ms -> version_of vs j = 0
    | Some i => exists l1 l2, ms = l1 ++ i :: l2 /\ 0 < version_of vs i /\
                  (forall j, In j l1 -> version_of vs j < version_of vs i) /\
                  (forall j, In j l2 -> version_of vs j <= version_of vs i)
    end
  end.

Definition versym_ok (versym : option (list Z)) (syms : list esym) : Prop :=
  match versym with
  | None => True
  | Some vs => (length syms <= length vs)%nat /\ Forall (fun v => 0 <= v < 2 ^ 16) vs
  end.

Definition name_is (syms : list esym) (str : Z -> cstr) (name : cstr) (i : Z) : bool :=
  match sym_name syms str i with Some n => cstr_eqb n name | None => false end.

Definition ascii (s : cstr) : Prop := Forall (fun c => 0 <= c < 128) s.
(** names whose bytes above 127 do not disturb a hash computed with signed characters: the sum of 33^k over these
    bytes, k being the number of bytes after it, is a multiple of 2^24; in particular all ASCII names *)
Fixpoint high_sum (s : cstr) : Z :=
  match s with [] => 0 | c :: r => (if 127 <? c then 33 ^ Z.of_nat (length r) else 0) + high_sum r end.
Definition plain (s : cstr) : Prop := Forall (fun c => 0 <= c <= 255) s /\ high_sum s mod 2 ^ 24 = 0.
(** how many bytes above 127 there are *)
Definition high_count (s : cstr) : nat := length (filter (fun c => 127 <? c) s).

(** *** dynamic section: the last entry with a tag, before the terminating DT_NULL, counts *)
Fixpoint dyn_entries (d : list (Z * Z)) : option (list (Z * Z)) :=
  match d with
  | [] => None
  | (t, v) :: r => if t =? 0 then Some []
                   else match dyn_entries r with Some es => Some ((t, v) :: es) | None => None end
  end.
Definition dyn_get (es : list (Z * Z)) (tag dflt : Z) : Z :=
  match find (fun e => fst e =? tag) (rev es) with Some e => snd e | None => dflt end.

(** *** relocations a library asks for *)
Definition reloc_pair (im : image) (symtab strtab : Z) (r : Z * Z) : option (Z * cstr) :=
  match sym_name (im_syms im symtab) (fun off => im_str im (strtab + off)) (snd r / 2 ^ 32) with
  | Some n => Some (fst r, n)
  | None => None
  end.

(** relocation table of [size] bytes in entries of [esz] bytes *)
Definition table_prefix (tbl : list (Z * Z)) (size esz : Z) : list (Z * Z) :=
  firstn (Z.to_nat (size / esz)) tbl.

(** the two tables of a library whose DT_PLTREL says [rela] *)
Definition plt_table (im : image) (es : list (Z * Z)) (rela : bool) : list (Z * Z) :=
  if rela then table_prefix (im_relas im (dyn_get es DT_JMPREL 0)) (dyn_get es DT_PLTRELSZ 0) 24
  else table_prefix (im_rels im (dyn_get es DT_JMPREL 0)) (dyn_get es DT_PLTRELSZ 0) 16.
Definition data_table (im : image) (es : list (Z * Z)) (rela : bool) : list (Z * Z) :=
  if rela then
    if dyn_get es DT_RELA 0 =? 0 then []
    else table_prefix (im_relas im (dyn_get es DT_RELA 0)) (dyn_get es DT_RELASZ 0) (dyn_get es DT_RELAENT 1)
  else
    if dyn_get es DT_REL 0 =? 0 then []
    else table_prefix (im_rels im (dyn_get es DT_REL 0)) (dyn_get es DT_RELSZ 0) (dyn_get es DT_RELENT 1).

(** a library with a sane dynamic section *)
Record wf_dyn (m : lmap) (es : list (Z * Z)) : Prop := {
  wd_ld : lm_ld m <> 0;
  wd_es : dyn_entries (im_dyn (lm_image m)) = Some es;
  wd_sizes : forall tag, In tag [DT_RELSZ; DT_RELENT; DT_RELASZ; DT_RELAENT; DT_PLTRELSZ] ->
               0 <= dyn_get es tag 1 < 2 ^ 32;
  wd_ent : 0 < dyn_get es DT_RELENT 1 /\ 0 < dyn_get es DT_RELAENT 1 }.

(** the tables are as long as the dynamic section says and name existing symbols *)
Definition tables_complete (m : lmap) (es : list (Z * Z)) (rela : bool) : Prop :=
  let im := lm_image m in
  (let t := (if rela then im_relas im else im_rels im) (dyn_get es DT_JMPREL 0) in
   dyn_get es DT_PLTRELSZ 0 / (if rela then 24 else 16) <= Z.of_nat (length t)) /\
  (if rela then
     dyn_get es DT_RELA 0 <> 0 ->
     dyn_get es DT_RELASZ 0 / dyn_get es DT_RELAENT 1 <= Z.of_nat (length (im_relas im (dyn_get es DT_RELA 0)))
   else
     dyn_get es DT_REL 0 <> 0 ->
     dyn_get es DT_RELSZ 0 / dyn_get es DT_RELENT 1 <= Z.of_nat (length (im_rels im (dyn_get es DT_REL 0)))) /\
  (forall r, In r (plt_table im es rela ++ data_table im es rela) ->
     0 <= snd r /\ (Z.to_nat (snd r / 2 ^ 32) < length (im_syms im (dyn_get es DT_SYMTAB 0)))%nat).

(** *** page ranges *)
(** page number of an address *)
Definition page (ps a : Z) : Z := a / ps.
(** the pages touched by the mprotect call (addr, len) *)
Definition covers (ps : Z) (calls : list (Z * Z)) (pg : Z) : Prop :=
  exists a n, In (a, n) calls /\ page ps a <= pg < page ps (a + n).

(** the RELRO segment of the object with this name and load address: its first PT_GNU_RELRO header (type 0x6474e552; PT_LOAD is 1) *)
Definition is_object (nm : cstr) (addr : Z) (i : phdr_info) : bool :=
  cstr_eqb nm (dlpi_name i) && (addr =? dlpi_addr i)
  && existsb (fun p => p_type p =? 1) (dlpi_phdr i)
  && existsb (fun p => p_type p =? 1685382482) (dlpi_phdr i).
Definition relro_range (nm : cstr) (addr : Z) (infos : list phdr_info) : option (Z * Z) :=
  match find (is_object nm addr) infos with
  | Some i => match find (fun p => p_type p =? 1685382482) (dlpi_phdr i) with
              | Some p => Some (addr + p_vaddr p, addr + p_vaddr p + p_memsz p)
              | None => None
              end
  | None => None
  end.

(** number of pages needed for [n] bytes starting at a page boundary *)
Definition pages_for (ps n : Z) : Z := (n + ps - 1) / ps.

(** *** the exported symbol of a library *)
Section Lib.
Context (lib : lmap) (es : list (Z * Z)).
Definition l_syms : list esym := im_syms (lm_image lib) (dyn_get es DT_SYMTAB 0).
Definition l_str (off : Z) : cstr := im_str (lm_image lib) (dyn_get es DT_STRTAB 0 + off).
Definition l_versym : option (list Z) :=
  if dyn_get es DT_VERSYM 0 =? 0 then None else Some (im_halfs (lm_image lib) (dyn_get es DT_VERSYM 0)).
Definition l_gnu : list Z := im_words (lm_image lib) (dyn_get es DT_GNU_HASH 0).
Definition l_sysv : list Z := im_words (lm_image lib) (dyn_get es DT_HASH 0).
Definition has_gnu : Prop := dyn_get es DT_GNU_HASH 0 <> 0.
Definition has_sysv : Prop := dyn_get es DT_HASH 0 <> 0.

(** a library whose symbol tables are in order *)
Record wf_lookup : Prop := {
  wl_dyn : wf_dyn lib es;
  wl_ver : versym_ok l_versym l_syms;
  wl_gnu : has_gnu -> exists nb sx b v, wf_gnu l_syms l_str l_gnu nb sx b v;
  wl_sysv : has_sysv -> exists nb b c, wf_sysv l_syms l_str l_sysv nb b c }.

(** the symbol the GNU (SysV) table gives for a name: chosen by [selects] among the symbols of the
    name's hash chain that carry the name *)
Definition gnu_result (name : cstr) (r : option Z) : Prop :=
  exists nb sx b v s ch, wf_gnu l_syms l_str l_gnu nb sx b v /\
    nth_error b (Z.to_nat (gnu_hash_abi name mod nb)) = Some s /\
    (s = 0 /\ ch = [] \/ gnu_chain v sx s ch) /\
    selects l_versym (filter (name_is l_syms l_str name) ch) r.
Definition sysv_result (name : cstr) (r : option Z) : Prop :=
  exists nb b c s ch, wf_sysv l_syms l_str l_sysv nb b c /\
    nth_error b (Z.to_nat (sysv_hash_abi name mod nb)) = Some s /\
    sysv_chain c s ch /\
    selects l_versym (filter (name_is l_syms l_str name) ch) r.
(** GNU first, then SysV *)
Definition symbol_result (name : cstr) (r : option Z) : Prop :=
  (has_gnu /\ r <> None /\ gnu_result name r) \/
  ((~ has_gnu \/ gnu_result name None) /\ ((has_sysv /\ sysv_result name r) \/ (~ has_sysv /\ r = None))).

(** the same for a reader whose GNU table fails for names that are not plain *)
Definition found_result (name : cstr) (r : option Z) : Prop :=
  if high_sum name mod 2 ^ 24 =? 0 then symbol_result name r
  else (has_sysv /\ sysv_result name r) \/ (~ has_sysv /\ r = None).

(** symbol [i] is covered by one of the library's hash tables: the GNU table starts at the index in its
    second word, the SysV table covers all but the null symbol *)
Definition covered (i : Z) : Prop :=
  (has_gnu /\ match l_gnu with _ :: sx :: _ => sx <= i < Z.of_nat (length l_syms) | _ => False end) \/
  (has_sysv /\ 0 < i < Z.of_nat (length l_syms)).
(** its version index is not that of a local symbol *)
Definition versioned (i : Z) : Prop :=
  match l_versym with None => True | Some vs => 0 < version_of vs i end.

(** address of a symbol: value + load address, only for symbols with nonzero size *)
Definition symbol_address (i : Z) : option Z :=
  match nth_error l_syms (Z.to_nat i) with
  | Some s => if 0 <? st_size s then Some ((st_value s + lm_addr lib) mod 2 ^ 64) else None
  | None => None
  end.

(** where a direct call to symbol [s] ends: for an IFUNC, wherever its resolver says *)
Definition STT_GNU_IFUNC : Z := 10.
Definition call_target (resolver : Z -> Z) (s : esym) : Z :=
  let a := (st_value s + lm_addr lib) mod 2 ^ 64 in
  if st_type s =? STT_GNU_IFUNC then resolver a else a.
End Lib.

(** *** a library all of whose tables are in order (names in its string table may be arbitrary bytes) *)
Definition lib_wf (m : lmap) : Prop :=
  lm_name m <> None /\
  exists es, wf_lookup m es /\ tables_complete m es (dyn_get es DT_PLTREL 0 =? DT_RELA).
