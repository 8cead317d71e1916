(** Vocabulary from the ELF tables to calls, with the numbers of the ELF format written out: nothing here refers to what
    GOTCHA reads out of a library. *)
From Verif Require Import Base ElfModel SpecElf ToolModel CoreModel SpecCore.

(** [dyn_get es t 0] is the value of the last entry with tag [t].  Tags: 2 DT_PLTRELSZ, 4 DT_HASH, 5 DT_STRTAB, 6 DT_SYMTAB, 7 DT_RELA,
    8 DT_RELASZ, 9 DT_RELAENT, 17 DT_REL, 18 DT_RELSZ, 19 DT_RELENT, 20 DT_PLTREL, 23 DT_JMPREL, 0x6ffffef5 DT_GNU_HASH,
    0x6ffffff0 DT_VERSYM *)

(** entry number [k] of one of the two relocation tables of a library whose DT_PLTREL says RELA or something else *)
Definition reloc_entry (m : lmap) (es : list (Z * Z)) (k : nat) (r : Z * Z) : Prop :=
  let im := lm_image m in
  if dyn_get es 20 0 =? 7 then
    (nth_error (im_relas im (dyn_get es 23 0)) k = Some r /\ Z.of_nat k < dyn_get es 2 0 / 24) \/
    (dyn_get es 7 0 <> 0 /\ nth_error (im_relas im (dyn_get es 7 0)) k = Some r /\ Z.of_nat k < dyn_get es 8 0 / dyn_get es 9 1)
  else
    (nth_error (im_rels im (dyn_get es 23 0)) k = Some r /\ Z.of_nat k < dyn_get es 2 0 / 16) \/
    (dyn_get es 17 0 <> 0 /\ nth_error (im_rels im (dyn_get es 17 0)) k = Some r /\ Z.of_nat k < dyn_get es 18 0 / dyn_get es 19 1).
(** symbol number [i] of the library and its name *)
Definition symbol (m : lmap) (es : list (Z * Z)) (i : Z) (s : esym) (n : cstr) : Prop :=
  nth_error (im_syms (lm_image m) (dyn_get es 6 0)) (Z.to_nat i) = Some s /\ n = im_str (lm_image m) (dyn_get es 5 0 + st_name s).
(** the word at [x] is the library's slot for calls of [n]: a relocation entry has this offset and this symbol *)
Definition calls_through (m : lmap) (n : cstr) (x : Z) : Prop :=
  exists es k off info s, dyn_entries (im_dyn (lm_image m)) = Some es /\ reloc_entry m es k (off, info) /\
    symbol m es (info / 4294967296) s n /\ x = (lm_addr m + off) mod 18446744073709551616.
(** the library has a symbol of this name and of nonzero size, at address [a] *)
Definition has_function (m : lmap) (n : cstr) (a : Z) : Prop :=
  exists es i s, dyn_entries (im_dyn (lm_image m)) = Some es /\ symbol m es i s n /\ 0 < st_size s /\
    a = (st_value s + lm_addr m) mod 18446744073709551616.
(** symbol [i] is one the hash tables list, and its version index, if there are any, is not that of a local symbol *)
Definition listed (m : lmap) (es : list (Z * Z)) (i : Z) : Prop :=
  let n := Z.of_nat (length (im_syms (lm_image m) (dyn_get es 6 0))) in
  ((dyn_get es 1879047925 0 <> 0 /\ exists nb first r, im_words (lm_image m) (dyn_get es 1879047925 0) = nb :: first :: r /\ first <= i < n) \/
   (dyn_get es 4 0 <> 0 /\ 0 < i < n)) /\
  (dyn_get es 1879048176 0 = 0 \/ exists v, nth_error (im_halfs (lm_image m) (dyn_get es 1879048176 0)) (Z.to_nat i) = Some v /\ v mod 32768 <> 0).

(** Where a call goes that arrives at [p]: as long as that is one of the wrappers [l], it passes it and goes on to what
    gotcha_get_wrappee returns for the wrapper's handle; it leaves at [q]. *)
Inductive passes (st : state) (l : list entry) : wptr -> list Z -> wptr -> Prop :=
| pass_out p : (forall x, In x l -> p <> Ptr (en_wrapper x)) -> passes st l p [] p
| pass_in x p path q : In x l -> gotcha_get_wrappee st (en_handle x) = Ok p -> passes st l p path q ->
    passes st l (Ptr (en_wrapper x)) (en_wrapper x :: path) q.
