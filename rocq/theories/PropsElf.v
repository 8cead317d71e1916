(** Properties C34-C38, C40, C41 and the per-library part of C39: src/elf_ops.[ch],
    lookup_exported_symbol and mark_got_writable of src/gotcha.c. *)
From Verif Require Import Base ListFacts ElfModel SpecElf ElfProofs.
From Coq Require String.
Import String.StringSyntax.
Open Scope string_scope.
Open Scope list_scope.
Open Scope Z_scope.

(** C34: whatever the tables contain, an index found names the requested symbol ... *)
Theorem C34_lookup_sound : forall name syms versym str words i,
  lookup_gnu_hash_symbol name syms versym str words = Ok (Some i) \/
  lookup_elf_hash_symbol name syms versym str words = Ok (Some i) ->
  sym_name syms str i = Some name.
Proof. exact lookup_sound_thm. Qed.
Print Assumptions C34_lookup_sound.

(** ... and the address returned for a library is that of such a symbol. *)
Theorem C34_exported_sound : forall lib name a,
  lookup_exported_symbol false name lib = Ok (Some a) ->
  exists es i s, dyn_entries (im_dyn (lm_image lib)) = Some es /\ nth_error (l_syms lib es) (Z.to_nat i) = Some s /\
    sym_name (l_syms lib es) (l_str lib es) i = Some name /\ 0 < st_size s /\ a = (st_value s + lm_addr lib) mod 2 ^ 64.
Proof. exact exported_sound_thm. Qed.
Print Assumptions C34_exported_sound.

(** C35, plain names only, e.g. names of ASCII characters (see the refutation and the laws below): every covered
    symbol with a nonzero version index is found. *)
Theorem C35_gnu_hash_complete_partial : forall name syms versym str words nb symndx buckets vals i,
  wf_gnu syms str words nb symndx buckets vals -> versym_ok versym syms -> plain name ->
  symndx <= i < Z.of_nat (length syms) -> sym_name syms str i = Some name ->
  match versym with None => True | Some vs => 0 < version_of vs i end ->
  exists j, lookup_gnu_hash_symbol name syms versym str words = Ok (Some j) /\ sym_name syms str j = Some name.
Proof. exact gnu_complete_thm. Qed.
Print Assumptions C35_gnu_hash_complete_partial.

(** C36: which symbol of the hash chain is returned, GNU table and SysV table. *)
Theorem C36_version_gnu : forall name syms versym str words nb symndx buckets vals,
  wf_gnu syms str words nb symndx buckets vals -> versym_ok versym syms -> plain name ->
  exists r s ch, lookup_gnu_hash_symbol name syms versym str words = Ok r /\
    nth_error buckets (Z.to_nat (gnu_hash_abi name mod nb)) = Some s /\
    (s = 0 /\ ch = [] \/ gnu_chain vals symndx s ch) /\
    selects versym (filter (name_is syms str name) ch) r.
Proof. exact gnu_lookup_thm. Qed.
Print Assumptions C36_version_gnu.

Theorem C36_version_sysv : forall name syms versym str words nb buckets chains,
  wf_sysv syms str words nb buckets chains -> versym_ok versym syms -> Forall (fun c => 0 <= c <= 255) name ->
  exists r s ch, lookup_elf_hash_symbol name syms versym str words = Ok r /\
    nth_error buckets (Z.to_nat (sysv_hash_abi name mod nb)) = Some s /\
    sysv_chain chains s ch /\ selects versym (filter (name_is syms str name) ch) r.
Proof. exact sysv_lookup_thm. Qed.
Print Assumptions C36_version_sysv.

(** C37: all byte values. *)
Theorem C37_sysv_complete : forall name syms versym str words nb buckets chains i,
  wf_sysv syms str words nb buckets chains -> versym_ok versym syms -> Forall (fun c => 0 <= c <= 255) name ->
  0 < i < Z.of_nat (length syms) -> sym_name syms str i = Some name ->
  match versym with None => True | Some vs => 0 < version_of vs i end ->
  exists j, lookup_elf_hash_symbol name syms versym str words = Ok (Some j) /\ sym_name syms str j = Some name.
Proof. exact sysv_complete_thm. Qed.
Print Assumptions C37_sysv_complete.

Theorem C37_sysv_hash_is_abi : forall s, Forall (fun c => 0 <= c <= 255) s ->
  elf_hash s = sysv_hash_abi s /\ 0 <= elf_hash s < 2 ^ 28.
Proof. exact elf_hash_abi. Qed.
Print Assumptions C37_sysv_hash_is_abi.

(** C38, for libraries that say which relocation flavour they use (DT_PLTREL present). *)
Theorem C38_relocations_partial : forall m es rela,
  wf_dyn m es -> dyn_get es DT_PLTREL 0 = (if rela : bool then DT_RELA else DT_REL) ->
  tables_complete m es rela ->
  exists l, for_each_pltrel m = Ok (Some l) /\
    map Some l = map (reloc_pair (lm_image m) (dyn_get es DT_SYMTAB 0) (dyn_get es DT_STRTAB 0))
                   (plt_table (lm_image m) es rela ++ data_table (lm_image m) es rela).
Proof. exact pltrel_thm. Qed.
Print Assumptions C38_relocations_partial.

(** C39 for one library: the address found is that of the symbol selected by the GNU table, or by the
    SysV table if there is none, provided it has nonzero size. *)
Theorem C39_library_lookup : forall lib es name, wf_lookup lib es -> plain name ->
  exists r, symbol_result lib es name r /\
    lookup_exported_symbol false name lib = Ok (match r with Some i => symbol_address lib es i | None => None end).
Proof. exact exported_thm. Qed.
Print Assumptions C39_library_lookup.

(** C40 for names without IFUNC or zero-size symbols: every covered function is found, at the address
    a direct call to the selected symbol reaches. *)
Theorem C40_wrappee_is_call_target_partial : forall lib es name resolver i,
  wf_lookup lib es -> plain name ->
  covered lib es i -> versioned lib es i -> sym_name (l_syms lib es) (l_str lib es) i = Some name ->
  (forall j s, sym_name (l_syms lib es) (l_str lib es) j = Some name -> nth_error (l_syms lib es) (Z.to_nat j) = Some s ->
     0 < st_size s /\ st_type s <> STT_GNU_IFUNC) ->
  exists j s, symbol_result lib es name (Some j) /\ nth_error (l_syms lib es) (Z.to_nat j) = Some s /\
    lookup_exported_symbol false name lib = Ok (Some (call_target lib resolver s)).
Proof. exact wrappee_thm. Qed.
Print Assumptions C40_wrappee_is_call_target_partial.

(** C41 *)
Theorem C41_writable_pages : forall k infos lib es nm,
  let ps := 2 ^ k in
  wf_dyn lib es -> 0 <= k < 63 -> lm_name lib = Some nm ->
  let got := dyn_get es 3 0 in
  let n := dyn_get es 18 0 in
  0 < got -> got + Z.max n ps + 2 * ps < two64 ->
  (forall i, In i infos -> 0 <= lm_addr lib /\ forall p, In p (dlpi_phdr i) ->
      0 <= p_vaddr p /\ 0 <= p_memsz p /\ ps <= lm_addr lib + p_vaddr p + p_memsz p < two64 - 2 * ps) ->
  exists calls, mark_got_writable ps infos lib = Ok calls /\
   (forall a l, In (a, l) calls -> a mod ps = 0 /\ l mod ps = 0) /\
   forall pg, covers ps calls pg <->
     (page ps got <= pg < page ps got + Z.max 1 (pages_for ps n)) \/
     (exists s e, relro_range nm (lm_addr lib) infos = Some (s, e) /\ page ps s <= pg < pages_for ps e).
Proof. exact mprotect_thm. Qed.
Print Assumptions C41_writable_pages.

(** *** A concrete library: two versions of "f" and one undefined symbol "g", both hash tables. *)
Definition f_name : cstr := of_string "f".
Definition g_name : cstr := of_string "g".
Definition demo_syms : list esym :=
  [mkSym 0 0 0 0 0; mkSym 3 0 0 2 0; mkSym 1 256 8 2 9; mkSym 1 512 8 2 9].
Definition demo_image : image := mkImage
  [(DT_GNU_HASH, 4096); (DT_HASH, 5000); (DT_SYMTAB, 6000); (DT_STRTAB, 7000); (DT_VERSYM, 8000);
   (DT_PLTREL, DT_RELA); (DT_JMPREL, 9000); (DT_PLTRELSZ, 24); (DT_RELA, 9100); (DT_RELASZ, 48); (DT_RELAENT, 24);
   (DT_PLTGOT, 20520); (DT_NULL, 0)]
  (fun _ => [])
  (fun a => if a =? 9000 then [(40, 2 * 2 ^ 32 + 7)] else if a =? 9100 then [(48, 3 * 2 ^ 32 + 6); (56, 2 ^ 32 + 6)] else [])
  (fun a => if a =? 6000 then demo_syms else [])
  (fun a => if a =? 7001 then f_name else if a =? 7003 then g_name else [])
  (fun a => if a =? 8000 then [0; 0; 2; 32771] else [])
  (fun a => if a =? 4096 then [1; 2; 1; 0; 0; 0; 2; 177674; 177675]
            else if a =? 5000 then [2; 4; 3; 1; 0; 0; 0; 2] else []).
Definition demo_lib : lmap := mkLmap 1 (Some (of_string "libd.so")) 65536 4 demo_image.
Definition demo_es : list (Z * Z) := removelast (im_dyn demo_image).

Lemma demo_index i : 0 < i < Z.of_nat (length demo_syms) -> i = 1 \/ i = 2 \/ i = 3.
Proof. cbn. lia. Qed.

Example demo_wf_gnu : wf_gnu demo_syms (l_str demo_lib demo_es) (l_gnu demo_lib demo_es) 1 2 [2] [177674; 177675].
Proof.
  assert (HC : gnu_chain [177674; 177675] 2 2 [2; 3]).
  { eapply gc_more; [lia|reflexivity|reflexivity|]. eapply gc_last; [lia|reflexivity|reflexivity]. }
  constructor.
  - exists 1, 0, [0; 0]. split; [reflexivity|split; [reflexivity|lia]].
  - split; [lia|reflexivity].
  - split; [lia|reflexivity].
  - reflexivity.
  - intros b s Hb. destruct b as [|[|]]; try discriminate. injection Hb as <-. right. eauto.
  - intros i n Hi Hn. assert (i = 2 \/ i = 3) as [-> | ->] by (cbn in Hi; lia);
      vm_compute in Hn; injection Hn as <-; (split; [eexists; split; reflexivity|]);
      exists 2, [2; 3]; (split; [reflexivity|split; [exact HC|cbn; auto]]).
Qed.

Example demo_wf_sysv : wf_sysv demo_syms (l_str demo_lib demo_es) (l_sysv demo_lib demo_es) 2 [3; 1] [0; 0; 0; 2].
Proof.
  assert (H1 : sysv_chain [0; 0; 0; 2] 1 [1]) by (eapply sc_next; [lia|reflexivity|constructor]).
  assert (H3 : sysv_chain [0; 0; 0; 2] 3 [3; 2]).
  { eapply sc_next; [lia|reflexivity|]. eapply sc_next; [lia|reflexivity|constructor]. }
  constructor.
  - exists 4. reflexivity.
  - split; [lia|reflexivity].
  - reflexivity.
  - intros b s Hb. destruct b as [|[|[|]]]; try discriminate; injection Hb as <-; eauto.
  - intros i n Hi Hn. destruct (demo_index i Hi) as [-> |[-> | ->]]; vm_compute in Hn; injection Hn as <-.
    + exists 1, [1]. split; [reflexivity|split; [exact H1|cbn; auto]].
    + exists 3, [3; 2]. split; [reflexivity|split; [exact H3|cbn; auto]].
    + exists 3, [3; 2]. split; [reflexivity|split; [exact H3|cbn; auto]].
Qed.

Example demo_wf_dyn : wf_dyn demo_lib demo_es.
Proof.
  constructor; [discriminate|reflexivity| |split; reflexivity].
  intros tag Hin. cbn in Hin. destruct Hin as [<-|[<-|[<-|[<-|[<-|[]]]]]]; (split; [vm_compute; discriminate|reflexivity]).
Qed.

Example demo_wf_lookup : wf_lookup demo_lib demo_es.
Proof.
  constructor.
  - exact demo_wf_dyn.
  - split; [cbn; lia|]. repeat constructor; lia.
  - intros _. do 4 eexists. exact demo_wf_gnu.
  - intros _. do 3 eexists. exact demo_wf_sysv.
Qed.

Example demo_covered : covered demo_lib demo_es 2 /\ versioned demo_lib demo_es 2 /\
  sym_name (l_syms demo_lib demo_es) (l_str demo_lib demo_es) 2 = Some f_name /\ plain f_name.
Proof.
  split; [left; split; [discriminate|vm_compute; split; [discriminate|reflexivity]]|].
  split; [reflexivity|]. split; [reflexivity|]. apply ascii_plain. repeat constructor; lia.
Qed.

(** the newest version wins *)
Example demo_lookup : lookup_exported_symbol false f_name demo_lib = Ok (Some (65536 + 512)).
Proof. vm_compute. reflexivity. Qed.

Example demo_tables : tables_complete demo_lib demo_es true /\ dyn_get demo_es DT_PLTREL 0 = DT_RELA.
Proof.
  split; [|reflexivity]. split; [vm_compute; discriminate|]. split; [intros _; vm_compute; discriminate|].
  assert (E : plt_table demo_image demo_es true ++ data_table demo_image demo_es true =
          [(40, 2 * 2 ^ 32 + 7); (48, 3 * 2 ^ 32 + 6); (56, 2 ^ 32 + 6)]) by reflexivity.
  change (lm_image demo_lib) with demo_image. rewrite E. intros r [<-|[<-|[<-|[]]]]; (split; [vm_compute; discriminate|]);
    apply Nat.ltb_lt; vm_compute; reflexivity.
Qed.
Example demo_relocs : for_each_pltrel demo_lib = Ok (Some [(40, f_name); (48, f_name); (56, g_name)]).
Proof. vm_compute. reflexivity. Qed.

(** RELRO segment at 0x20000..0x21f00 rounded to two pages, PLT GOT page 5 *)
Definition demo_infos : list phdr_info :=
  [mkPhi (of_string "other") 65536 [mkPhdr PT_LOAD 0 100];
   mkPhi (of_string "libd.so") 65536 [mkPhdr PT_LOAD 0 100; mkPhdr PT_GNU_RELRO 65600 7936]].
Example demo_mprotect : mark_got_writable (2 ^ 12) demo_infos demo_lib = Ok [(131072, 8192); (20480, 4096)].
Proof. vm_compute. reflexivity. Qed.
Example demo_mprotect_hyps :
  0 < dyn_get demo_es DT_PLTGOT 0 /\
  dyn_get demo_es DT_PLTGOT 0 + Z.max (dyn_get demo_es DT_RELSZ 0) (2 ^ 12) + 2 * 2 ^ 12 < two64 /\
  forall i, In i demo_infos -> 0 <= lm_addr demo_lib /\ forall p, In p (dlpi_phdr i) ->
      0 <= p_vaddr p /\ 0 <= p_memsz p /\ 2 ^ 12 <= lm_addr demo_lib + p_vaddr p + p_memsz p < two64 - 2 * 2 ^ 12.
Proof.
  split; [reflexivity|]. split; [reflexivity|]. intros i [<-|[<-|[]]]; (split; [vm_compute; discriminate|]);
  intros p Hp; cbn in Hp; (destruct Hp as [<-|[<-|[]]] || destruct Hp as [<-|[]]); (split; [vm_compute; discriminate|split; [vm_compute; discriminate|split; [vm_compute; discriminate|reflexivity]]]).
Qed.

(** *** Refutations *)
(** C35 for arbitrary bytes: gnu_hash_func treats characters as signed.  The one-symbol library whose
    symbol is named by the byte 0xc3 has a well-formed table, but the symbol is not found. *)
Definition hi_syms : list esym := [mkSym 0 0 0 0 0; mkSym 1 256 8 2 9].
Definition hi_str (off : Z) : cstr := if off =? 1 then [195] else [].
Definition hi_words : list Z := [1; 1; 0; 0; 1; 177769].
Theorem C35_gnu_hash_complete_refuted :
  exists syms str words nb symndx buckets vals name i,
    wf_gnu syms str words nb symndx buckets vals /\ Forall (fun c => 0 < c <= 255) name /\
    symndx <= i < Z.of_nat (length syms) /\ sym_name syms str i = Some name /\
    lookup_gnu_hash_symbol name syms None str words = Ok None.
Proof.
  exists hi_syms, hi_str, hi_words, 1, 1, [1], [177769], [195], 1.
  split; [|split; [repeat constructor; lia|split; [cbn; lia|split; [reflexivity|vm_compute; reflexivity]]]].
  assert (HC : gnu_chain [177769] 1 1 [1]) by (eapply gc_last; [lia|reflexivity|reflexivity]).
  constructor.
  - exists 0, 0, []. split; [reflexivity|split; [reflexivity|lia]].
  - split; [lia|reflexivity].
  - split; [lia|reflexivity].
  - reflexivity.
  - intros b s Hb. destruct b as [|[|]]; try discriminate. injection Hb as <-. right. eauto.
  - intros i n Hi Hn. assert (i = 1) as -> by (cbn in Hi; lia). vm_compute in Hn. injection Hn as <-.
    split; [eexists; split; reflexivity|]. exists 1, [1]. split; [reflexivity|split; [exact HC|cbn; auto]].
Qed.
Print Assumptions C35_gnu_hash_complete_refuted.

(** What happens for arbitrary byte names: the symbol is found exactly if the sum of 33^k over its bytes above
    127, k being the number of bytes after them, is a multiple of 2^24 ... *)
Theorem C35_all_names_law : forall name syms versym str words nb symndx buckets vals i,
  wf_gnu syms str words nb symndx buckets vals -> versym_ok versym syms -> Forall (fun c => 0 <= c <= 255) name ->
  symndx <= i < Z.of_nat (length syms) -> sym_name syms str i = Some name ->
  match versym with None => True | Some vs => 0 < version_of vs i end ->
  if high_sum name mod 2 ^ 24 =? 0
  then exists j, lookup_gnu_hash_symbol name syms versym str words = Ok (Some j) /\ sym_name syms str j = Some name
  else lookup_gnu_hash_symbol name syms versym str words = Ok None.
Proof.
  intros name syms versym str words nb symndx buckets vals i W HV HB Hi Hn Hver.
  destruct (Z.eqb_spec (high_sum name mod 2 ^ 24) 0) as [E|E].
  - eapply gnu_complete_thm; eauto. split; auto.
  - eapply gnu_missing_thm; eauto. intros [_ H]. contradiction.
Qed.
Print Assumptions C35_all_names_law.

(** ... so a name with, say, one to 31 bytes above 127 is never found ... *)
Theorem C35_high_bytes_law : forall name syms versym str words nb symndx buckets vals,
  wf_gnu syms str words nb symndx buckets vals -> versym_ok versym syms -> Forall (fun c => 0 <= c <= 255) name ->
  Z.of_nat (high_count name) mod 32 <> 0 ->
  lookup_gnu_hash_symbol name syms versym str words = Ok None.
Proof.
  intros name syms versym str words nb symndx buckets vals W HV HB HC. eapply gnu_missing_thm; eauto.
  intros HP. exact (HC (plain_count name HP)).
Qed.
Print Assumptions C35_high_bytes_law.
Example high_bytes : wf_gnu hi_syms hi_str hi_words 1 1 [1] [177769] /\ Z.of_nat (high_count [195]) mod 32 <> 0.
Proof.
  split; [|vm_compute; discriminate].
  assert (HC : gnu_chain [177769] 1 1 [1]) by (eapply gc_last; [lia|reflexivity|reflexivity]).
  constructor.
  - exists 0, 0, []. split; [reflexivity|split; [reflexivity|lia]].
  - split; [lia|reflexivity].
  - split; [lia|reflexivity].
  - reflexivity.
  - intros b s Hb. destruct b as [|[|]]; try discriminate. injection Hb as <-. right. eauto.
  - intros i n Hi Hn. assert (i = 1) as -> by (cbn in Hi; lia). vm_compute in Hn. injection Hn as <-.
    split; [eexists; split; reflexivity|]. exists 1, [1]. split; [reflexivity|split; [exact HC|cbn; auto]].
Qed.

(** ... while this name with 32 bytes above 127 is plain, as are all ASCII names *)
Example plain_high :
  let hi := 195 in let lo := 97 in
  plain [hi;hi;hi;hi;hi;lo;lo;hi;hi;hi;hi;hi;lo;hi;hi;lo;hi;hi;hi;lo;hi;hi;lo;hi;hi;hi;hi;lo;hi;hi;hi;hi;hi;lo;hi;hi;hi;hi;hi;hi].
Proof. cbv zeta. split; [repeat constructor; lia|vm_compute; reflexivity]. Qed.
Example plain_ascii : forall s, ascii s -> plain s.
Proof. exact ascii_plain. Qed.

(** C39 for one library and a name that is not plain: only the SysV table is effective *)
Theorem C39_library_high_law : forall lib es name,
  wf_lookup lib es -> Forall (fun c => 0 <= c <= 255) name -> high_sum name mod 2 ^ 24 <> 0 ->
  exists r, ((has_sysv es /\ sysv_result lib es name r) \/ (~ has_sysv es /\ r = None)) /\
    lookup_exported_symbol false name lib = Ok (match r with Some i => symbol_address lib es i | None => None end).
Proof. intros lib es name W HB HN. apply exported_high_thm; auto. intros [_ H]. contradiction. Qed.
Print Assumptions C39_library_high_law.

(** the one-symbol library above, as a whole, with both tables and with the GNU table only *)
Definition hi_lib (sysv : bool) : lmap := mkLmap 1 (Some (of_string "libh.so")) 65536 4
  (mkImage ((if sysv then [(DT_HASH, 5000)] else []) ++ [(DT_GNU_HASH, 4096); (DT_SYMTAB, 6000); (DT_STRTAB, 7000); (DT_NULL, 0)])
     (fun _ => []) (fun _ => []) (fun _ => hi_syms) (fun a => hi_str (a - 7000))
     (fun _ => []) (fun a => if a =? 4096 then hi_words else [1; 2; 1; 0; 0])).
Definition hi_es (sysv : bool) : list (Z * Z) := removelast (im_dyn (lm_image (hi_lib sysv))).
Example hi_wf : forall sysv, wf_lookup (hi_lib sysv) (hi_es sysv).
Proof.
  intros sysv. constructor.
  - destruct sysv; (constructor; [discriminate|reflexivity| |split; reflexivity];
    intros tag Hin; cbn in Hin; destruct Hin as [<-|[<-|[<-|[<-|[<-|[]]]]]]; (split; [vm_compute; discriminate|reflexivity])).
  - destruct sysv; exact I.
  - intros _. exists 1, 1, [1], [177769].
    replace (l_syms (hi_lib sysv) (hi_es sysv)) with hi_syms by (destruct sysv; reflexivity).
    replace (l_gnu (hi_lib sysv) (hi_es sysv)) with hi_words by (destruct sysv; reflexivity).
    destruct high_bytes as [[H1 H2 H3 H4 H5 H6] _]. constructor; auto.
    intros i n Hi Hn. apply H6; auto. assert (i = 1) as -> by (cbn in Hi; lia). destruct sysv; exact Hn.
  - intros Hs. destruct sysv; [|exfalso; apply Hs; reflexivity]. exists 1, [1], [0; 0].
    assert (HC : sysv_chain [0; 0] 1 [1]) by (eapply sc_next; [lia|reflexivity|constructor]).
    constructor.
    + exists 2. reflexivity.
    + split; [lia|reflexivity].
    + reflexivity.
    + intros b s Hb. destruct b as [|[|]]; try discriminate. injection Hb as <-. eauto.
    + intros i n Hi Hn. assert (i = 1) as -> by (cbn in Hi; lia). vm_compute in Hn. injection Hn as <-.
      exists 1, [1]. split; [reflexivity|split; [exact HC|cbn; auto]].
Qed.
Example hi_lookup :
  lookup_exported_symbol false [195] (hi_lib true) = Ok (Some (65536 + 256)) /\
  lookup_exported_symbol false [195] (hi_lib false) = Ok None /\ high_sum [195] mod 2 ^ 24 <> 0.
Proof. split; [vm_compute; reflexivity|]. split; [vm_compute; reflexivity|vm_compute; discriminate]. Qed.

(** C38 for a library without DT_PLTREL (no PLT relocations, e.g. built with -fno-plt): its DT_RELA
    table is ignored. *)
Definition noplt_lib : lmap := mkLmap 1 (Some (of_string "libd.so")) 65536 4
  (mkImage [(DT_SYMTAB, 6000); (DT_STRTAB, 7000); (DT_RELA, 9100); (DT_RELASZ, 48); (DT_RELAENT, 24); (DT_NULL, 0)]
     (im_rels demo_image) (im_relas demo_image) (im_syms demo_image) (im_str demo_image) (im_halfs demo_image) (im_words demo_image)).
Theorem C38_relocations_refuted :
  exists m es, wf_dyn m es /\ tables_complete m es true /\ for_each_pltrel m = Ok (Some []) /\
    data_table (lm_image m) es true <> [].
Proof.
  exists noplt_lib, (removelast (im_dyn (lm_image noplt_lib))).
  split; [|split; [|split; [vm_compute; reflexivity|discriminate]]].
  - constructor; [discriminate|reflexivity| |split; reflexivity].
    intros tag Hin. cbn in Hin. destruct Hin as [<-|[<-|[<-|[<-|[<-|[]]]]]]; (split; [vm_compute; discriminate|reflexivity]).
  - split; [vm_compute; discriminate|]. split; [intros _; vm_compute; discriminate|].
    intros r Hr. vm_compute in Hr. destruct Hr as [<-|[<-|[]]]; (split; [vm_compute; discriminate|]);
      apply Nat.ltb_lt; vm_compute; reflexivity.
Qed.
Print Assumptions C38_relocations_refuted.

(** What happens for every dynamic section: the tables processed are those of the RELA flavour if DT_PLTREL
    says so, and otherwise - DT_PLTREL missing or of any other value - those of the REL flavour, the PLT
    relocations included. *)
Theorem C38_flavour_law : forall m es rela,
  wf_dyn m es -> (dyn_get es DT_PLTREL 0 =? DT_RELA) = rela -> tables_complete m es rela ->
  exists l, for_each_pltrel m = Ok (Some l) /\
    map Some l = map (reloc_pair (lm_image m) (dyn_get es DT_SYMTAB 0) (dyn_get es DT_STRTAB 0))
                   (plt_table (lm_image m) es rela ++ data_table (lm_image m) es rela).
Proof. exact pltrel_gen. Qed.
Print Assumptions C38_flavour_law.
(** the library without DT_PLTREL: no entry of its DT_RELA table is seen *)
Example flavour_noplt : exists es, wf_dyn noplt_lib es /\ (dyn_get es DT_PLTREL 0 =? DT_RELA) = false /\
  tables_complete noplt_lib es false /\ plt_table (lm_image noplt_lib) es false ++ data_table (lm_image noplt_lib) es false = [].
Proof.
  exists (removelast (im_dyn (lm_image noplt_lib))). split; [|split; [reflexivity|split; [|reflexivity]]].
  - constructor; [discriminate|reflexivity| |split; reflexivity].
    intros tag Hin. cbn in Hin. destruct Hin as [<-|[<-|[<-|[<-|[<-|[]]]]]]; (split; [vm_compute; discriminate|reflexivity]).
  - split; [vm_compute; discriminate|]. split; [intros H; exfalso; apply H; reflexivity|]. intros r [].
Qed.

(** C40 for IFUNC symbols: GOTCHA returns the resolver, not the function ... *)
Definition one_sym_lib (s : esym) : lmap := mkLmap 1 (Some (of_string "libi.so")) 65536 4
  (mkImage [(DT_GNU_HASH, 4096); (DT_SYMTAB, 6000); (DT_STRTAB, 7000); (DT_NULL, 0)]
     (fun _ => []) (fun _ => []) (fun _ => [mkSym 0 0 0 0 0; s]) (fun a => if a =? 7001 then f_name else [])
     (fun _ => []) (fun _ => [1; 1; 0; 0; 1; 177675])).
Lemma one_sym_wf s : st_name s = 1 -> wf_lookup (one_sym_lib s) (removelast (im_dyn (lm_image (one_sym_lib s)))).
Proof.
  intros Hs. destruct s as [nm v sz ty sh]. cbn in Hs. subst nm. constructor.
  - constructor; [discriminate|reflexivity| |split; reflexivity].
    intros tag Hin. cbn in Hin. destruct Hin as [<-|[<-|[<-|[<-|[<-|[]]]]]]; (split; [vm_compute; discriminate|reflexivity]).
  - exact I.
  - intros _. exists 1, 1, [1], [177675].
    assert (HC : gnu_chain [177675] 1 1 [1]) by (eapply gc_last; [lia|reflexivity|reflexivity]).
    constructor.
    + exists 0, 0, []. split; [reflexivity|split; [reflexivity|lia]].
    + split; [lia|reflexivity].
    + split; [lia|reflexivity].
    + reflexivity.
    + intros b s Hb. destruct b as [|[|]]; try discriminate. injection Hb as <-. right. eauto.
    + intros i n Hi Hn. assert (i = 1) as -> by (cbn in Hi; lia). vm_compute in Hn. injection Hn as <-.
      split; [eexists; split; reflexivity|]. exists 1, [1]. split; [reflexivity|split; [exact HC|cbn; auto]].
  - intros H. exfalso. apply H. reflexivity.
Qed.

Theorem C40_ifunc_refuted : exists lib es name resolver i s a,
  wf_lookup lib es /\ nth_error (l_syms lib es) (Z.to_nat i) = Some s /\
  sym_name (l_syms lib es) (l_str lib es) i = Some name /\ st_type s = STT_GNU_IFUNC /\
  lookup_exported_symbol false name lib = Ok (Some a) /\ a <> call_target lib resolver s.
Proof.
  set (s := mkSym 1 256 8 STT_GNU_IFUNC 9).
  exists (one_sym_lib s), (removelast (im_dyn (lm_image (one_sym_lib s)))), f_name, (fun _ => 99), 1, s, (65536 + 256).
  split; [apply one_sym_wf; reflexivity|]. repeat split; try reflexivity. vm_compute. discriminate.
Qed.
Print Assumptions C40_ifunc_refuted.

(** ... and a function symbol of size 0 (typical for hand-written assembly) is not found at all. *)
Theorem C40_zero_size_refuted : exists lib es name i s,
  wf_lookup lib es /\ nth_error (l_syms lib es) (Z.to_nat i) = Some s /\
  sym_name (l_syms lib es) (l_str lib es) i = Some name /\ st_shndx s <> 0 /\
  lookup_exported_symbol false name lib = Ok None.
Proof.
  set (s := mkSym 1 256 0 2 9).
  exists (one_sym_lib s), (removelast (im_dyn (lm_image (one_sym_lib s)))), f_name, 1, s.
  split; [apply one_sym_wf; reflexivity|]. repeat split; try reflexivity. cbn. lia.
Qed.
Print Assumptions C40_zero_size_refuted.

(** What happens for every selected symbol: one of size 0 counts as missing; any other gives value + load
    address, which is where a direct call ends exactly if the symbol is no IFUNC (or the resolver returns itself). *)
Theorem C40_selected_law : forall lib es name, wf_lookup lib es -> plain name ->
  exists r, symbol_result lib es name r /\
    match r with
    | None => lookup_exported_symbol false name lib = Ok None
    | Some j => exists s, nth_error (l_syms lib es) (Z.to_nat j) = Some s /\
        (st_size s <= 0 -> lookup_exported_symbol false name lib = Ok None) /\
        (0 < st_size s -> lookup_exported_symbol false name lib = Ok (Some ((st_value s + lm_addr lib) mod 2 ^ 64)) /\
           forall resolver,
             (st_type s <> STT_GNU_IFUNC \/
              resolver ((st_value s + lm_addr lib) mod 2 ^ 64) = (st_value s + lm_addr lib) mod 2 ^ 64) <->
             lookup_exported_symbol false name lib = Ok (Some (call_target lib resolver s)))
    end.
Proof. exact selected_thm. Qed.
Print Assumptions C40_selected_law.
Example selected_cases : forall size ty,
  wf_lookup (one_sym_lib (mkSym 1 256 size ty 9)) (removelast (im_dyn (lm_image (one_sym_lib (mkSym 1 256 size ty 9))))) /\ plain f_name.
Proof. intros. split; [apply one_sym_wf; reflexivity|]. apply ascii_plain. repeat constructor; lia. Qed.
