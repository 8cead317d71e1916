(** Well-formed libraries can be read by GOTCHA. *)
From Verif Require Import Base ListFacts HashModel ElfModel SpecElf ElfProofs ToolModel CoreModel SpecCore SpecRun.

Lemma gnu_total name syms versym str words nb sx b v : wf_gnu syms str words nb sx b v -> versym_ok versym syms ->
  exists r, lookup_gnu_hash_symbol name syms versym str words = Ok r.
Proof.
  intros [(mw & sh & bloom & Hw & Hb & Hmw) (Hnb & Hbl) (Hsx & H32) Hvl Hch Hcov] HV.
  unfold lookup_gnu_hash_symbol. rewrite Hw. cbn [app].
  rewrite (skipn_app_exact bloom) by lia. rewrite (skipn_app_exact b) by lia.
  destruct (Z.eqb_spec nb 0); [lia|].
  pose proof (Z.mod_pos_bound (gnu_hash_func name) nb Hnb) as Hm.
  destruct (nth_error_lt_Some b (Z.to_nat (gnu_hash_func name mod nb))) as [s Hs]; [lia|].
  rewrite nth_error_app1 by lia. rewrite Hs.
  destruct (Hch _ _ Hs) as [->|[ch HC]]; [rewrite Z.eqb_refl; eauto|].
  destruct (Z.eqb_spec s 0); [eauto|]. change (2 ^ 32) with two32 in H32.
  rewrite (gnu_loop_chain name syms versym str v sx _ HV) with (ch := ch); auto; try lia; [eauto|].
  destruct (gnu_chain_hd _ _ _ _ HC) as (r' & Er). destruct (gnu_chain_range _ _ _ _ HC s) as [HR1 HR2]; [subst; left; auto|].
  pose proof (gnu_chain_length _ _ _ _ HC). lia.
Qed.

Lemma sysv_total name syms versym str words nb b c : wf_sysv syms str words nb b c -> versym_ok versym syms ->
  exists r, lookup_elf_hash_symbol name syms versym str words = Ok r.
Proof.
  intros [(nc & Hw) [Hnb Hbl] Hl Hch Hcov] HV.
  unfold lookup_elf_hash_symbol. rewrite Hw. rewrite (skipn_app_exact b) by lia.
  destruct (Z.eqb_spec nb 0); [lia|].
  pose proof (Z.mod_pos_bound (elf_hash name) nb Hnb) as Hm.
  destruct (nth_error_lt_Some b (Z.to_nat (elf_hash name mod nb))) as [s Hs]; [lia|].
  rewrite nth_error_app1 by lia. rewrite Hs. destruct (Hch _ _ Hs) as [ch HC].
  rewrite (elf_loop_chain name syms versym str c HV) with (ch := ch); auto; try lia; [eauto|].
  pose proof (sysv_chain_length _ _ _ HC). lia.
Qed.

Lemma exported_total lib es name b : wf_lookup lib es -> exists r, lookup_exported_symbol b name lib = Ok r.
Proof.
  intros [WD WV WG WS]. unfold lookup_exported_symbol. destruct b; [eauto|]. rewrite (init_dynamic_wf lib es WD). cbn [bind].
  cbn [dv_of dv_symtab dv_versym dv_strtab dv_gnu_hash dv_elf_hash].
  fold (l_syms lib es) (l_versym lib es) (l_gnu lib es) (l_sysv lib es).
  change (fun off => im_str (lm_image lib) (dyn_get es DT_STRTAB 0 + off)) with (l_str lib es).
  assert (Hfin : forall r, (forall i, r = Some i -> sym_name (l_syms lib es) (l_str lib es) i = Some name) -> exists r',
    match r with None => Ok None | Some i =>
    match nth_error (l_syms lib es) (Z.to_nat i) with
    | Some s => if negb (check_visibility s) then Ok None else Ok (Some (u64 (st_value s + lm_addr lib)))
    | None => Fault OutOfBounds end end = Ok r').
  { intros [i|] Hi; [|eauto]. destruct (nth_error_lt_Some _ _ (wf_index_lt _ _ _ _ (Hi i eq_refl))) as [s Hs]. rewrite Hs.
    destruct (negb (check_visibility s)); eauto. }
  assert (HG : dyn_get es DT_GNU_HASH 0 <> 0 -> exists r, lookup_gnu_hash_symbol name (l_syms lib es) (l_versym lib es) (l_str lib es) (l_gnu lib es) = Ok r).
  { intros Hg. destruct (WG Hg) as (nb & sx & b & v & W). eapply gnu_total; eauto. }
  assert (HS : dyn_get es DT_HASH 0 <> 0 -> exists r, lookup_elf_hash_symbol name (l_syms lib es) (l_versym lib es) (l_str lib es) (l_sysv lib es) = Ok r).
  { intros Hg. destruct (WS Hg) as (nb & b & c & W). eapply sysv_total; eauto. }
  destruct (Z.eqb_spec (dyn_get es DT_GNU_HASH 0) 0) as [Eg|Ng]; cbn [andb negb bind].
  - destruct (Z.eqb_spec (dyn_get es DT_HASH 0) 0) as [Es|Ns]; cbn [andb negb bind]; [eauto|].
    destruct (HS Ns) as (r & HL). rewrite HL. cbn [bind]. apply Hfin. intros i ->. eapply lookup_sound_thm. right; exact HL.
  - destruct (HG Ng) as (r & HL). rewrite HL. cbn [bind]. destruct r as [i|].
    + rewrite andb_false_r. cbn [bind]. apply (Hfin (Some i)). intros j Hj. injection Hj as <-. eapply lookup_sound_thm. left; exact HL.
    + rewrite andb_true_r. destruct (Z.eqb_spec (dyn_get es DT_HASH 0) 0) as [Es|Ns]; cbn [andb negb bind]; [eauto|].
      destruct (HS Ns) as (r & HL2). rewrite HL2. cbn [bind]. apply Hfin. intros i ->. eapply lookup_sound_thm. right; exact HL2.
Qed.

Lemma lib_wf_ok e m : 48 <= e_ps e -> lib_wf m -> lib_ok e (exports e) relocs m.
Proof.
  intros Hps (Hn & es & WL & TC). constructor.
  - intros n. unfold exports. destruct (exported_total m es n (e_vdso e m) WL) as [r ->]. reflexivity.
  - destruct (pltrel_gen m es _ (wl_dyn _ _ WL) eq_refl TC) as (l & E & _). exists (Some l). unfold relocs. rewrite E. auto.
  - intros infos. unfold mark_got_writable. rewrite (init_dynamic_wf m es (wl_dyn _ _ WL)). cbn [bind].
    destruct (dv_got (dv_of es) =? 0); [eauto|]. destruct (Z.eqb_spec (e_ps e) 0); [lia|].
    destruct (lm_name m) as [nm|]; [|congruence]. destruct (iterate_phdr _ infos) as [[s t]|]; [|eauto].
    match goal with |- exists c, (if ?b then _ else if ?d then _ else _) = _ => destruct b; [eauto|destruct d; eauto] end.
  - auto.
Qed.
