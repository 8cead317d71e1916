(** C70: from the ELF tables of the libraries to the functions a call passes. *)
From Verif Require Import Base ListFacts SpecHash HashTrace HashModel HashProofs ElfModel SpecElf ElfProofs ToolModel CoreModel SpecCore SpecRun SpecSync SpecE2E
  ToolProofs CoreMaps CoreRel CoreLib CoreEnv CoreFacts CoreHist CoreApi CoreApi2 CoreSync3 PropsElf PropsCore PropsSync Demo PropsCoreEx PropsSyncEx.
From Coq Require Import Permutation.
From Coq Require String.
Import String.StringSyntax.
Open Scope string_scope.
Open Scope list_scope.
Open Scope Z_scope.

Lemma In_prefix {A} (t : list A) (c : Z) x : In x (firstn (Z.to_nat c) t) <-> exists k, nth_error t k = Some x /\ Z.of_nat k < c.
Proof.
  split.
  - intros H. apply In_nth_error in H. destruct H as [k H]. assert (L := nth_error_Some_lt _ _ _ H). rewrite firstn_length in L.
    exists k. split; [|lia]. rewrite <- (firstn_skipn (Z.to_nat c) t), nth_error_app1 by (rewrite firstn_length; lia). exact H.
  - intros (k & H & L). assert (Lt := nth_error_Some_lt _ _ _ H). rewrite <- (firstn_skipn (Z.to_nat c) t), nth_error_app1 in H by (rewrite firstn_length; lia). eapply nth_error_In; eauto.
Qed.

(** The slots GOTCHA writes are those the relocation tables of the library give for the name. *)
Theorem C70_slots : forall m n x, lib_wf m -> (slot relocs m n x <-> calls_through m n x).
Proof.
  intros m n x (HN & es & W & T). pose proof (wl_dyn _ _ W) as WD. destruct (pltrel_gen m es _ WD eq_refl T) as (l & El & Em).
  assert (Er : relocs m = l) by (unfold relocs; rewrite El; reflexivity).
  assert (Tb : forall r, In r (plt_table (lm_image m) es (dyn_get es DT_PLTREL 0 =? DT_RELA) ++ data_table (lm_image m) es (dyn_get es DT_PLTREL 0 =? DT_RELA)) <-> exists k, reloc_entry m es k r).
  { intros r. rewrite in_app_iff. unfold plt_table, data_table, reloc_entry, table_prefix.
    change DT_PLTREL with 20. change DT_RELA with 7. change DT_JMPREL with 23. change DT_PLTRELSZ with 2. change DT_RELASZ with 8. change DT_RELAENT with 9.
    change DT_REL with 17. change DT_RELSZ with 18. change DT_RELENT with 19.
    destruct (dyn_get es 20 0 =? 7); rewrite In_prefix.
    - destruct (Z.eqb_spec (dyn_get es 7 0) 0) as [Z0|Z0]; [|rewrite In_prefix]; split.
      + intros [[k H]|[]]. eauto.
      + intros [k [H|[H _]]]; [eauto|contradiction].
      + intros [[k H]|[k H]]; exists k; auto.
      + intros [k [H|[_ H]]]; eauto.
    - destruct (Z.eqb_spec (dyn_get es 17 0) 0) as [Z0|Z0]; [|rewrite In_prefix]; split.
      + intros [[k H]|[]]. eauto.
      + intros [k [H|[H _]]]; [eauto|contradiction].
      + intros [[k H]|[k H]]; exists k; auto.
      + intros [k [H|[_ H]]]; eauto. }
  unfold slot. rewrite Er. split.
  - intros (off & Hin & ->). apply (in_map Some) in Hin. rewrite Em in Hin. apply in_map_iff in Hin. destruct Hin as ([o i] & Hr & Hin). apply Tb in Hin. destruct Hin as [k Hk].
    unfold reloc_pair, sym_name in Hr. cbn [fst snd] in Hr. destruct (nth_error (im_syms (lm_image m) (dyn_get es DT_SYMTAB 0)) (Z.to_nat (i / 2 ^ 32))) as [s|] eqn:Es; [|discriminate]. injection Hr as -> <-.
    exists es, k, off, i, s. split; [exact (wd_es _ _ WD)|]. split; [exact Hk|]. split; [split; [exact Es|reflexivity]|reflexivity].
  - intros (es' & k & off & i & s & Ees & Hk & [Hs ->] & ->). rewrite (wd_es _ _ WD) in Ees. injection Ees as <-. exists off. split; [|reflexivity].
    assert (Hin : In (Some (off, im_str (lm_image m) (dyn_get es 5 0 + st_name s))) (map Some l)).
    { rewrite Em. apply in_map_iff. exists (off, i). split; [|apply Tb; eauto]. unfold reloc_pair, sym_name. cbn [fst snd].
      change (2 ^ 32) with 4294967296. change DT_SYMTAB with 6. rewrite Hs. reflexivity. }
    apply in_map_iff in Hin. destruct Hin as (y & E & Hin). injection E as ->. exact Hin.
Qed.
Print Assumptions C70_slots.

(** What GOTCHA finds in a library is a symbol of its symbol table ... *)
Theorem C70_exports_sound : forall e m n a, exports e m n = Some a -> has_function m n a.
Proof.
  intros e m n a H. unfold exports in H. destruct (e_vdso e m); [discriminate|]. destruct (lookup_exported_symbol false n m) as [r|] eqn:E; [|discriminate]. subst r.
  destruct (exported_sound_thm m n a E) as (es & i & s & E1 & E2 & E3 & E4 & E5). exists es, i, s. split; [exact E1|]. split; [|split; [exact E4|exact E5]].
  split; [exact E2|]. unfold sym_name in E3. rewrite E2 in E3. injection E3 as <-. reflexivity.
Qed.
Print Assumptions C70_exports_sound.

(** ... and, apart from the vdso, it finds a symbol whenever the hash tables list one of this name (plain names: e.g. ASCII; all symbols of the name of nonzero size). *)
Theorem C70_exports_complete_partial : forall e m n es i s, lib_wf m -> e_vdso e m = false -> plain n ->
  dyn_entries (im_dyn (lm_image m)) = Some es -> symbol m es i s n -> listed m es i ->
  (forall j t, symbol m es j t n -> 0 < st_size t) -> exists a, exports e m n = Some a.
Proof.
  intros e m n es i s (HN & es' & W & _) V HP Ees [Hs ->] [HC HV] HZ. rewrite (wd_es _ _ (wl_dyn _ _ W)) in Ees. injection Ees as ->.
  set (n := im_str (lm_image m) (dyn_get es 5 0 + st_name s)) in *.
  assert (Hn : sym_name (l_syms m es) (l_str m es) i = Some n).
  { unfold sym_name, l_syms. change DT_SYMTAB with 6. rewrite Hs. reflexivity. }
  assert (C : covered m es i).
  { destruct HC as [(G & nb & first & r & Eg & L)|(G & L)]; [left|right]; (split; [exact G|]); [|exact L]. unfold l_gnu. change DT_GNU_HASH with 1879047925. rewrite Eg. exact L. }
  assert (VV : versioned m es i).
  { unfold versioned, l_versym. change DT_VERSYM with 1879048176. destruct (Z.eqb_spec (dyn_get es 1879048176 0) 0) as [Z0|Z0]; [exact I|]. destruct HV as [HV|(v & Ev & HV)]; [contradiction|].
    unfold version_of. rewrite Ev. change (2 ^ 15) with 32768. pose proof (Z.mod_pos_bound v 32768). lia. }
  destruct (exported_thm m es n W HP) as (r & HR & HL). unfold exports. rewrite V, HL.
  assert (Hr : exists j, r = Some j /\ sym_name (l_syms m es) (l_str m es) j = Some n).
  { destruct r as [j|]; [|contradiction (symbol_result_found _ _ _ _ C VV Hn HR)]. exists j. split; [reflexivity|]. exact (symbol_result_name _ _ _ _ HR). }
  destruct Hr as (j & -> & Hj). unfold symbol_address. unfold sym_name in Hj. destruct (nth_error (l_syms m es) (Z.to_nat j)) as [t|] eqn:Et; [|discriminate]. injection Hj as Hj.
  assert (Z1 : 0 < st_size t) by (apply (HZ j t); split; [exact Et|symmetry; exact Hj]). apply Z.ltb_lt in Z1. rewrite Z1. eauto.
Qed.
Print Assumptions C70_exports_complete_partial.

Lemma wired_passes st l s a : (forall x, In x s -> In x l) -> (forall x, In x l -> Ptr a <> Ptr (en_wrapper x)) -> forall x r, s = x :: r -> wired st s (Some a) ->
  passes st l (Ptr (en_wrapper x)) (map en_wrapper s) (Ptr a).
Proof.
  intros HS HA. induction s as [|y s IH]; intros x r E W; [discriminate|]. injection E as -> ->. destruct W as [W1 W2]. cbn [map]. destruct r as [|z r].
  - eapply pass_in; [apply HS; left; reflexivity|exact W1|]. cbn. apply pass_out. exact HA.
  - eapply pass_in; [apply HS; left; reflexivity|exact W1|]. eapply IH; [intros; apply HS; right; auto|reflexivity|exact W2].
Qed.
Lemma passes_same st l : NoDup (map en_wrapper l) -> forall p path q, passes st l p path q -> forall path' q', passes st l p path' q' -> path' = path /\ q' = q.
Proof.
  intros ND p path q H. induction H as [p N|x p path q Hx Hw H IH]; intros path' q' H'.
  - inversion H' as [p0 N'|y p0 path0 q0 Hy]; subst; [auto|]. contradiction (N y Hy). reflexivity.
  - inversion H' as [p0 N'|y p0 path0 q0 Hy Hw' H0 E]; subst; [contradiction (N' x Hx); reflexivity|].
    assert (y = x).
    { destruct (In_nth_error _ _ Hx) as [i Hi]. destruct (In_nth_error _ _ Hy) as [j Hj]. assert (i = j); [|subst; congruence].
      apply (proj1 (NoDup_nth_error _) ND); [rewrite map_length; eapply nth_error_Some_lt; eauto|]. rewrite (map_nth_error _ _ _ Hi), (map_nth_error _ _ _ Hj). congruence. }
    subst y. rewrite Hw in Hw'. injection Hw' as <-. destruct (IH _ _ H0) as [-> ->]. auto.
Qed.

(** The whole way: in an orderly history with no load unfinished, a call through a slot of an accepted library for a
    wrapped function passes all wrappers installed for it, each once, in the order of the specified stack, and then
    arrives at the original, which is a function of this name in a library that was loaded at some time. *)
Theorem C70_call_partial : forall e maps mem ops st rs m n x a,
  process_ok e maps ops -> fresh e ops -> orderly e maps mem ops -> ~ pending ops -> run e (init_state maps mem) ops = Ok (st, rs) ->
  accepted (last_filter ops) (maps_after maps ops) m -> n <> of_string "main" -> calls_through m n x ->
  installed e ops n <> [] -> found_first e (exports e) maps ops n a -> (forall y, In y (installed e ops n) -> en_wrapper y <> a) ->
  passes st (installed e ops n) (Ptr (p_mem (s_p st) x)) (map en_wrapper (stack e maps ops n)) (Ptr a) /\
  (forall path q, passes st (installed e ops n) (Ptr (p_mem (s_p st) x)) path q -> path = map en_wrapper (stack e maps ops n) /\ q = Ptr a) /\
  Permutation (stack e maps ops n) (installed e ops n) /\
  exists l1 l2 lib, ops = l1 ++ l2 /\ In lib (maps_after maps l1) /\ has_function lib n a.
Proof.
  intros e maps mem ops st rs m n x a P F O Hp E Ha Nm Hc Hi Hf Hw.
  destruct (C01_stack_order e maps mem ops P F) as (st' & rs' & E' & H). rewrite E in E'. injection E' as <- <-. destruct (H n) as (Ho & Hwi & Pe & ND & _). clear H.
  assert (Hm : lib_wf m). { destruct Ha as (pre & rest & Em & _). apply (maps_after_wf e maps ops P). rewrite Em. apply in_elt. }
  apply (C70_slots m n x Hm) in Hc.
  destruct (stack e maps ops n) as [|y s] eqn:Es; [apply Permutation_nil in Pe; contradiction|].
  rewrite (C05_stack_partial e maps mem ops st rs m n x y s P F O Hp E Ha Nm Hc Es).
  assert (Eo : original e maps ops n = Some a).
  { destruct (C10_innermost_wrappee e maps mem ops P F) as (st' & rs' & E' & H). rewrite E in E'. injection E' as <- <-.
    destruct (exists_last (l := y :: s) ltac:(discriminate)) as (s0 & z & Ez). rewrite <- Es in Ez. destruct (H n s0 z Ez) as [H1 _]. apply H1 in Hf.
    rewrite Es in Ez. rewrite Ez in Hwi. clear -Hf Hwi. induction s0 as [|u s0 IH]; cbn in Hwi.
    - destruct Hwi as [W _]. rewrite Hf in W. destruct (original e maps ops n); [injection W as ->; reflexivity|discriminate].
    - apply IH, Hwi. }
  rewrite Eo in Hwi.
  assert (PS : passes st (installed e ops n) (Ptr (en_wrapper y)) (map en_wrapper (y :: s)) (Ptr a)).
  { eapply wired_passes; [intros z Hz; eapply Permutation_in; eauto| |reflexivity|exact Hwi]. intros z Hz K. injection K as K. apply (Hw z Hz). auto. }
  split; [exact PS|]. split; [|split; [exact Pe|]].
  - apply (passes_same st (installed e ops n)); [|exact PS]. eapply Permutation_NoDup; [apply Permutation_map; exact Pe|exact ND].
  - destruct Hf as (l1 & o & l2 & -> & _ & Hf & _). apply first_export_split in Hf. destruct Hf as (pre & lib & post & Em & Hx & _).
    exists (l1 ++ [o]), l2, lib. split; [rewrite <- app_assoc; reflexivity|]. split; [rewrite Em; apply in_elt|]. eapply C70_exports_sound; exact Hx.
Qed.
Print Assumptions C70_call_partial.

(** In other histories a call may pass no wrapper at all: f is wrapped in the call that first wraps main. *)
Theorem C70_call_refuted : exists e maps mem ops st rs m n x a,
  process_ok e maps ops /\ fresh e ops /\ run e (init_state maps mem) ops = Ok (st, rs) /\
  accepted (last_filter ops) (maps_after maps ops) m /\ n <> of_string "main" /\ calls_through m n x /\
  installed e ops n <> [] /\ found_first e (exports e) maps ops n a /\ (forall y, In y (installed e ops n) -> en_wrapper y <> a) /\
  passes st (installed e ops n) (Ptr (p_mem (s_p st) x)) [] (Ptr (p_mem (s_p st) x)).
Proof.
  exists demo_env, demo_libs, demo_mem, hist_with, (st_of (demo_run hist_with)), (rs_of (demo_run hist_with)), demo_lib, f_name, 65576, 66048.
  split; [process|]. split; [apply freshb_ok; vm_compute; reflexivity|]. split; [refine (run_of (demo_run hist_with) _); vm_compute; reflexivity|].
  split; [apply accepted_always; left; reflexivity|]. split; [discriminate|]. split; [apply C70_slots; [exact demo_wf|is_slot 40]|].
  assert (I : installed demo_env hist_with f_name = [mkE n_a 11 1]) by (vm_compute; reflexivity). rewrite I.
  split; [discriminate|]. split; [|split; [intros y [<-|[]]; discriminate|apply pass_out; intros y [<-|[]]; vm_compute; discriminate]].
  exists [], (hd OFinish hist_with), []. split; [reflexivity|]. split; [right; split; [intros H; apply H; reflexivity|vm_compute; discriminate]|].
  split; [vm_compute; reflexivity|]. intros [|] p k2 E; discriminate.
Qed.
Print Assumptions C70_call_refuted.

(** An operation of GOTCHA changes only words that the relocation tables of an accepted library name for a wrapped function, and stores one of its wrappers there. *)
Theorem C70_only_calls : forall e maps mem ops o st rs,
  process_ok e maps (ops ++ [o]) -> gotcha_op o -> run e (init_state maps mem) ops = Ok (st, rs) ->
  exists st' r, step e st o = Ok (st', r) /\
   forall x, p_mem (s_p st') x = p_mem (s_p st) x \/
    exists m n w, accepted (p_filter (s_p st)) (p_maps (s_p st)) m /\ calls_through m n x /\ In w (installed e (ops ++ [o]) n) /\ p_mem (s_p st') x = en_wrapper w.
Proof.
  intros e maps mem ops o st rs P G E. destruct (C06_writes_only_slots e maps mem ops o st rs P G E) as (st' & r & S & _ & _ & H). exists st', r. split; [exact S|].
  intros x. destruct (H x) as [H1|(m & n & w & A & B & C & D)]; [auto|]. right. exists m, n, w. split; [exact A|]. split; [|auto].
  apply C70_slots; [|exact B]. destruct A as (pre & rest & Em & _).
  assert (P0 : process_ok e maps ops) by (apply (process_app e maps ops [o]); exact P).
  destruct (reach e maps mem ops st rs P0 E) as (_ & Em' & _). apply (maps_after_wf e maps ops P0). rewrite <- Em', Em. apply in_elt.
Qed.
Print Assumptions C70_only_calls.

(** The history hist_s of PropsSyncEx meets the hypotheses: three tools wrap f; a call through the first slot of libd.so passes their wrappers 31, 21, 11 and arrives at f. *)
Example C70_slot_ex : calls_through demo_lib f_name 65576.
Proof.
  exists demo_es. eexists 0%nat, 40, _, _. split; [vm_compute; reflexivity|]. split; [left; split; vm_compute; reflexivity|]. split; [split; vm_compute; reflexivity|vm_compute; reflexivity].
Qed.
Example C70_call_ex : installed demo_env hist_s f_name <> [] /\ accepted (last_filter hist_s) (maps_after demo_libs hist_s) demo_lib /\
  found_first demo_env (exports demo_env) demo_libs hist_s f_name 66048 /\ (forall y, In y (installed demo_env hist_s f_name) -> en_wrapper y <> 66048) /\
  map en_wrapper (stack demo_env demo_libs hist_s f_name) = [31; 21; 11].
Proof.
  split; [vm_compute; discriminate|]. split; [rewrite (hist_s_filter hist_s [] (eq_sym (app_nil_r _))); apply accepted_always; vm_compute; left; reflexivity|].
  split; [|split; [|vm_compute; reflexivity]].
  - exists [], (hd OFinish hist_s), (tl hist_s). split; [reflexivity|]. split; [right; split; [intros H; apply H; reflexivity|vm_compute; discriminate]|].
    split; [vm_compute; reflexivity|]. intros [|] p k2 E; discriminate.
  - intros y Hy. change (installed demo_env hist_s f_name) with [mkE n_a 11 1; mkE n_b 21 3; mkE n_c 31 5] in Hy. repeat (destruct Hy as [<-|Hy]; [discriminate|]). destruct Hy.
Qed.
Example C70_complete_ex : exists es s, dyn_entries (im_dyn (lm_image g_lib)) = Some es /\ symbol g_lib es 1 s g_name /\ listed g_lib es 1 /\ plain g_name /\
  (forall j t, symbol g_lib es j t g_name -> 0 < st_size t) /\ exports demo_env g_lib g_name = Some 1048832.
Proof.
  exists (removelast (im_dyn g_image)). eexists. split; [vm_compute; reflexivity|]. split; [split; vm_compute; reflexivity|].
  split; [split; [left; split; [vm_compute; discriminate|]; eexists _, _, _; split; [vm_compute; reflexivity|vm_compute; intuition discriminate]|left; vm_compute; reflexivity]|].
  split; [split; [repeat constructor; vm_compute; discriminate|vm_compute; reflexivity]|]. split; [|vm_compute; reflexivity].
  intros j t [H1 H2]. cbn [lm_image g_lib] in H1. unfold g_image in H1. cbn [im_syms] in H1. destruct (Z.to_nat j) as [|[|k]]; cbn in H1; [|injection H1 as <-; reflexivity|destruct k; discriminate].
  injection H1 as <-. vm_compute in H2. discriminate.
Qed.
