(** Properties C06, C18 (stores), C41 (over histories), C59, C60, C61: memory protection, the list of libraries, the tables of bindings. *)
From Verif Require Import Base ListFacts HashModel HashProofs HashTrace SpecHash ElfModel SpecElf ElfProofs ToolModel ToolProofs CoreMaps CoreModel SpecCore SpecRun SpecSync LibListModel SpecReg
  CoreRel CoreLib CoreStep CoreWrap CoreLoop CoreMain CoreEnv CoreSpec CoreFacts CoreHist CoreApi CoreApi2 CoreSync CoreSync2 CoreSync3 CoreMicro CoreMicro2 CoreReg CoreProt LibListProofs
  PropsElf Demo PropsCoreEx PropsSyncEx.
From Coq Require String.
Import String.StringSyntax.
Open Scope string_scope.
Open Scope list_scope.
Open Scope Z_scope.

Lemma covers_incl ps c c' pg : incl c c' -> covers ps c pg -> covers ps c' pg.
Proof. intros H (a & n & A & B). exists a, n. auto. Qed.

(** C41 over histories: memory changes by the stores in the log only, and each is to a slot of a loaded library
    all of whose GOT and RELRO pages had been passed to mprotect before that store ([e1] are the events of the
    operation before it), while the library was loaded, perhaps before it was unloaded and loaded again at the same
    place (whether the pages are still writable then is another matter, see the refutation).  Missing: a library
    whose record has the hash value of another one seen, in particular one loaded again at a different place. *)
Theorem C41_before_rewriting_partial : forall k e maps mem ops st rs o st' r,
  6 <= k < 63 -> e_ps e = 2 ^ k -> apart (seen maps ops) -> steady (seen maps ops) ->
  run e (init_state maps mem) ops = Ok (st, rs) -> gotcha_op o -> step e st o = Ok (st', r) ->
  exists evs, p_log (s_p st') = p_log (s_p st) ++ evs /\
  (forall x, p_mem (s_p st') x = p_mem (s_p st) x \/ In (PStore x (p_mem (s_p st') x)) evs) /\
  forall e1 x v e2, evs = e1 ++ PStore x v :: e2 ->
  exists m n l1 l2, In m (maps_after maps ops) /\ slot relocs m n x /\ ops = l1 ++ l2 /\ In m (maps_after maps l1) /\
    forall es nm, sane_got (2 ^ k) (e_phdrs e (maps_after maps l1)) m es nm ->
    forall pg, got_page (2 ^ k) (e_phdrs e (maps_after maps l1)) m es nm pg -> covers (2 ^ k) (protects (p_log (s_p st) ++ e1)) pg.
Proof.
  intros k e maps mem ops st rs o st' r Hk Eps ND SD E G Es.
  assert (PS : 48 <= e_ps e). { rewrite Eps. transitivity (2 ^ 6); [vm_compute; discriminate|]. apply Z.pow_le_mono_r; lia. }
  destruct (step_prot e maps mem ops ND SD o st rs st' r PS E G Es) as (evs & A1 & A2 & H). exists evs. split; [exact A1|]. split; [intros x; rewrite A2; apply replay_change|].
  intros e1 x v e2 Ee. destruct (H e1 x v e2 Ee) as (m & n & A & B & maps0 & calls & (l1 & l2 & El & ->) & Hm & Ec & Hi).
  exists m, n, l1, l2. split; [auto|]. split; [auto|]. split; [auto|]. split; [auto|]. intros es nm (W & Nm & S1 & S2 & S3) pg Hpg.
  destruct (mprotect_thm k (e_phdrs e (maps_after maps l1)) m es nm W ltac:(lia) Nm S1 S2 S3) as (c & Ec' & _ & Hc). rewrite Eps in Ec. rewrite Ec in Ec'. injection Ec' as <-.
  eapply covers_incl; [exact Hi|]. apply Hc. exact Hpg.
Qed.
Print Assumptions C41_before_rewriting_partial.

(** ... and mprotect is called for whole pages of the GOT and RELRO segment of loaded libraries only, whatever
    the hash values. *)
Theorem C41_only_got : forall k e maps mem ops st rs a n,
  6 <= k < 63 -> e_ps e = 2 ^ k -> run e (init_state maps mem) ops = Ok (st, rs) -> In (a, n) (p_prot (s_p st)) ->
  exists m l1 l2, ops = l1 ++ l2 /\ In m (maps_after maps l1) /\
    forall es nm, sane_got (2 ^ k) (e_phdrs e (maps_after maps l1)) m es nm ->
    a mod 2 ^ k = 0 /\ n mod 2 ^ k = 0 /\ forall pg, covers (2 ^ k) [(a, n)] pg -> got_page (2 ^ k) (e_phdrs e (maps_after maps l1)) m es nm pg.
Proof.
  intros k e maps mem ops st rs a n Hk Eps E Hin. destruct (run_calls _ _ _ _ _ _ E _ Hin) as (l1 & l2 & m & calls & El & Hm & Ec & Hc).
  exists m, l1, l2. split; [auto|]. split; [auto|]. intros es nm (W & Nm & S1 & S2 & S3).
  destruct (mprotect_thm k (e_phdrs e (maps_after maps l1)) m es nm W ltac:(lia) Nm S1 S2 S3) as (c & Ec' & Ha & Hcov). rewrite Eps in Ec. rewrite Ec in Ec'. injection Ec' as <-.
  destruct (Ha _ _ Hc) as [A1 A2]. split; [auto|]. split; [auto|]. intros pg Hpg. apply Hcov. eapply covers_incl; [|exact Hpg]. intros y [<-|[]]. auto.
Qed.
Print Assumptions C41_only_got.

(** C06 for the stores themselves: those which leave the word as it was are to slots of accepted libraries too,
    and also what is overwritten later in the same operation was a wrapper installed for the slot's function. *)
Theorem C06_stores_only_slots : forall e maps mem ops o st rs,
  process_ok e maps (ops ++ [o]) -> run e (init_state maps mem) ops = Ok (st, rs) ->
  exists st' r evs, step e st o = Ok (st', r) /\ p_log (s_p st') = p_log (s_p st) ++ evs /\
   (gotcha_op o -> forall x, p_mem (s_p st') x = p_mem (s_p st) x \/ In (PStore x (p_mem (s_p st') x)) evs) /\
   forall x v, In (PStore x v) evs ->
    exists m n w, accepted (p_filter (s_p st)) (p_maps (s_p st)) m /\ slot relocs m n x /\
                  In w (installed e (ops ++ [o]) n) /\ v = en_wrapper w.
Proof.
  intros e maps mem ops o st rs P E. destruct (step_stores e maps mem ops o st rs P E) as (st' & r & evs & A & B & C). exists st', r, evs. split; [auto|]. split; [auto|]. split; [|auto].
  intros G x. destruct (step_log _ _ _ _ _ G A) as (evs' & B' & ->). rewrite B in B'. apply app_inv_head in B'. subst evs'. apply replay_change.
Qed.
Print Assumptions C06_stores_only_slots.

(** C18: no store at all to the slots of a rejected library *)
Theorem C18_no_store : forall e maps mem ops o st rs m n x,
  process_ok e maps (ops ++ [o]) -> run e (init_state maps mem) ops = Ok (st, rs) ->
  slot relocs m n x -> ~ accepted (p_filter (s_p st)) (p_maps (s_p st)) m ->
  (forall m' n', slot relocs m' n' x -> accepted (p_filter (s_p st)) (p_maps (s_p st)) m' -> m' = m) ->
  exists st' r evs, step e st o = Ok (st', r) /\ p_log (s_p st') = p_log (s_p st) ++ evs /\ forall v, ~ In (PStore x v) evs.
Proof.
  intros e maps mem ops o st rs m n x P E S NA D. destruct (step_stores e maps mem ops o st rs P E) as (st' & r & evs & A & B & C). exists st', r, evs. split; [auto|]. split; [auto|].
  intros v H. destruct (C _ _ H) as (m' & n' & w & A' & B' & _). apply NA. rewrite <- (D m' n' B' A'). exact A'.
Qed.
Print Assumptions C18_no_store.

(** C59: after any history the list from library_list runs through all records, each once, the newest first, and
    every prev_lib points to the record before it. *)
Theorem C59_library_list : forall e maps mem ops st rs, run e (init_state maps mem) ops = Ok (st, rs) ->
  dll (l_heap (s_l st)) None (l_list (s_l st)) (rev (seq 0 (length (l_heap (s_l st))))).
Proof. exact run_dll. Qed.
Print Assumptions C59_library_list.

(** C61: any sequence of recording and removing libraries with distinct hash values: the list holds the libraries
    recorded and not removed, newest first, and get_library finds these and no others. *)
Theorem C61_remove_library_partial : forall all ps ops,
  apart all -> 48 <= ps -> (forall o, In o ops -> In (match o with LTrack m | LRemove m => m end) all) ->
  exists l0 l idx, lib_setup ps = Ok l0 /\ lib_run l0 ops = Ok l /\ dll (l_heap l) None (l_list l) idx /\ NoDup idx /\ NoDup (lib_tracked ops) /\
    map (fun i => option_map lb_map (nth_error (l_heap l) i)) idx = map (fun k => Some (fst k)) (lib_tracked ops) /\
    forall m, In m all -> exists r, get_library l m = Ok r /\
      match r with Some i => exists n, nth_error (lib_tracked ops) n = Some (key_of m) /\ nth_error idx n = Some i | None => ~ In (key_of m) (lib_tracked ops) end.
Proof. intros all ps ops ND. exact (lib_ops_thm all ND ps ops). Qed.
Print Assumptions C61_remove_library_partial.

(** C60: after any history the list from all_bindings runs through all tables, each once, the newest first; apart
    from GOTCHA's own they are the arrays given to gotcha_wrap. *)
Theorem C60_all_bindings : forall e maps mem ops st rs, run e (init_state maps mem) ops = Ok (st, rs) ->
  exists idx reg, walk (b_tables (s_b st)) bt_next (b_all (s_b st)) idx /\ NoDup idx /\ (forall i, In i idx <-> (i < length (b_tables (s_b st)))%nat) /\
    Forall2 (fun i x => table_is (s_b st) i (fst x) (snd x)) idx reg /\
    filter (fun x => negb (cstr_eqb (fst x) n_gotcha)) reg = rev (wrapped_arrays ops).
Proof. exact all_bindings_thm. Qed.
Print Assumptions C60_all_bindings.
(** ... the list of a tool holds the arrays wrapped under its name, newest first ... *)
Theorem C60_tool_bindings : forall e maps mem ops st rs j t, process_ok e maps ops -> run e (init_state maps mem) ops = Ok (st, rs) ->
  nth_error (ts_heap (b_tools (s_b st))) j = Some t -> t_name t <> n_gotcha ->
  exists idx, walk (b_tables (s_b st)) bt_next_tool (t_binding t) idx /\
    Forall2 (fun i x => table_is (s_b st) i (fst x) (snd x)) idx (rev (filter (fun x => cstr_eqb (fst x) (t_name t)) (wrapped_arrays ops))).
Proof. exact tool_bindings_thm. Qed.
Print Assumptions C60_tool_bindings.
(** ... and a table's hash table finds its bindings by name, and nothing else. *)
Theorem C60_binding_hash : forall e maps mem ops st rs i n ubs bt, process_ok e maps ops -> run e (init_state maps mem) ops = Ok (st, rs) ->
  table_is (s_b st) i n ubs -> nth_error (b_tables (s_b st)) i = Some bt -> ubs <> [] -> NoDup (map ub_name ubs) ->
  (forall k u, nth_error ubs k = Some u -> lookup_hashtable (bt_hash bt) (ub_name u) = Ok (Some (bt_start bt + k)%nat)) /\
  (forall m, ~ In m (map ub_name ubs) -> lookup_hashtable (bt_hash bt) m = Ok None).
Proof. exact binding_hash_thm. Qed.
Print Assumptions C60_binding_hash.

(** *** Examples *)
(** C41: the hypotheses hold of a history with a dlopen; f and g are rewritten in the new library *)
Definition hist_p1 : list op := hist1 ++ [OLoad [lib_e] mem_e].
Example c41_hyps : e_ps demo_env = 2 ^ 12 /\ apart (seen demo_libs hist_p1) /\ steady (seen demo_libs hist_p1) /\ gotcha_op OFinish.
Proof.
  split; [reflexivity|]. split; [apply nodup_apart; apply nodupb_ok; vm_compute; reflexivity|]. split; [|exact I].
  apply nodup_steady. apply (NoDup_map_inv link_map_hash). rewrite map_map. apply nodupb_ok. vm_compute. reflexivity.
Qed.
(** ... and of one in which the library has been loaded before *)
Example c41_hyps_again : let ops := hist1 ++ [OLoad [lib_e] mem_e; OFinish; OUnload keep_d mem_u; OLoad [lib_e] mem_e] in
  apart (seen demo_libs ops) /\ steady (seen demo_libs ops) /\ seen demo_libs ops = [demo_lib; lib_e; lib_e].
Proof.
  cbv zeta. set (s := seen demo_libs _). assert (Es : s = [demo_lib; lib_e; lib_e]) by reflexivity. rewrite Es.
  split; [|split; [|reflexivity]]; intros m m' [<-|[<-|[<-|[]]]] [<-|[<-|[<-|[]]]] H; try reflexivity; vm_compute in H; discriminate H.
Qed.
Example c41_run : let st := st_of (demo_run hist_p1) in let st' := st_of (demo_run (hist_p1 ++ [OFinish])) in
  is_ok (step demo_env st OFinish) = true /\ (p_mem (s_p st) 131112, p_mem (s_p st') 131112) = (66048, 21) /\ p_prot (s_p st') = [(20480, 4096); (20480, 4096)].
Proof. vm_compute. auto. Qed.
(** ... first mprotect, then the stores *)
Example c41_log : let st := st_of (demo_run hist_p1) in let st' := st_of (demo_run (hist_p1 ++ [OFinish])) in
  p_log (s_p st') = p_log (s_p st) ++ [PProtect (20480, 4096); PStore 131112 21; PStore 131120 21; PStore 131128 12].
Proof. vm_compute. reflexivity. Qed.
(** C18: libd.so is rejected, so nothing is stored at its slot 65576 for f *)
Example c18_log : p_log (s_p (st_of (demo_run hist_filter))) = [] /\ slot relocs demo_lib f_name 65576 /\ ~ accepted (FName (Some (of_string "libg"))) demo_libs demo_lib.
Proof. split; [vm_compute; reflexivity|]. split; [is_slot 40|apply hist_filter_rejected]. Qed.
Example c41_sane : sane_got (2 ^ 12) (demo_phdrs [demo_lib; lib_e]) lib_e demo_es (of_string "libe.so") /\ got_page (2 ^ 12) (demo_phdrs [demo_lib; lib_e]) lib_e demo_es (of_string "libe.so") 5.
Proof.
  split.
  - split.
    + destruct demo_wf_lookup as [[A1 A2 A3 A4] _ _ _]. constructor; [discriminate|exact A2|exact A3|exact A4].
    + split; [reflexivity|]. split; [reflexivity|]. split; [reflexivity|]. intros i [<-|[<-|[]]]; (split; [vm_compute; discriminate|]); intros p [<-|[]]; repeat split; vm_compute; discriminate || reflexivity.
  - left. vm_compute. split; [discriminate|reflexivity].
Qed.
(** C59, C60: three tables of two tools and GOTCHA's own two *)
Example c60_run : let st := st_of (demo_run hist1) in
  (l_list (s_l (st_of (demo_run hist_s))), length (l_heap (s_l (st_of (demo_run hist_s))))) = (Some 2%nat, 3%nat) /\
  length (wrapped_arrays hist1) = 2%nat /\ map fst (wrapped_arrays hist1) = [n_a; n_b] /\ map (fun t => t_binding t) (ts_heap (b_tools (s_b st))) <> [].
Proof. vm_compute. repeat split; discriminate. Qed.
(** C61: three libraries, the middle one removed, then the last one, then it comes back *)
Definition libs_3 : list lmap := [demo_lib; g_lib; lib_e].
Definition ops_3 : list libop := [LTrack demo_lib; LTrack g_lib; LTrack lib_e; LRemove g_lib; LRemove g_lib; LRemove lib_e; LTrack g_lib; LTrack lib_e; LRemove demo_lib].
Example c61_hyps : apart libs_3 /\ (forall o, In o ops_3 -> In (match o with LTrack m | LRemove m => m end) libs_3) /\
  lib_tracked ops_3 = [key_of lib_e; key_of g_lib].
Proof.
  split; [apply nodup_apart; apply nodupb_ok; vm_compute; reflexivity|]. split; [|vm_compute; reflexivity]. unfold ops_3, libs_3. intros o H. cbn [In] in *.
  repeat (destruct H as [<-|H]; [auto|]). destruct H.
Qed.

(** *** Refutations *)
(** C41: libe.so is unloaded and loaded again; its link_map lies where it was.  The next gotcha_wrap rewrites
    its GOT without another mprotect, since its record is marked. *)
Definition hist_r0 : list op := hist1 ++ [OLoad [lib_e] mem_e; OFinish; OUnload keep_d mem_u].
Definition hist_r1 : list op := hist_r0 ++ [OLoad [lib_e] mem_e].
Definition stepped (r : outcome (state * res)) : state := match r with Ok (s, _) => s | Fault _ => init_state [] (fun _ => 0) end.
Definition result (r : outcome (state * res)) : res := match r with Ok (_, x) => x | Fault _ => RNone end.
Lemma step_of r : is_ok r = true -> r = Ok (stepped r, result r).
Proof. destruct r as [[s x]|]; [reflexivity|discriminate]. Qed.
Theorem C41_reload_refuted : exists e maps mem ops libs mm o st0 rs0 st rs st' r m n x,
  process_ok e maps (ops ++ [OLoad libs mm; o]) /\ fresh e (ops ++ [OLoad libs mm; o]) /\
  run e (init_state maps mem) ops = Ok (st0, rs0) /\ ~ In m (maps_after maps ops) /\ In m libs /\
  run e (init_state maps mem) (ops ++ [OLoad libs mm]) = Ok (st, rs) /\ gotcha_op o /\ step e st o = Ok (st', r) /\
  slot relocs m n x /\ p_mem (s_p st') x <> p_mem (s_p st) x /\ p_prot (s_p st') = p_prot (s_p st0).
Proof.
  pose (out := step demo_env (st_of (demo_run hist_r1)) ctor).
  exists demo_env, demo_libs, demo_mem, hist_r0, [lib_e], mem_e, ctor, (st_of (demo_run hist_r0)), (rs_of (demo_run hist_r0)), (st_of (demo_run hist_r1)), (rs_of (demo_run hist_r1)).
  exists (stepped out), (result out), lib_e, g_name, 131128. split; [process|]. split; [apply freshb_ok; vm_compute; reflexivity|]. split; [run_ok hist_r0|]. split; [intros [H|[]]; discriminate H|]. split; [left; auto|].
  split; [run_ok hist_r1|]. split; [exact I|]. split; [apply step_of; vm_compute; reflexivity|].
  split; [is_slot 56|]. split; [vm_compute; discriminate|vm_compute; reflexivity].
Qed.
Print Assumptions C41_reload_refuted.

(** C61 for arbitrary hash values: removing libpa.so, which was never recorded, removes the record of libpq.so. *)
Definition lst_of (r : outcome lstate) : lstate := match r with Ok l => l | Fault _ => mkLS (mkHT 0 0 None None [] None) [] None 0 end.
Lemma lst_ok r : is_ok r = true -> r = Ok (lst_of r).
Proof. destruct r; [reflexivity|discriminate]. Qed.
Theorem C61_collision_refuted : exists ps ops l0 l m,
  lib_setup ps = Ok l0 /\ lib_run l0 ops = Ok l /\ In (key_of m) (lib_tracked ops) /\ get_library l m = Ok None /\ l_list l = None.
Proof.
  pose (l0 := lst_of (lib_setup 4096)). pose (l := lst_of (lib_run l0 [LTrack lib_pq; LRemove lib_pa])).
  exists 4096, [LTrack lib_pq; LRemove lib_pa], l0, l, lib_pq. split; [apply lst_ok; vm_compute; reflexivity|]. split; [apply lst_ok; vm_compute; reflexivity|].
  split; [left; reflexivity|]. split; vm_compute; reflexivity.
Qed.
Print Assumptions C61_collision_refuted.
