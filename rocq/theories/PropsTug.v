(** Property C91: one thread adds an entry to a table while another one removes an entry. *)
From Verif Require Import Base ListFacts HashModel SpecHash HashProofs HashTrace ToolModel CoreModel SpecCore SpecRun CoreMaps CoreStep CoreMain CoreHist HashMoments CostProofs RaceModel WalkModel WalkProofs DuelModel DuelProofs TugModel TugProofs PropsMoments PropsElf Demo PropsCoreEx PropsCost PropsWalk.
Open Scope list_scope.
Open Scope Z_scope.

(** One thread alone makes the removal, on any table whatsoever. *)
Theorem C91_alone : forall K D (t : htable K D) k,
  exists q, dsteps q k (t, DStart) = match removefrom_hashtable t k with Ok (t', b) => Ok (t', DDone b) | Fault f => Fault f end.
Proof. exact remove_run. Qed.
Print Assumptions C91_alone.

(** Any table with any history and room for the entry: whatever the interleaving and whether the key is there or not, neither thread crashes, the
    addition returns after at most one step per slot and twelve more, and the removal after at most sixteen. *)
Theorem C91_safe : forall K D (P : K -> Prop) hf cmp ps n (ops : list (hop K D)) t0 t rs (a : K * D) k sched,
  48 <= ps -> 0 < n -> cmp_ok P hf cmp -> Forall (fun o => P (op_key o)) ops -> create_hashtable ps n hf cmp = Ok t0 -> hrun t0 ops = Ok (t, rs) ->
  inuse_slots t + 1 <= ht_size t / 2 ->
  exists u p q, mix a k sched t IStart DStart = Ok (u, p, q) /\
    (Z.to_nat (ht_size t) + 12 < length (filter (fun x => x) sched) -> p = IDone)%nat /\ (16 <= length (filter negb sched) -> exists b, q = DDone b)%nat.
Proof.
  intros K D P hf cmp ps n ops t0 t rs a k sched Hps Hn CO HP E0 E HG.
  destruct (create_spec (D := D) ps n hf cmp Hps Hn) as (t1 & H0 & I0 & _). rewrite E0 in H0. injection H0 as <-.
  destruct (hrun_bag P hf cmp CO ops t0 [] [] I0) as (t' & xs & l & c & H1 & I & _); auto; [constructor|]. rewrite E in H1. injection H1 as <- _. rewrite (inuse_count I) in HG. eapply mix_safe; eauto.
Qed.
Print Assumptions C91_safe.

Lemma latest K D (P : K -> Prop) hf cmp (t : htable K D) l c k d rest : cmp_ok P hf cmp -> ht_inv hf cmp t l c -> keys_in P c -> NoDup (map fst c) -> foreach_hash_entry (fun _ => t) note [] = Ok ((Some k, Some d) :: rest, 0) ->
  exists i l' c', l = i :: l' /\ c = (k, d) :: c' /\ rest = given c' /\ lookup t k = Ok (Some i).
Proof.
  intros CO I KI N W. rewrite (note_inv t l c note I (fun _ _ _ => eq_refl)) in W. destruct c as [|[k0 d0] c']; [discriminate W|]. injection W as -> -> <-.
  pose proof (inv_cont _ _ _ _ _ I) as Fa. inversion Fa as [|i ? l' ? _ _]; subst. exists i, l', c'. split; [reflexivity|]. split; [reflexivity|]. split; [reflexivity|].
  assert (Pk : forall x, In x (map fst ((k, d) :: c')) -> P x) by (intros x Hx; apply in_map_iff in Hx as ([x0 y0] & <- & Hx); unfold keys_in in KI; rewrite Forall_forall in KI; exact (KI _ Hx)).
  eapply head_lookup; [exact I| |].
  - split; [reflexivity|]. apply (CO k k); auto; apply Pk; left; reflexivity.
  - intros k' Hk' [M1 M2]. inversion N as [|? ? Nk _]; subst. apply Nk. assert (k' = k) by (apply (CO k' k); auto; apply Pk; [right; exact Hk'|left; reflexivity]). subst k'. exact Hk'.
Qed.

(** But for every table, its latest entry and any entry to add there is an interleaving after which both calls have returned, and every later pass over
    the table is given, after the new entry, one without key and data. *)
Theorem C91_ghost_law : forall K D (P : K -> Prop) hf cmp eqb ps n (ops : list (hop K D)) t0 t rs (a : K * D) k d rest,
  48 <= ps -> 0 < n -> cmp_ok P hf cmp -> eqb_ok eqb -> Forall (fun o => P (op_key o)) ops -> adds_absent eqb [] ops -> create_hashtable ps n hf cmp = Ok t0 -> hrun t0 ops = Ok (t, rs) ->
  inuse_slots t <= ht_size t / 2 -> foreach_hash_entry (fun _ => t) note [] = Ok ((Some k, Some d) :: rest, 0) ->
  exists sched u, mix a k sched t IStart DStart = Ok (u, IDone, DDone true) /\ ht_count u = ht_count t /\
    foreach_hash_entry (fun _ => u) note [] = Ok ((Some (fst a), Some (snd a)) :: (None, None) :: rest, 0).
Proof.
  intros K D P hf cmp eqb ps n ops t0 t rs a k d rest Hps Hn CO EO HP HA E0 E HG W. destruct (reached K D P hf cmp eqb ps n ops t0 t rs) as (l & c & I & KI & N & _); auto. rewrite (inuse_count I) in HG.
  destruct (latest K D P hf cmp t l c k d rest CO I KI N W) as (i & l' & c' & -> & -> & -> & Lk). eapply ghost; eauto.
Qed.
Print Assumptions C91_ghost_law.

(** And one after which the entry added is in a slot and counted, while no pass over the table is given it. *)
Theorem C91_dropped_law : forall K D (P : K -> Prop) hf cmp eqb ps n (ops : list (hop K D)) t0 t rs (a : K * D) k d rest,
  48 <= ps -> 0 < n -> cmp_ok P hf cmp -> eqb_ok eqb -> Forall (fun o => P (op_key o)) ops -> adds_absent eqb [] ops -> create_hashtable ps n hf cmp = Ok t0 -> hrun t0 ops = Ok (t, rs) ->
  inuse_slots t <= ht_size t / 2 -> foreach_hash_entry (fun _ => t) note [] = Ok ((Some k, Some d) :: rest, 0) ->
  exists sched u y e, mix a k sched t IStart DStart = Ok (u, IDone, DDone true) /\ ht_count u = ht_count t /\
    nth_error (ht_table u) y = Some e /\ he_status e = INUSE /\ he_key e = Some (fst a) /\ he_data e = Some (snd a) /\ foreach_hash_entry (fun _ => u) note [] = Ok (rest, 0).
Proof.
  intros K D P hf cmp eqb ps n ops t0 t rs a k d rest Hps Hn CO EO HP HA E0 E HG W. destruct (reached K D P hf cmp eqb ps n ops t0 t rs) as (l & c & I & KI & N & _); auto. rewrite (inuse_count I) in HG.
  destruct (latest K D P hf cmp t l c k d rest CO I KI N W) as (i & l' & c' & -> & -> & -> & Lk). eapply dropped; eauto.
Qed.
Print Assumptions C91_dropped_law.

(** The table of functions not found yet, after any history: gotcha_wrap enters a function while dlopen, having found the latest of them, removes it.
    There is an interleaving after which the second entry of the table is one on which per_binding, so the next dlopen, crashes; and one after
    which dlopen never looks at the new function.  Missing: the rest of both calls. *)
Theorem C91_dlopen_law_partial : forall e maps mem ops st rs name b name' b' rest, process_ok e maps ops -> fresh e ops -> run e (init_state maps mem) ops = Ok (st, rs) -> s_init st = true ->
  let t := b_nf (s_b st) in inuse_slots t <= ht_size t / 2 -> foreach_hash_entry (fun _ => t) note [] = Ok ((Some name, Some b) :: rest, 0) ->
  (exists sched u, mix (name', b') name sched t IStart DStart = Ok (u, IDone, DDone true) /\
    foreach_hash_entry (fun _ => u) note [] = Ok ((Some name', Some b') :: (None, None) :: rest, 0) /\ forall st', per_binding e None None st' = Fault NullDeref) /\
  (exists sched u, mix (name', b') name sched t IStart DStart = Ok (u, IDone, DDone true) /\ foreach_hash_entry (fun _ => u) note [] = Ok (rest, 0)).
Proof.
  intros e maps mem ops st rs name b name' b' rest P F E Hi t HG W. destruct (run_hist e maps mem ops P F) as (st' & E' & R). rewrite E in E'. injection E' as <- _.
  destruct R as [Q|[ch S]]; [rewrite (pr_i _ _ _ _ _ Q) in Hi; discriminate Hi|]. destruct (sr_nf _ _ _ _ _ _ _ _ S) as (g & (l & c & I & KI & N & _) & _). fold t in I. rewrite (inuse_count I) in HG.
  destruct (latest _ _ anyk strhash libc_strcmp t l c name b rest (strcmp_cmp_ok _ _) I KI N W) as (i & l' & c' & -> & -> & -> & Lk). split.
  - destruct (ghost t i l' name b c' (name', b') note I HG Lk (fun _ _ _ => eq_refl)) as (sched & u & A & _ & X). exists sched, u. auto.
  - destruct (dropped t i l' name b c' (name', b') note I HG Lk (fun _ _ _ => eq_refl)) as (sched & u & y & ey & A & _ & _ & _ & _ & _ & X). exists sched, u. auto.
Qed.
Print Assumptions C91_dlopen_law_partial.

(** *** Examples *)
Definition tug_t : htable Z Z := four_t [HAdd 1 10; HAdd 2 11].
Definition tug (sched : list bool) := match mix (0, 12) 2 sched tug_t IStart DStart with
  | Ok (u, IDone, DDone b) => (b, inuse_slots u, ht_count u, foreach_hash_entry (fun _ => u) note []) | _ => (false, 0, 0, Ok ([], 0)) end.
(** the hypotheses hold, and one call after the other goes well *)
Example C91_ex_hyps : inuse_slots tug_t <= ht_size tug_t / 2 /\ foreach_hash_entry (fun _ => tug_t) note [] = Ok ([(Some 2, Some 11); (Some 1, Some 10)], 0) /\
  inuse_slots (four_t [HAdd 1 10]) + 1 <= ht_size (four_t [HAdd 1 10]) / 2 /\
  tug (repeat true 20 ++ repeat false 20) = (true, 2, 2, Ok ([(Some 0, Some 12); (Some 1, Some 10)], 0)) /\ tug (repeat false 20 ++ repeat true 20) = (true, 2, 2, Ok ([(Some 0, Some 12); (Some 1, Some 10)], 0)).
Proof. split; [vm_compute; discriminate|]. split; [vm_compute; reflexivity|]. split; [vm_compute; discriminate|]. split; vm_compute; reflexivity. Qed.
(** 0 reads the head, 2 is removed, 0 is linked in *)
Example C91_ex_ghost : tug (repeat true 7 ++ repeat false 20 ++ repeat true 10) = (true, 2, 2, Ok ([(Some 0, Some 12); (None, None); (Some 1, Some 10)], 0)).
Proof. vm_compute. reflexivity. Qed.
(** the removal of 2 is about to store the head, 0 is added *)
Example C91_ex_dropped : tug (repeat false 11 ++ repeat true 20 ++ repeat false 10) = (true, 2, 2, Ok ([(Some 1, Some 10)], 0)).
Proof. vm_compute. reflexivity. Qed.
(** the removal of an entry that is not the latest *)
Example C91_ex_inner : match mix (0, 12) 1 (repeat true 7 ++ repeat false 20 ++ repeat true 10) tug_t IStart DStart with
  | Ok (u, IDone, DDone true) => foreach_hash_entry (fun _ => u) note [] | _ => Ok ([], 0) end = Ok ([(Some 0, Some 12); (Some 2, Some 11)], 0).
Proof. vm_compute. reflexivity. Qed.
(** a process with a function waiting *)
Example C91_ex_dlopen : process_ok demo_env demo_libs hist1 /\ fresh demo_env hist1 /\ s_init (st_of (demo_run hist1)) = true /\
  (let t := b_nf (s_b (st_of (demo_run hist1))) in (inuse_slots t <=? ht_size t / 2) = true /\
   match foreach_hash_entry (fun _ => t) note [] with Ok ((Some name, Some _) :: _, 0) => cstr_eqb name g_name | _ => false end = true).
Proof. destruct hist1_ok as (H1 & H2 & _). split; [exact H1|]. split; [exact H2|]. split; [vm_compute; reflexivity|]. cbn zeta. split; vm_compute; reflexivity. Qed.
