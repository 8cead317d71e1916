(** Property C92: two threads remove an entry each of the same table at the same time. *)
From Verif Require Import Base ListFacts HashModel SpecHash HashProofs HashTrace ToolModel CoreModel SpecCore SpecRun CoreMaps CoreStep CoreMain CoreHist HashMoments CostProofs RaceModel WalkModel WalkProofs DuelModel DuelProofs TugModel TugProofs ReapModel ReapProofs PropsMoments PropsElf Demo PropsCoreEx PropsCost PropsWalk PropsTug.
Open Scope list_scope.
Open Scope Z_scope.

(** Any table with any history, two keys with different hash values other than 0: whatever the interleaving and whether the keys are there or not,
    neither thread crashes and each returns after at most sixteen steps. *)
Theorem C92_safe : forall K D (P : K -> Prop) hf cmp ps n (ops : list (hop K D)) t0 t rs k1 k2 sched,
  48 <= ps -> 0 < n -> cmp_ok P hf cmp -> Forall (fun o => P (op_key o)) ops -> create_hashtable ps n hf cmp = Ok t0 -> hrun t0 ops = Ok (t, rs) ->
  hf k1 <> hf k2 -> hf k1 <> 0 -> hf k2 <> 0 ->
  exists u p q, reap k1 k2 sched t DStart DStart = Ok (u, p, q) /\
    (16 <= length (filter (fun x => x) sched) -> exists b, p = DDone b)%nat /\ (16 <= length (filter negb sched) -> exists b, q = DDone b)%nat.
Proof.
  intros K D P hf cmp ps n ops t0 t rs k1 k2 sched Hps Hn CO HP E0 E Ne N1 N2.
  destruct (create_spec (D := D) ps n hf cmp Hps Hn) as (t1 & H0 & I0 & _). rewrite E0 in H0. injection H0 as <-.
  destruct (hrun_bag P hf cmp CO ops t0 [] [] I0) as (t' & xs & l & c & H1 & I & _); auto; [constructor|]. rewrite E in H1. injection H1 as <- _. eapply reap_safe; eauto.
Qed.
Print Assumptions C92_safe.

Lemma lookup_index K D (t : htable K D) k d : lookup_hashtable t k = Ok (Some d) -> exists i, lookup t k = Ok (Some i).
Proof. unfold lookup_hashtable. destruct (lookup t k) as [[i|]|]; cbn [bind]; [eauto|discriminate|discriminate]. Qed.

(** But with the same key: for every table and every key in it there is an interleaving in which the second thread crashes, *)
Theorem C92_crash_law : forall K D (t : htable K D) k d, lookup_hashtable t k = Ok (Some d) ->
  exists sched, reap k k sched t DStart DStart = Fault NullDeref.
Proof. intros K D t k d H. destruct (lookup_index _ _ _ _ _ H) as (i & L). eexists. eapply reap_crash; eauto. Qed.
Print Assumptions C92_crash_law.

(** and one after which both have returned that they removed it, and the count is one less than the number of entries: if there was only the one entry, it is
    below zero. *)
Theorem C92_twice_law : forall K D (P : K -> Prop) hf cmp ps n (ops : list (hop K D)) t0 t rs k d,
  48 <= ps -> 0 < n -> cmp_ok P hf cmp -> Forall (fun o => P (op_key o)) ops -> create_hashtable ps n hf cmp = Ok t0 -> hrun t0 ops = Ok (t, rs) ->
  lookup_hashtable t k = Ok (Some d) ->
  exists sched u, reap k k sched t DStart DStart = Ok (u, DDone true, DDone true) /\ inuse_slots u = inuse_slots t - 1 /\ ht_count u = inuse_slots u - 1.
Proof.
  intros K D P hf cmp ps n ops t0 t rs k d Hps Hn CO HP E0 E H. destruct (lookup_index _ _ _ _ _ H) as (i & L).
  destruct (create_spec (D := D) ps n hf cmp Hps Hn) as (t1 & H0 & I0 & _). rewrite E0 in H0. injection H0 as <-.
  destruct (hrun_bag P hf cmp CO ops t0 [] [] I0) as (t' & xs & l & c & H1 & I & _); auto; [constructor|]. rewrite E in H1. injection H1 as <- _.
  destruct (reap_twice t l c k i I L) as (sched & u & A & B & C & _). exists sched, u. split; [exact A|]. split; [exact B|]. rewrite C, B, (inuse_count I). lia.
Qed.
Print Assumptions C92_twice_law.

(** In that last case the addition of another entry never ends: the count, a 64-bit number without sign, is larger than any size. *)
Theorem C92_endless_law : forall K D (P : K -> Prop) hf cmp ps n (ops : list (hop K D)) t0 t rs k d,
  48 <= ps -> 0 < n -> cmp_ok P hf cmp -> Forall (fun o => P (op_key o)) ops -> create_hashtable ps n hf cmp = Ok t0 -> hrun t0 ops = Ok (t, rs) ->
  lookup_hashtable t k = Ok (Some d) -> inuse_slots t = 1 -> ht_size t < 2 ^ 64 ->
  exists sched u, reap k k sched t DStart DStart = Ok (u, DDone true, DDone true) /\ inuse_slots u = 0 /\ forall fuel, grow64 fuel (u64 (ht_count u)) (ht_size u) = Fault NoTermination.
Proof.
  intros K D P hf cmp ps n ops t0 t rs k d Hps Hn CO HP E0 E H H1n Hs. destruct (lookup_index _ _ _ _ _ H) as (i & L).
  destruct (create_spec (D := D) ps n hf cmp Hps Hn) as (t1 & H0 & I0 & _). rewrite E0 in H0. injection H0 as <-.
  destruct (hrun_bag P hf cmp CO ops t0 [] [] I0) as (t' & xs & l & c & H1 & I & _); auto; [constructor|]. rewrite E in H1. injection H1 as <- _. pose proof (inv_pos _ _ _ _ _ I).
  destruct (reap_twice t l c k i I L) as (sched & u & A & B & C & Sz). exists sched, u. split; [exact A|]. split; [lia|]. intros fuel. rewrite Sz, C, <- (inuse_count I), H1n. apply grow64_never. lia.
Qed.
Print Assumptions C92_endless_law.

Lemma latest_two K D (P : K -> Prop) hf cmp (t : htable K D) l c k d k2 d2 rest : cmp_ok P hf cmp -> ht_inv hf cmp t l c -> keys_in P c -> NoDup (map fst c) -> foreach_hash_entry (fun _ => t) note [] = Ok ((Some k, Some d) :: (Some k2, Some d2) :: rest, 0) ->
  exists i j l' c', l = i :: j :: l' /\ c = (k, d) :: (k2, d2) :: c' /\ rest = given c' /\ lookup t k = Ok (Some i) /\ lookup t k2 = Ok (Some j).
Proof.
  intros CO I KI N W. destruct (latest K D P hf cmp t l c k d _ CO I KI N W) as (i & l1 & c1 & -> & -> & Er & Lk). destruct c1 as [|[k0 d0] c']; [discriminate Er|]. injection Er as <- <- ->.
  pose proof (inv_cont _ _ _ _ _ I) as Fa. inversion Fa as [|? ? ? ? _ Fa1]; subst. inversion Fa1 as [|j ? l' ? _ _]; subst. exists i, j, l', c'. do 4 (split; [assumption || reflexivity|]).
  assert (Pk : forall x, In x (map fst ((k, d) :: (k2, d2) :: c')) -> P x) by (intros x Hx; apply in_map_iff in Hx as ([x0 y0] & <- & Hx); unfold keys_in in KI; rewrite Forall_forall in KI; exact (KI _ Hx)).
  eapply second_lookup; [exact I| |].
  - split; [reflexivity|]. apply (CO k2 k2); auto; apply Pk; right; left; reflexivity.
  - cbn [map fst] in *. inversion N as [|? ? Nk N']; subst. inversion N' as [|? ? Nk2 _]; subst. intros k' Hk' [M1 M2]. assert (k' = k2) by (apply (CO k' k2); auto; apply Pk; [destruct Hk' as [<-|X]; [left; reflexivity|right; right; exact X]|right; left; reflexivity]). subst k'.
    destruct Hk' as [<-|X]; [apply Nk; left; reflexivity|exact (Nk2 X)].
Qed.

(** And with two keys: for every table, its latest two entries being removed, there is an interleaving after which both calls have returned and every
    later pass over the table is given an entry without key and data. *)
Theorem C92_ghost_law : forall K D (P : K -> Prop) hf cmp eqb ps n (ops : list (hop K D)) t0 t rs k d k2 d2 rest,
  48 <= ps -> 0 < n -> cmp_ok P hf cmp -> eqb_ok eqb -> Forall (fun o => P (op_key o)) ops -> adds_absent eqb [] ops -> create_hashtable ps n hf cmp = Ok t0 -> hrun t0 ops = Ok (t, rs) ->
  foreach_hash_entry (fun _ => t) note [] = Ok ((Some k, Some d) :: (Some k2, Some d2) :: rest, 0) ->
  exists sched u, reap k k2 sched t DStart DStart = Ok (u, DDone true, DDone true) /\ ht_count u = ht_count t - 2 /\
    foreach_hash_entry (fun _ => u) note [] = Ok ((None, None) :: rest, 0).
Proof.
  intros K D P hf cmp eqb ps n ops t0 t rs k d k2 d2 rest Hps Hn CO EO HP HA E0 E W. destruct (reached K D P hf cmp eqb ps n ops t0 t rs) as (l & c & I & KI & N & _); auto.
  destruct (latest_two K D P hf cmp t l c k d k2 d2 rest CO I KI N W) as (i & j & l' & c' & -> & -> & -> & L1 & L2). eapply reap_ghost; eauto.
Qed.
Print Assumptions C92_ghost_law.

(** The table of functions not found yet, after any history: two calls of dlopen in two threads both find a function that waits there.  One of them can
    crash, and if none does the count can be wrong afterwards.  If they find the latest two, the next dlopen can meet an entry on which
    per_binding crashes.  Missing: the rest of both calls. *)
Theorem C92_dlopen_law_partial : forall e maps mem ops st rs, process_ok e maps ops -> fresh e ops -> run e (init_state maps mem) ops = Ok (st, rs) -> s_init st = true ->
  let t := b_nf (s_b st) in
  (forall name, stack e maps ops name <> [] -> original e maps ops name = None ->
    (exists sched, reap name name sched t DStart DStart = Fault NullDeref) /\
    (exists sched u, reap name name sched t DStart DStart = Ok (u, DDone true, DDone true) /\ inuse_slots u = inuse_slots t - 1 /\ ht_count u = inuse_slots u - 1)) /\
  (forall name b name' b' rest, foreach_hash_entry (fun _ => t) note [] = Ok ((Some name, Some b) :: (Some name', Some b') :: rest, 0) ->
    exists sched u, reap name name' sched t DStart DStart = Ok (u, DDone true, DDone true) /\ foreach_hash_entry (fun _ => u) note [] = Ok ((None, None) :: rest, 0) /\
      forall st', per_binding e None None st' = Fault NullDeref).
Proof.
  intros e maps mem ops st rs P F E Hi t. destruct (run_hist e maps mem ops P F) as (st' & E' & R). rewrite E in E'. injection E' as <- _.
  destruct R as [Q|[ch S]]; [rewrite (pr_i _ _ _ _ _ Q) in Hi; discriminate Hi|]. destruct (sr_nf _ _ _ _ _ _ _ _ S) as (g & Gm & _ & Gn). fold t in Gm. split.
  - intros name HS HO. destruct (g name) as [b|] eqn:Eg; [|destruct (proj1 (Gn name) Eg); contradiction]. pose proof (smap_lookup _ _ name Gm) as L. rewrite Eg in L. destruct (lookup_index _ _ _ _ _ L) as (i & Li). split; [eexists; eapply reap_crash; exact Li|].
    destruct Gm as (l & c & I & _). destruct (reap_twice t l c name i I Li) as (sched & u & A & B & C & _). exists sched, u. split; [exact A|]. split; [exact B|]. rewrite C, B, (inuse_count I). lia.
  - intros name b name' b' rest W. destruct Gm as (l & c & I & KI & N & _). destruct (latest_two _ _ anyk strhash libc_strcmp t l c name b name' b' rest (strcmp_cmp_ok _ _) I KI N W) as (i & j & l' & c' & -> & -> & -> & L1 & L2).
    destruct (reap_ghost t i j l' name b name' b' c' note I L1 L2 (fun _ _ _ => eq_refl)) as (sched & u & A & _ & X). exists sched, u. auto.
Qed.
Print Assumptions C92_dlopen_law_partial.

(** *** Examples *)
Definition reap_t : htable Z Z := four_t [HAdd 1 10; HAdd 2 11; HAdd 3 12].
Definition shear (k1 k2 : Z) (sched : list bool) := match reap k1 k2 sched reap_t DStart DStart with
  | Ok (u, DDone a, DDone b) => Ok (a, b, inuse_slots u, ht_count u, foreach_hash_entry (fun _ => u) note []) | Ok _ => Fault NoTermination | Fault f => Fault f end.
(** the hypotheses hold, and one call after the other goes well *)
Example C92_ex_hyps : idz 3 <> idz 2 /\ idz 3 <> 0 /\ idz 2 <> 0 /\ lookup_hashtable reap_t 3 = Ok (Some 12) /\ foreach_hash_entry (fun _ => reap_t) note [] = Ok ([(Some 3, Some 12); (Some 2, Some 11); (Some 1, Some 10)], 0) /\
  shear 3 2 (repeat true 16 ++ repeat false 16) = Ok (true, true, 1, 1, Ok ([(Some 1, Some 10)], 0)) /\ shear 3 3 (repeat true 16 ++ repeat false 16) = Ok (true, false, 2, 2, Ok ([(Some 2, Some 11); (Some 1, Some 10)], 0)).
Proof. do 3 (split; [discriminate|]). do 3 (split; [vm_compute; reflexivity|]). vm_compute. reflexivity. Qed.
(** the key is cleared and looked for *)
Example C92_ex_crash : shear 3 3 [true; true; false] = Fault NullDeref.
Proof. vm_compute. reflexivity. Qed.
(** both find it *)
Example C92_ex_twice : shear 3 3 ([true; false] ++ repeat true 16 ++ repeat false 16) = Ok (true, true, 2, 1, Ok ([(Some 2, Some 11); (Some 1, Some 10)], 0)).
Proof. vm_compute. reflexivity. Qed.
(** the only entry *)
Example C92_ex_below : match reap 1 1 ([true; false] ++ repeat true 16 ++ repeat false 16) (four_t [HAdd 1 10]) DStart DStart with Ok (u, DDone true, DDone true) => (inuse_slots u, ht_count u) | _ => (0, 0) end = (0, -1).
Proof. vm_compute. reflexivity. Qed.
Example C92_ex_grow64 : grow64 10 3 4 = Ok 8 /\ grow64 10 2 4 = Ok 4 /\ inuse_slots (four_t [HAdd 1 10]) = 1 /\ ht_size (four_t [HAdd 1 10]) < 2 ^ 64.
Proof. do 3 (split; [vm_compute; reflexivity|]). vm_compute. reflexivity. Qed.
(** neighbours *)
Example C92_ex_ghost : shear 3 2 (repeat true 11 ++ repeat false 16 ++ repeat true 16) = Ok (true, true, 1, 1, Ok ([(None, None); (Some 1, Some 10)], 0)).
Proof. vm_compute. reflexivity. Qed.
(** why the hash values must not be 0: the entry of 4, its key cleared, has that hash value for a moment, and 0 is looked for in the same slot *)
Example C92_ex_zero : idz 4 <> idz 0 /\ reap 4 0 (repeat true 4 ++ repeat false 1) (four_t [HAdd 4 8]) DStart DStart = Fault NullDeref.
Proof. split; [discriminate|vm_compute; reflexivity]. Qed.
(** a process with a function waiting *)
Example C92_ex_dlopen : process_ok demo_env demo_libs hist1 /\ fresh demo_env hist1 /\ s_init (st_of (demo_run hist1)) = true /\ stack demo_env demo_libs hist1 g_name <> [] /\ original demo_env demo_libs hist1 g_name = None.
Proof. destruct hist1_ok as (H1 & H2 & _). split; [exact H1|]. split; [exact H2|]. split; [vm_compute; reflexivity|]. exact (proj1 C89_ex_pending). Qed.
