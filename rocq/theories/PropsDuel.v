(** Property C90: two threads add an entry each to the same table at the same time. *)
From Verif Require Import Base ListFacts HashModel SpecHash HashProofs HashTrace ToolModel CoreModel SpecCore SpecRun CoreMaps CoreStep CoreMain CoreHist HashMoments CostProofs RaceModel WalkModel WalkProofs DuelModel DuelProofs PropsElf Demo PropsCoreEx PropsCost PropsWalk.
Open Scope list_scope.
Open Scope Z_scope.

(** One thread alone makes the addition, growth or not, on any table whatsoever; so two additions, one after the other, are two additions. *)
Theorem C90_alone : forall K D (t : htable K D) k d, addto_hashtable t k d <> Fault NoTermination ->
  exists q, isteps q k d (t, IStart) = match addto_hashtable t k d with Ok t' => Ok (t', IDone) | Fault f => Fault f end.
Proof. exact addto_run. Qed.
Print Assumptions C90_alone.

(** Any table with any history and room for both entries: whatever the interleaving, neither thread crashes, and each returns after at most one step
    per slot and twelve more. *)
Theorem C90_safe : forall K D (P : K -> Prop) hf cmp ps n (ops : list (hop K D)) t0 t rs (a b : K * D) sched,
  48 <= ps -> 0 < n -> cmp_ok P hf cmp -> Forall (fun o => P (op_key o)) ops -> create_hashtable ps n hf cmp = Ok t0 -> hrun t0 ops = Ok (t, rs) ->
  inuse_slots t + 1 <= ht_size t / 2 ->
  exists u p q, duel a b sched t IStart IStart = Ok (u, p, q) /\
    (Z.to_nat (ht_size t) + 12 < length (filter (fun x => x) sched) -> p = IDone)%nat /\ (Z.to_nat (ht_size t) + 12 < length (filter negb sched) -> q = IDone)%nat.
Proof.
  intros K D P hf cmp ps n ops t0 t rs a b sched Hps Hn CO HP E0 E HG.
  destruct (create_spec (D := D) ps n hf cmp Hps Hn) as (t1 & H0 & I0 & _). rewrite E0 in H0. injection H0 as <-.
  destruct (hrun_bag P hf cmp CO ops t0 [] [] I0) as (t' & xs & l & c & H1 & I & _); auto; [constructor|]. rewrite E in H1. injection H1 as <- _. rewrite (inuse_count I) in HG. eapply duel_safe; eauto.
Qed.
Print Assumptions C90_safe.

(** But for every table and any two entries there is an interleaving after which both slots are in use and both entries counted, while a pass
    over the table is given only one of the two. *)
Theorem C90_lost_law : forall K D (P : K -> Prop) hf cmp ps n (ops : list (hop K D)) t0 t rs (a b : K * D),
  48 <= ps -> 0 < n -> cmp_ok P hf cmp -> Forall (fun o => P (op_key o)) ops -> create_hashtable ps n hf cmp = Ok t0 -> hrun t0 ops = Ok (t, rs) ->
  inuse_slots t <= ht_size t / 2 -> 3 <= ht_size t ->
  exists c sched u, foreach_hash_entry (fun _ => t) note [] = Ok (map (fun p => (Some (fst p), Some (snd p))) c, 0) /\
    duel a b sched t IStart IStart = Ok (u, IDone, IDone) /\ inuse_slots u = inuse_slots t + 2 /\ ht_count u = ht_count t + 2 /\
    foreach_hash_entry (fun _ => u) note [] = Ok (map (fun p => (Some (fst p), Some (snd p))) (a :: c), 0).
Proof.
  intros K D P hf cmp ps n ops t0 t rs a b Hps Hn CO HP E0 E HG H3.
  destruct (create_spec (D := D) ps n hf cmp Hps Hn) as (t1 & H0 & I0 & _). rewrite E0 in H0. injection H0 as <-.
  destruct (hrun_bag P hf cmp CO ops t0 [] [] I0) as (t' & xs & l & c & H1 & I & _); auto; [constructor|]. rewrite E in H1. injection H1 as <- _. rewrite (inuse_count I) in HG.
  destruct (lost_link t l c a b note I HG H3 (fun _ _ _ => eq_refl)) as (sched & u & A & B & C & F). exists c, sched, u. split; [exact (note_inv t l c note I (fun _ _ _ => eq_refl))|auto].
Qed.
Print Assumptions C90_lost_law.

(** And if the search for a slot starts at the same place for both, as it does for two entries of the same key, there is an interleaving after
    which only one slot more is in use, and a pass over the table never ends. *)
Theorem C90_endless_law : forall K D (P : K -> Prop) hf cmp ps n (ops : list (hop K D)) t0 t rs (a b : K * D),
  48 <= ps -> 0 < n -> cmp_ok P hf cmp -> Forall (fun o => P (op_key o)) ops -> create_hashtable ps n hf cmp = Ok t0 -> hrun t0 ops = Ok (t, rs) ->
  inuse_slots t <= ht_size t / 2 -> u64 (hf (fst a)) mod ht_size t = u64 (hf (fst b)) mod ht_size t ->
  exists sched u, duel a b sched t IStart IStart = Ok (u, IDone, IDone) /\ inuse_slots u = inuse_slots t + 1 /\
    forall q, exists pc out, walk (repeat false q) (mkW u [] []) (FStart, []) = Ok (mkW u [] [], (pc, out)) /\ pc <> FDone.
Proof.
  intros K D P hf cmp ps n ops t0 t rs a b Hps Hn CO HP E0 E HG HS.
  destruct (create_spec (D := D) ps n hf cmp Hps Hn) as (t1 & H0 & I0 & _). rewrite E0 in H0. injection H0 as <-.
  destruct (hrun_bag P hf cmp CO ops t0 [] [] I0) as (t' & xs & l & c & H1 & I & _); auto; [constructor|]. rewrite E in H1. injection H1 as <- _. rewrite (inuse_count I) in HG.
  eapply same_slot; eauto. unfold start. rewrite HS. reflexivity.
Qed.
Print Assumptions C90_endless_law.

(** The table of functions not found yet, after any history: two calls of gotcha_wrap in two threads enter a function each.  There is an interleaving
    after which dlopen looks at one of the two and never at the other.  Missing: the rest of both calls. *)
Theorem C90_overlooked_law_partial : forall e maps mem ops st rs name b name' b', process_ok e maps ops -> fresh e ops -> run e (init_state maps mem) ops = Ok (st, rs) -> s_init st = true ->
  let t := b_nf (s_b st) in lookup_hashtable t name' = Ok None -> name <> name' -> inuse_slots t <= ht_size t / 2 -> 3 <= ht_size t ->
  exists sched u out, duel (name, b) (name', b') sched t IStart IStart = Ok (u, IDone, IDone) /\ inuse_slots u = inuse_slots t + 2 /\
    foreach_hash_entry (fun _ => u) note [] = Ok (out, 0) /\ In (Some name, Some b) out /\ ~ In (Some name') (map fst out).
Proof.
  intros e maps mem ops st rs name b name' b' P F E Hi t Abs Ne HG H3. destruct (run_hist e maps mem ops P F) as (st' & E' & R). rewrite E in E'. injection E' as <- _.
  destruct R as [Q|[ch S]]; [rewrite (pr_i _ _ _ _ _ Q) in Hi; discriminate Hi|]. destruct (sr_nf _ _ _ _ _ _ _ _ S) as (g & Gm & _). fold t in Gm. pose proof (smap_lookup _ _ name' Gm) as L. rewrite Abs in L. destruct Gm as (l & c & I & _ & _ & Eg). rewrite (inuse_count I) in HG.
  destruct (lost_link t l c (name, b) (name', b') note I HG H3 (fun _ _ _ => eq_refl)) as (sched & u & A & B & _ & X). exists sched, u, (given ((name, b) :: c)). split; [exact A|]. split; [exact B|]. split; [exact X|]. split; [left; reflexivity|].
  unfold given. rewrite map_map. cbn [map fst]. intros [Y|Y]; [congruence|]. apply in_map_iff in Y as ((k & d) & Hk & Hin). cbn in Hk. injection Hk as ->.
  rewrite <- Eg in L. unfold aget in L. destruct (find _ c) as [[k2 d2]|] eqn:Fi; [discriminate L|]. pose proof (find_none _ _ Fi _ Hin) as Z. cbn in Z. rewrite cstr_eqb_refl in Z. discriminate Z.
Qed.
Print Assumptions C90_overlooked_law_partial.

(** If both enter the same function, there is an interleaving after which the next dlopen that finds none of the functions never ends. *)
Theorem C90_hang_law_partial : forall e maps mem ops st rs name b b', process_ok e maps ops -> fresh e ops -> run e (init_state maps mem) ops = Ok (st, rs) -> s_init st = true ->
  let t := b_nf (s_b st) in inuse_slots t <= ht_size t / 2 ->
  exists sched u, duel (name, b) (name, b') sched t IStart IStart = Ok (u, IDone, IDone) /\
    forall q, exists pc out, walk (repeat false q) (mkW u [] []) (FStart, []) = Ok (mkW u [] [], (pc, out)) /\ pc <> FDone.
Proof.
  intros e maps mem ops st rs name b b' P F E Hi t HG. destruct (run_hist e maps mem ops P F) as (st' & E' & R). rewrite E in E'. injection E' as <- _.
  destruct R as [Q|[ch S]]; [rewrite (pr_i _ _ _ _ _ Q) in Hi; discriminate Hi|]. destruct (sr_nf _ _ _ _ _ _ _ _ S) as (g & (l & c & I & _) & _). fold t in I. rewrite (inuse_count I) in HG.
  destruct (same_slot t l c (name, b) (name, b') I HG eq_refl) as (sched & u & A & _ & X). eauto.
Qed.
Print Assumptions C90_hang_law_partial.

(** *** Examples *)
Definition ex_t : htable Z Z := four_t [HAdd 1 10].
Definition ended (x : outcome (htable Z Z * ipc * ipc)) : option (htable Z Z) := match x with Ok (u, IDone, IDone) => Some u | _ => None end.
Definition seen (x : option (htable Z Z)) (k : Z) := match x with Some u => (lookup_hashtable u k, inuse_slots u, ht_count u, foreach_hash_entry (fun _ => u) note []) | None => (Ok None, 0, 0, Ok ([], 0)) end.
(** the hypotheses hold, and one addition after the other goes well *)
Example C90_ex_hyps : inuse_slots ex_t + 1 <= ht_size ex_t / 2 /\ 3 <= ht_size ex_t /\
  seen (ended (duel (0, 11) (2, 12) (repeat true 20 ++ repeat false 20) ex_t IStart IStart)) 2 = (Ok (Some 12), 3, 3, Ok ([(Some 2, Some 12); (Some 0, Some 11); (Some 1, Some 10)], 0)).
Proof. split; [vm_compute; discriminate|]. split; [vm_compute; discriminate|]. vm_compute. reflexivity. Qed.
(** 0 reads the head, 2 is added, 0 is linked in: 2 is found by lookups and not seen by a pass *)
Example C90_ex_lost : seen (ended (duel (0, 11) (2, 12) (repeat true 7 ++ repeat false 20 ++ repeat true 10) ex_t IStart IStart)) 2 = (Ok (Some 12), 3, 3, Ok ([(Some 0, Some 11); (Some 1, Some 10)], 0)).
Proof. vm_compute. reflexivity. Qed.
(** both read the count: it is one too small *)
Example C90_ex_count : match ended (duel (0, 11) (2, 12) (repeat true 13 ++ repeat false 20 ++ repeat true 5) ex_t IStart IStart) with Some u => (inuse_slots u, ht_count u) | None => (0, 0) end = (3, 2).
Proof. vm_compute. reflexivity. Qed.
(** 0 and 4 are at home in the same slot: 4 is gone though its addition has returned, and the pass goes round and round *)
Example C90_ex_endless : u64 (idz 0) mod ht_size ex_t = u64 (idz 4) mod ht_size ex_t /\
  seen (ended (duel (0, 11) (4, 12) (repeat true 2 ++ repeat false 20 ++ repeat true 15) ex_t IStart IStart)) 4 = (Ok None, 2, 3, Fault NoTermination).
Proof. vm_compute. split; reflexivity. Qed.
(** a function entered twice in a table of functions not found *)
Example C90_ex_hang : process_ok demo_env demo_libs hist1 /\ fresh demo_env hist1 /\ s_init (st_of (demo_run hist1)) = true /\
  (let t := b_nf (s_b (st_of (demo_run hist1))) in lookup_hashtable t [104] = Ok None /\ (inuse_slots t <=? ht_size t / 2) = true /\ (3 <=? ht_size t) = true /\
   match duel ([104], 7%nat) ([104], 8%nat) (repeat true 2 ++ repeat false 200 ++ repeat true 200) t IStart IStart with
   | Ok (u, IDone, IDone) => match foreach_hash_entry (fun _ => u) note [] with Fault NoTermination => true | _ => false end
   | _ => false
   end = true).
Proof.
  destruct hist1_ok as (H1 & H2 & _). split; [exact H1|]. split; [exact H2|]. split; [vm_compute; reflexivity|]. cbn zeta. do 3 (split; [vm_compute; reflexivity|]). vm_compute. reflexivity.
Qed.
