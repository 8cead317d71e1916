(** Properties C91 and C92 with the search of a removal, too, access by access. *)
From Verif Require Import Base ListFacts HashModel SpecHash HashProofs HashTrace HashMoments CostProofs RaceModel WalkModel WalkProofs DuelModel DuelProofs TugModel TugProofs ReapModel ReapProofs SeekModel SeekProofs PropsMoments PropsWalk PropsTug PropsReap PropsElf Demo PropsCoreEx PropsCost.
Open Scope list_scope.
Open Scope Z_scope.

(** One thread alone makes the removal, on any table whose size is positive and that has a comparison. *)
Theorem C91_search_alone : forall K D (t : htable K D) k, 0 < ht_size t -> ht_keycmp t <> None ->
  exists q, ssteps q k (t, Seek RStart) = match removefrom_hashtable t k with Ok (t', b) => Ok (t', Gone (DDone b)) | Fault f => Fault f end.
Proof. intros K D t k Hp Hc. apply seek_run; [exact Hc|apply lookup_fuel; exact Hp]. Qed.
Print Assumptions C91_search_alone.

(** Any table with any history and room for the entry: whatever the interleaving of single accesses, neither thread crashes, the addition returns after
    at most one step per slot and twelve more, and the removal after at most five per slot and seventeen more. *)
Theorem C91_search_safe : forall K D (P : K -> Prop) hf cmp ps n (ops : list (hop K D)) t0 t rs (a : K * D) k sched,
  48 <= ps -> 0 < n -> cmp_ok P hf cmp -> Forall (fun o => P (op_key o)) ops -> create_hashtable ps n hf cmp = Ok t0 -> hrun t0 ops = Ok (t, rs) ->
  inuse_slots t + 1 <= ht_size t / 2 ->
  exists u p x, seek_mix a k sched t IStart (Seek RStart) = Ok (u, p, x) /\
    (Z.to_nat (ht_size t) + 12 < length (filter (fun x => x) sched) -> p = IDone)%nat /\ (5 * Z.to_nat (ht_size t) + 17 <= length (filter negb sched) -> exists b, x = Gone (DDone b))%nat.
Proof.
  intros K D P hf cmp ps n ops t0 t rs a k sched Hps Hn CO HP E0 E HG.
  destruct (create_spec (D := D) ps n hf cmp Hps Hn) as (t1 & H0 & I0 & _). rewrite E0 in H0. injection H0 as <-.
  destruct (hrun_bag P hf cmp CO ops t0 [] [] I0) as (t' & xs & l & c & H1 & I & _); auto; [constructor|]. rewrite E in H1. injection H1 as <- _. rewrite (inuse_count I) in HG. eapply seek_mix_safe; eauto.
Qed.
Print Assumptions C91_search_safe.

Lemma inv_steady K D hf cmp (t : htable K D) l c : ht_inv hf cmp t l c -> steady t.
Proof. intros I. split; [exact (inv_pos _ _ _ _ _ I)|rewrite (inv_cmp _ _ _ _ _ I); discriminate]. Qed.

(** There is an interleaving of single accesses after which every pass meets an entry without key and data, and one after which no pass meets the new entry. *)
Theorem C91_search_law : forall K D (P : K -> Prop) hf cmp eqb ps n (ops : list (hop K D)) t0 t rs (a : K * D) k d rest,
  48 <= ps -> 0 < n -> cmp_ok P hf cmp -> eqb_ok eqb -> Forall (fun o => P (op_key o)) ops -> adds_absent eqb [] ops -> create_hashtable ps n hf cmp = Ok t0 -> hrun t0 ops = Ok (t, rs) ->
  inuse_slots t <= ht_size t / 2 -> foreach_hash_entry (fun _ => t) note [] = Ok ((Some k, Some d) :: rest, 0) ->
  (exists sched u, seek_mix a k sched t IStart (Seek RStart) = Ok (u, IDone, Gone (DDone true)) /\ ht_count u = ht_count t /\
    foreach_hash_entry (fun _ => u) note [] = Ok ((Some (fst a), Some (snd a)) :: (None, None) :: rest, 0)) /\
  (exists sched u y e, seek_mix a k sched t IStart (Seek RStart) = Ok (u, IDone, Gone (DDone true)) /\ ht_count u = ht_count t /\
    nth_error (ht_table u) y = Some e /\ he_status e = INUSE /\ he_key e = Some (fst a) /\ he_data e = Some (snd a) /\ foreach_hash_entry (fun _ => u) note [] = Ok (rest, 0)).
Proof.
  intros K D P hf cmp eqb ps n ops t0 t rs a k d rest Hps Hn CO EO HP HA E0 E HG W. destruct (reached K D P hf cmp eqb ps n ops t0 t rs) as (l & c & I & _); auto. pose proof (inv_steady _ _ _ _ _ _ _ I) as St. split.
  - destruct (C91_ghost_law K D P hf cmp eqb ps n ops t0 t rs a k d rest) as (s & u & M & R); auto. destruct (mix_fine a k s t IStart DStart St) as (s' & F). rewrite M in F. exists s', u. split; [exact F|exact R].
  - destruct (C91_dropped_law K D P hf cmp eqb ps n ops t0 t rs a k d rest) as (s & u & y & e & M & R); auto. destruct (mix_fine a k s t IStart DStart St) as (s' & F). rewrite M in F. exists s', u, y, e. split; [exact F|exact R].
Qed.
Print Assumptions C91_search_law.

(** Two removals of keys with different hash values other than 0: whatever the interleaving of single accesses, neither crashes and both return. *)
Theorem C92_search_safe : forall K D (P : K -> Prop) hf cmp ps n (ops : list (hop K D)) t0 t rs k1 k2 sched,
  48 <= ps -> 0 < n -> cmp_ok P hf cmp -> Forall (fun o => P (op_key o)) ops -> create_hashtable ps n hf cmp = Ok t0 -> hrun t0 ops = Ok (t, rs) ->
  hf k1 <> hf k2 -> hf k1 <> 0 -> hf k2 <> 0 ->
  exists u x y, seek_reap k1 k2 sched t (Seek RStart) (Seek RStart) = Ok (u, x, y) /\
    (5 * Z.to_nat (ht_size t) + 17 <= length (filter (fun x => x) sched) -> exists b, x = Gone (DDone b))%nat /\ (5 * Z.to_nat (ht_size t) + 17 <= length (filter negb sched) -> exists b, y = Gone (DDone b))%nat.
Proof.
  intros K D P hf cmp ps n ops t0 t rs k1 k2 sched Hps Hn CO HP E0 E Ne N1 N2.
  destruct (create_spec (D := D) ps n hf cmp Hps Hn) as (t1 & H0 & I0 & _). rewrite E0 in H0. injection H0 as <-.
  destruct (hrun_bag P hf cmp CO ops t0 [] [] I0) as (t' & xs & l & c & H1 & I & _); auto; [constructor|]. rewrite E in H1. injection H1 as <- _. eapply seek_reap_safe; eauto.
Qed.
Print Assumptions C92_search_safe.

(** Two removals of one key that is there: an interleaving of single accesses in which one crashes, and one after which both report success and the count
    is one too small. *)
Theorem C92_search_law : forall K D (P : K -> Prop) hf cmp ps n (ops : list (hop K D)) t0 t rs k d,
  48 <= ps -> 0 < n -> cmp_ok P hf cmp -> Forall (fun o => P (op_key o)) ops -> create_hashtable ps n hf cmp = Ok t0 -> hrun t0 ops = Ok (t, rs) ->
  lookup_hashtable t k = Ok (Some d) ->
  (exists sched, seek_reap k k sched t (Seek RStart) (Seek RStart) = Fault NullDeref) /\
  (exists sched u, seek_reap k k sched t (Seek RStart) (Seek RStart) = Ok (u, Gone (DDone true), Gone (DDone true)) /\ inuse_slots u = inuse_slots t - 1 /\ ht_count u = inuse_slots u - 1).
Proof.
  intros K D P hf cmp ps n ops t0 t rs k d Hps Hn CO HP E0 E H. assert (St : steady t).
  { destruct (create_spec (D := D) ps n hf cmp Hps Hn) as (t1 & H0 & I0 & _). rewrite E0 in H0. injection H0 as <-. destruct (hrun_bag P hf cmp CO ops t0 [] [] I0) as (t' & xs & l & c & H1 & I & _); auto; [constructor|]. rewrite E in H1. injection H1 as <- _. eapply inv_steady; eauto. }
  split.
  - destruct (C92_crash_law K D t k d H) as (s & M). destruct (reap_fine k k s t DStart DStart St) as (s' & F). rewrite M in F. exists s'. exact F.
  - destruct (C92_twice_law K D P hf cmp ps n ops t0 t rs k d) as (s & u & M & R); auto. destruct (reap_fine k k s t DStart DStart St) as (s' & F). rewrite M in F. exists s', u. split; [exact F|exact R].
Qed.
Print Assumptions C92_search_law.

(** the tables of C91 and C92; both orders, one thread after the other *)
Example C91_ex_search : 0 < ht_size tug_t /\ ht_keycmp tug_t <> None /\ inuse_slots (four_t [HAdd 1 10]) + 1 <= ht_size (four_t [HAdd 1 10]) / 2 /\
  match seek_mix (0, 12) 2 (repeat true 20 ++ repeat false 60) tug_t IStart (Seek RStart) with Ok (u, IDone, Gone (DDone true)) => foreach_hash_entry (fun _ => u) note [] | _ => Ok ([], 1) end = Ok ([(Some 0, Some 12); (Some 1, Some 10)], 0) /\
  match seek_mix (0, 12) 2 (repeat false 60 ++ repeat true 20) tug_t IStart (Seek RStart) with Ok (u, IDone, Gone (DDone true)) => foreach_hash_entry (fun _ => u) note [] | _ => Ok ([], 1) end = Ok ([(Some 0, Some 12); (Some 1, Some 10)], 0).
Proof. split; [reflexivity|]. split; [discriminate|]. split; [vm_compute; discriminate|]. split; vm_compute; reflexivity. Qed.
(** two keys, one thread after the other *)
Example C92_ex_search : idz 3 <> idz 2 /\ idz 3 <> 0 /\ idz 2 <> 0 /\ lookup_hashtable reap_t 3 = Ok (Some 12) /\
  match seek_reap 3 2 (repeat true 60 ++ repeat false 60) reap_t (Seek RStart) (Seek RStart) with Ok (u, Gone (DDone true), Gone (DDone true)) => foreach_hash_entry (fun _ => u) note [] | _ => Ok ([], 1) end = Ok ([(Some 1, Some 10)], 0).
Proof. do 3 (split; [discriminate|]). split; vm_compute; reflexivity. Qed.
(** the search of the second thread has read status and hash value when the first one clears the key: a crash within the search *)
Example C92_ex_search_crash : seek_reap 3 3 (repeat false 3 ++ repeat true 5 ++ [false]) reap_t (Seek RStart) (Seek RStart) = Fault NullDeref.
Proof. vm_compute. reflexivity. Qed.
