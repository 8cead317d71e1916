(** Property C93: one thread adds an entry to a table that grows for it while another one removes an entry. *)
From Coq Require Import Permutation.
From Verif Require Import Base ListFacts HashModel SpecHash HashProofs HashTrace ToolModel CoreModel SpecCore SpecRun CoreMaps CoreStep CoreMain CoreHist HashMoments CostProofs WalkModel WalkProofs DuelModel DuelProofs TugModel TugProofs ReapProofs StaleModel StaleProofs PropsMoments PropsElf Demo PropsCoreEx PropsCost PropsWalk PropsReap.
Open Scope list_scope.
Open Scope Z_scope.

(** One call after the other, in either order, on any table whatsoever: what addto_hashtable and removefrom_hashtable make of it. *)
Theorem C93_serial : forall K D (t o : htable K D) (a : K * D) k,
  (forall u v b, addto_hashtable t (fst a) (snd a) = Ok u -> removefrom_hashtable u k = Ok (v, b) -> exists sched o', outgrow a k sched t o false IStart DStart = Ok (v, o', false, IDone, DDone b)) /\
  (forall u v b, removefrom_hashtable t k = Ok (u, b) -> addto_hashtable u (fst a) (snd a) = Ok v -> exists sched o', outgrow a k sched t o false IStart DStart = Ok (v, o', false, IDone, DDone b)).
Proof. intros K D t o a k. split; intros u v b; [apply serial_add|apply serial_drop]. Qed.
Print Assumptions C93_serial.

(** Any table with any history that grows for the next entry, any key in it and any new entry: there is an interleaving after which the removal has
    returned that it removed the key, having written to the array given back, while the key is still there with its data, as are all others and the new
    one, and the count is one less than the number of entries. *)
Theorem C93_lost_law : forall K D (P : K -> Prop) hf cmp eqb ps n (ops : list (hop K D)) t0 t rs (a : K * D) k d,
  48 <= ps -> 0 < n -> cmp_ok P hf cmp -> eqb_ok eqb -> Forall (fun o => P (op_key o)) ops -> adds_absent eqb [] ops -> create_hashtable ps n hf cmp = Ok t0 -> hrun t0 ops = Ok (t, rs) ->
  ht_size t / 2 < inuse_slots t -> P k -> P (fst a) -> lookup_hashtable t k = Ok (Some d) -> lookup_hashtable t (fst a) = Ok None ->
  exists sched u old i e, outgrow a k sched t t false IStart DStart = Ok (u, old, true, IDone, DDone true) /\
    nth_error (ht_table old) i = Some e /\ he_status e = TOMBSTONE /\ inuse_slots t = inuse_slots u - 1 /\ ht_count u = inuse_slots u - 1 /\ lookup_hashtable u k = Ok (Some d) /\
    forall x, P x -> lookup_hashtable u x = if eqb x (fst a) then Ok (Some (snd a)) else lookup_hashtable t x.
Proof.
  intros K D P hf cmp eqb ps n ops t0 t rs a k d Hps Hn CO EO HP HA E0 E HG Pk Pa Lk La. destruct (reached K D P hf cmp eqb ps n ops t0 t rs) as (l & c & I & KI & N & _); auto. rewrite (inuse_count I) in HG.
  assert (M : kmap P hf cmp eqb t (aget eqb c)) by (exists l, c; auto). pose proof (kmap_lookup P hf cmp CO eqb EO t _ (fst a) M Pa) as La'. rewrite La in La'. injection La' as La'.
  destruct (kmap_add P hf cmp CO eqb EO t _ (fst a) (snd a) M Pa (eq_sym La')) as (u & Eu & Mu). destruct (lookup_index _ _ _ _ _ Lk) as (i & Li).
  destruct (lost t l c a k i u I HG Li Eu t) as (sched & old & e & R & He & Hs). exists sched, (happly u (SCount (ht_count u - 1))), old, i, e.
  destruct (addto_spec t l c (fst a) (snd a) I) as (u' & l' & c' & Eu' & I' & Pm & _). rewrite Eu in Eu'. injection Eu' as <-.
  assert (Lu : forall x, P x -> lookup_hashtable (happly u (SCount (ht_count u - 1))) x = if eqb x (fst a) then Ok (Some (snd a)) else lookup_hashtable t x).
  { intros x Px. change (lookup_hashtable u x = if eqb x (fst a) then Ok (Some (snd a)) else lookup_hashtable t x). rewrite (kmap_lookup P hf cmp CO eqb EO u _ x Mu Px), (kmap_lookup P hf cmp CO eqb EO t _ x M Px). unfold kupd. destruct (eqb x (fst a)); reflexivity. }
  split; [exact R|]. split; [exact He|]. split; [exact Hs|]. change (inuse_slots (happly u (SCount (ht_count u - 1)))) with (inuse_slots u). cbn [happly ht_count]. rewrite (inuse_count I), (inuse_count I').
  rewrite (inv_count_c I), (inv_count_c I'). cbn [length]. rewrite (Permutation_length Pm). split; [lia|]. split; [lia|]. split; [|exact Lu].
  refine (eq_trans (Lu k Pk) _). destruct (eqb k (fst a)) eqn:Ek; [|exact Lk]. apply EO in Ek. subst k. congruence.
Qed.
Print Assumptions C93_lost_law.

(** Its latest entry being removed: there is an interleaving after which the entry has been added to the table grown, and the next step of the removal is to
    make the head of the table an entry of the array given back. *)
Theorem C93_head_law : forall K D (P : K -> Prop) hf cmp eqb ps n (ops : list (hop K D)) t0 t rs (a : K * D) k d k2 d2 rest,
  48 <= ps -> 0 < n -> cmp_ok P hf cmp -> eqb_ok eqb -> Forall (fun o => P (op_key o)) ops -> adds_absent eqb [] ops -> create_hashtable ps n hf cmp = Ok t0 -> hrun t0 ops = Ok (t, rs) ->
  ht_size t / 2 < inuse_slots t -> foreach_hash_entry (fun _ => t) note [] = Ok ((Some k, Some d) :: (Some k2, Some d2) :: rest, 0) ->
  exists sched u old j e, outgrow a k sched t t false IStart DStart = Ok (u, old, true, IDone, DPub (Some j)) /\ ht_size u = 2 * ht_size t /\ ht_size old = ht_size t /\
    nth_error (ht_table old) j = Some e /\ he_status e = INUSE.
Proof.
  intros K D P hf cmp eqb ps n ops t0 t rs a k d k2 d2 rest Hps Hn CO EO HP HA E0 E HG W. destruct (reached K D P hf cmp eqb ps n ops t0 t rs) as (l & c & I & KI & N & _); auto. rewrite (inuse_count I) in HG.
  destruct (latest_two K D P hf cmp t l c k d k2 d2 rest CO I KI N W) as (i & j & l' & c' & -> & -> & -> & L1 & _).
  destruct (loose t i j l' k _ _ a t I HG L1) as (sched & u & old & e & A & B & C & F & G). exists sched, u, old, j, e. auto.
Qed.
Print Assumptions C93_head_law.

(** The table of functions not found yet, after any history after which it grows for the next function: gotcha_wrap enters a function that no tool has wrapped
    while dlopen, having found one that waits, removes it.  There is an interleaving after which that one still waits.  Missing: the rest of both calls. *)
Theorem C93_dlopen_law_partial : forall e maps mem ops st rs name name' b', process_ok e maps ops -> fresh e ops -> run e (init_state maps mem) ops = Ok (st, rs) -> s_init st = true ->
  let t := b_nf (s_b st) in ht_size t / 2 < inuse_slots t -> stack e maps ops name <> [] -> original e maps ops name = None -> stack e maps ops name' = [] ->
  exists sched u old b, outgrow (name', b') name sched t t false IStart DStart = Ok (u, old, true, IDone, DDone true) /\ ht_count u = inuse_slots u - 1 /\
    lookup_hashtable t name = Ok (Some b) /\ lookup_hashtable u name = Ok (Some b) /\ lookup_hashtable u name' = Ok (Some b').
Proof.
  intros e maps mem ops st rs name name' b' P F E Hi t HG HS HO HN. destruct (run_hist e maps mem ops P F) as (st' & E' & R). rewrite E in E'. injection E' as <- _.
  destruct R as [Q|[ch S]]; [rewrite (pr_i _ _ _ _ _ Q) in Hi; discriminate Hi|]. destruct (sr_nf _ _ _ _ _ _ _ _ S) as (g & Gm & _ & Gn). fold t in Gm.
  destruct (g name) as [b|] eqn:Eg; [|destruct (proj1 (Gn name) Eg); contradiction]. pose proof (smap_lookup _ _ name Gm) as L. rewrite Eg in L. destruct (lookup_index _ _ _ _ _ L) as (i & Li).
  assert (Eg' : g name' = None) by (apply Gn; left; exact HN). destruct (smap_add t g name' b' Gm Eg') as (u & Eu & Mu). destruct Gm as (l & c & I & _). rewrite (inuse_count I) in HG.
  destruct (lost t l c (name', b') name i u I HG Li Eu t) as (sched & old & e' & A & _). exists sched, (happly u (SCount (ht_count u - 1))), old, b. split; [exact A|]. destruct (addto_spec t l c name' b' I) as (u' & l' & c' & Eu' & I' & _). rewrite Eu in Eu'. injection Eu' as <-.
  split; [change (inuse_slots (happly u (SCount (ht_count u - 1)))) with (inuse_slots u); cbn [happly ht_count]; rewrite (inuse_count I'); reflexivity|]. split; [exact L|].
  assert (Ne : name <> name') by congruence. split; [change (lookup_hashtable u name = Ok (Some b))|change (lookup_hashtable u name' = Ok (Some b'))]; rewrite (smap_lookup _ _ _ Mu); unfold cupd, kupd.
  - destruct (cstr_eqb name name') eqn:X; [apply cstr_eqb_ok in X; contradiction|congruence].
  - rewrite (proj2 (cstr_eqb_ok name' name') eq_refl). reflexivity.
Qed.
Print Assumptions C93_dlopen_law_partial.

(** *** Examples *)
Definition full_t : htable Z Z := four_t [HAdd 1 10; HAdd 2 11; HAdd 3 12].
Definition outrun (k : Z) (sched : list bool) := match outgrow (0, 13) k sched full_t full_t false IStart DStart with
  | Ok (u, old, s, IDone, DDone b) => Ok (s, b, ht_size u, inuse_slots u, ht_count u, lookup_hashtable u k, foreach_hash_entry (fun _ => u) note []) | Ok _ => Fault NoTermination | Fault f => Fault f end.
Example C93_ex_hyps : ht_size full_t / 2 < inuse_slots full_t /\ lookup_hashtable full_t 2 = Ok (Some 11) /\ lookup_hashtable full_t 0 = Ok None /\
  outrun 2 (repeat true 30 ++ repeat false 16) = Ok (false, true, 8, 3, 3, Ok None, Ok ([(Some 0, Some 13); (Some 3, Some 12); (Some 1, Some 10)], 0)) /\
  outrun 2 (repeat false 16 ++ repeat true 30) = Ok (false, true, 4, 3, 3, Ok None, Ok ([(Some 0, Some 13); (Some 3, Some 12); (Some 1, Some 10)], 0)).
Proof. split; [vm_compute; reflexivity|]. do 3 (split; [vm_compute; reflexivity|]). vm_compute. reflexivity. Qed.
(** the removal has found its entry when the table grows *)
Example C93_ex_lost : outrun 2 ([false] ++ repeat true 30 ++ repeat false 16) = Ok (true, true, 8, 4, 3, Ok (Some 11), Ok ([(Some 0, Some 13); (Some 3, Some 12); (Some 2, Some 11); (Some 1, Some 10)], 0)).
Proof. vm_compute. reflexivity. Qed.
(** it has found that the entry is the latest: the head of the new table would point into the array given back *)
Example C93_ex_head : outrun 3 (repeat false 10 ++ repeat true 30 ++ repeat false 16) = Fault NullDeref.
Proof. vm_compute. reflexivity. Qed.
(** a process in which 84 functions, with the names 1 to 84, wait besides main and __libc_start_main: the table of 170 slots grows for the next one *)
Definition hist84 : list op := [OWrap (map (fun i => mkUB [Z.of_nat i] (1000 + Z.of_nat i) (2000 + Z.of_nat i)) (seq 1 84)) (Some n_a)].
Example C93_ex_dlopen : process_ok demo_env demo_libs hist84 /\ fresh demo_env hist84 /\ s_init (st_of (demo_run hist84)) = true /\
  (let t := b_nf (s_b (st_of (demo_run hist84))) in ht_size t / 2 <? inuse_slots t) = true /\
  stack demo_env demo_libs hist84 [7] <> [] /\ original demo_env demo_libs hist84 [7] = None /\ stack demo_env demo_libs hist84 [99] = [].
Proof. split; [process|]. split; [apply freshb_ok; vm_compute; reflexivity|]. do 2 (split; [vm_compute; reflexivity|]). split; [vm_compute; discriminate|]. split; vm_compute; reflexivity. Qed.
