(** Property C94: two threads add an entry each to a table that grows. *)
From Coq Require Import Permutation.
From Verif Require Import Base ListFacts HashModel SpecHash HashProofs HashTrace ToolModel CoreModel SpecCore SpecRun CoreMaps CoreStep CoreMain CoreHist HashMoments CostProofs WalkModel WalkProofs DuelModel DuelProofs TwinModel TwinProofs PropsMoments PropsElf Demo PropsCoreEx PropsCost PropsWalk PropsReap PropsStale.
Open Scope list_scope.
Open Scope Z_scope.

(** One call after the other, in either order, on any table whatsoever: what addto_hashtable makes of it. *)
Theorem C94_serial : forall K D (t : htable K D) (a b : K * D),
  (forall u v, addto_hashtable t (fst a) (snd a) = Ok u -> addto_hashtable u (fst b) (snd b) = Ok v -> exists sched, twin a b sched t (GSize, None) (GSize, None) = Ok (v, (GAdd IDone, None), (GAdd IDone, None))) /\
  (forall u v, addto_hashtable t (fst b) (snd b) = Ok u -> addto_hashtable u (fst a) (snd a) = Ok v -> exists sched, twin a b sched t (GSize, None) (GSize, None) = Ok (v, (GAdd IDone, None), (GAdd IDone, None))).
Proof.
  intros K D t a b. split; intros u v E1 E2.
  - destruct (twin_whole a b true t u (GSize, None) eq_refl E1) as (n & R). destruct (twin_whole a b false u v (GAdd IDone, None) eq_refl E2) as (m & R').
    exists (repeat true n ++ repeat false m). rewrite twin_app, R. cbn [bind]. exact R'.
  - destruct (twin_whole a b false t u (GSize, None) eq_refl E1) as (n & R). destruct (twin_whole a b true u v (GAdd IDone, None) eq_refl E2) as (m & R').
    exists (repeat false n ++ repeat true m). rewrite twin_app, R. cbn [bind]. exact R'.
Qed.
Print Assumptions C94_serial.

(** The threads are treated alike: with the two entries and every choice of the scheduler exchanged, the run is the same with the threads exchanged.  So every
    theorem below holds with the threads exchanged. *)
Theorem C94_symmetric : forall K D (a b : K * D) sched (t : htable K D) x y,
  twin b a (map negb sched) t y x = match twin a b sched t x y with Ok (u, x', y') => Ok (u, y', x') | Fault f => Fault f end.
Proof.
  intros K D a b. induction sched as [|[] r IH]; intros t x y; cbn [map negb twin]; [reflexivity| |].
  - destruct (tstep a t x) as [[u x']|]; cbn [bind]; [apply IH|reflexivity].
  - destruct (tstep b t y) as [[u y']|]; cbn [bind]; [apply IH|reflexivity].
Qed.
Print Assumptions C94_symmetric.

(** Any table with any history and room for both entries: whatever the interleaving, neither thread crashes, no thread grows the table or has its entry in an
    array given back, and each returns after at most one step per slot and thirteen more. *)
Theorem C94_safe : forall K D (P : K -> Prop) hf cmp ps n (ops : list (hop K D)) t0 t rs (a b : K * D) sched,
  48 <= ps -> 0 < n -> cmp_ok P hf cmp -> Forall (fun o => P (op_key o)) ops -> create_hashtable ps n hf cmp = Ok t0 -> hrun t0 ops = Ok (t, rs) ->
  inuse_slots t + 1 <= ht_size t / 2 ->
  exists u p q, twin a b sched t (GSize, None) (GSize, None) = Ok (u, (p, None), (q, None)) /\ ht_size u = ht_size t /\ (forall m, p <> GGrow m /\ q <> GGrow m) /\
    (Z.to_nat (ht_size t) + 13 < length (filter (fun x => x) sched) -> p = GAdd IDone)%nat /\ (Z.to_nat (ht_size t) + 13 < length (filter negb sched) -> q = GAdd IDone)%nat.
Proof.
  intros K D P hf cmp ps n ops t0 t rs a b sched Hps Hn CO HP E0 E HG.
  destruct (create_spec (D := D) ps n hf cmp Hps Hn) as (t1 & H0 & I0 & _). rewrite E0 in H0. injection H0 as <-.
  destruct (hrun_bag P hf cmp CO ops t0 [] [] I0) as (t' & xs & l & c & H1 & I & _); auto; [constructor|]. rewrite E in H1. injection H1 as <- _. rewrite (inuse_count I) in HG. eapply calm; eauto.
Qed.
Print Assumptions C94_safe.

(** Any table with any history that grows for the next entry, and any two entries, the first one new: if both threads decide to grow the table and the second
    one grows it again while the first one is about to search for its slot, the first one still adds its entry to the table as it is then. *)
Theorem C94_search_law : forall K D (P : K -> Prop) hf cmp eqb ps n (ops : list (hop K D)) t0 t rs (a b : K * D),
  48 <= ps -> 0 < n -> cmp_ok P hf cmp -> eqb_ok eqb -> Forall (fun o => P (op_key o)) ops -> adds_absent eqb [] ops -> create_hashtable ps n hf cmp = Ok t0 -> hrun t0 ops = Ok (t, rs) ->
  ht_size t / 2 < inuse_slots t -> P (fst a) -> lookup_hashtable t (fst a) = Ok None ->
  exists m u, twin a b ([true; false; true; true; false] ++ repeat true m) t (GSize, None) (GSize, None) = Ok (u, (GAdd IDone, None), (GHash, None)) /\
    ht_size u = 2 * ht_size t /\ inuse_slots u = inuse_slots t + 1 /\ ht_count u = inuse_slots u /\
    forall x, P x -> lookup_hashtable u x = if eqb x (fst a) then Ok (Some (snd a)) else lookup_hashtable t x.
Proof.
  intros K D P hf cmp eqb ps n ops t0 t rs a b Hps Hn CO EO HP HA E0 E HG Pa La. destruct (reached K D P hf cmp eqb ps n ops t0 t rs) as (l & c & I & KI & N & _); auto.
  assert (M : kmap P hf cmp eqb t (aget eqb c)) by (exists l, c; auto). pose proof (kmap_lookup P hf cmp CO eqb EO t _ (fst a) M Pa) as La'. rewrite La in La'. injection La' as La'.
  pose proof HG as HG'. rewrite (inuse_count I) in HG'. destruct (twin_search t l c a b I HG') as (m & u & l' & c' & R & Iu & Pm & Su).
  exists m, u. split; [exact R|]. split; [exact Su|]. split; [rewrite (inuse_count I), (inuse_count Iu), (inv_count_c I), (inv_count_c Iu); cbn [length]; rewrite (Permutation_length Pm); lia|]. split; [rewrite (inuse_count Iu); reflexivity|].
  assert (Ag : forall x, aget eqb c' x = aget eqb c x) by (intros x; symmetry; apply (aget_perm eqb EO); assumption).
  assert (Mu : kmap P hf cmp eqb u (kupd eqb (aget eqb c) (fst a) (Some (snd a)))).
  { exists l', (a :: c'). split; [exact Iu|]. split; [constructor; [exact Pa|]; exact (keys_in_perm P c c' Pm KI)|]. split.
    - cbn [map]. constructor; [|exact (Permutation_NoDup (Permutation_map fst Pm) N)]. intros Hin. apply in_map_iff in Hin as ([k d] & Ek & Hin). cbn [fst] in Ek. subst k.
      specialize (Ag (fst a)). rewrite <- La' in Ag. apply (aget_None eqb EO _ _ Ag _ Hin).
    - intros x. destruct a as [ka da]. rewrite (aget_cons_k eqb EO). unfold kupd. cbn [fst snd]. rewrite Ag. reflexivity. }
  intros x Px. rewrite (kmap_lookup P hf cmp CO eqb EO u _ x Mu Px), (kmap_lookup P hf cmp CO eqb EO t _ x M Px). unfold kupd. destruct (eqb x (fst a)); reflexivity.
Qed.
Print Assumptions C94_search_law.

Lemma twin_map K D (P : K -> Prop) hf cmp eqb (t : htable K D) f (a b : K * D) : eqb_ok eqb -> kmap P hf cmp eqb t f -> ht_size t / 2 < inuse_slots t -> P (fst b) -> f (fst b) = None ->
  exists sched u old y e h, twin a b sched t (GSize, None) (GSize, None) = Ok (u, (GAdd (ILink y h), Some old), (GAdd IDone, None)) /\
    nth_error (ht_table old) y = Some e /\ he_key e = Some (fst a) /\ he_data e = Some (snd a) /\ he_status e = INUSE /\ ht_size old = 2 * ht_size t /\ ht_size u = 2 * ht_size t /\
    inuse_slots u = inuse_slots t + 1 /\ kmap P hf cmp eqb u (kupd eqb f (fst b) (Some (snd b))).
Proof.
  intros EO (l & c & I & KI & N & F) HG Pb Fb. pose proof HG as HG'. rewrite (inuse_count I) in HG'. destruct (twin_lost t l c a b I HG') as (sched & u & old & y & e & h & l' & c' & R & Iu & Pm & Su & So & He & Hk & Hd & Hs).
  exists sched, u, old, y, e, h. do 7 (split; [assumption|]). split; [rewrite (inuse_count I), (inuse_count Iu), (inv_count_c I), (inv_count_c Iu); cbn [length]; rewrite (Permutation_length Pm); lia|].
  assert (Ag : forall x, aget eqb c' x = f x) by (intros x; rewrite <- F; symmetry; apply (aget_perm eqb EO); assumption).
  exists l', (b :: c'). split; [exact Iu|]. split; [constructor; [exact Pb|]; exact (keys_in_perm P c c' Pm KI)|]. split.
  - cbn [map]. constructor; [|exact (Permutation_NoDup (Permutation_map fst Pm) N)]. intros Hin. apply in_map_iff in Hin as ([k d] & Ek & Hin). cbn [fst] in Ek. subst k.
    specialize (Ag (fst b)). rewrite Fb in Ag. apply (aget_None eqb EO _ _ Ag _ Hin).
  - intros x. destruct b as [kb db]. rewrite (aget_cons_k eqb EO). unfold kupd. cbn [fst snd]. rewrite Ag. reflexivity.
Qed.

(** Any table with any history that grows for the next entry, and any two new entries: there is an interleaving after which the second thread has added its
    entry, the first one has stored its own in the array given back, and its next step is to store a pointer to that into the latest entry of the table, at which the run stops.
    Then its key is not found, all others and the one of the second thread are, and the table has one entry more, not two. *)
Theorem C94_lost_law : forall K D (P : K -> Prop) hf cmp eqb ps n (ops : list (hop K D)) t0 t rs (a b : K * D),
  48 <= ps -> 0 < n -> cmp_ok P hf cmp -> eqb_ok eqb -> Forall (fun o => P (op_key o)) ops -> adds_absent eqb [] ops -> create_hashtable ps n hf cmp = Ok t0 -> hrun t0 ops = Ok (t, rs) ->
  ht_size t / 2 < inuse_slots t -> P (fst a) -> P (fst b) -> fst a <> fst b -> lookup_hashtable t (fst a) = Ok None -> lookup_hashtable t (fst b) = Ok None ->
  exists sched u old y e h, twin a b sched t (GSize, None) (GSize, None) = Ok (u, (GAdd (ILink y h), Some old), (GAdd IDone, None)) /\ twin a b (sched ++ [true]) t (GSize, None) (GSize, None) = Fault NullDeref /\
    nth_error (ht_table old) y = Some e /\ he_key e = Some (fst a) /\ he_data e = Some (snd a) /\ he_status e = INUSE /\ ht_size old = 2 * ht_size t /\ ht_size u = 2 * ht_size t /\
    inuse_slots u = inuse_slots t + 1 /\ lookup_hashtable u (fst a) = Ok None /\
    forall x, P x -> lookup_hashtable u x = if eqb x (fst b) then Ok (Some (snd b)) else lookup_hashtable t x.
Proof.
  intros K D P hf cmp eqb ps n ops t0 t rs a b Hps Hn CO EO HP HA E0 E HG Pa Pb Ne La Lb. destruct (reached K D P hf cmp eqb ps n ops t0 t rs) as (l & c & I & KI & N & _); auto.
  assert (M : kmap P hf cmp eqb t (aget eqb c)) by (exists l, c; auto). pose proof (kmap_lookup P hf cmp CO eqb EO t _ (fst b) M Pb) as Lb'. rewrite Lb in Lb'. injection Lb' as Lb'.
  destruct (twin_map K D P hf cmp eqb t _ a b EO M HG Pb (eq_sym Lb')) as (sched & u & old & y & e & h & R & He & Hk & Hd & Hs & So & Su & Cu & Mu).
  assert (Lu : forall x, P x -> lookup_hashtable u x = if eqb x (fst b) then Ok (Some (snd b)) else lookup_hashtable t x).
  { intros x Px. rewrite (kmap_lookup P hf cmp CO eqb EO u _ x Mu Px), (kmap_lookup P hf cmp CO eqb EO t _ x M Px). unfold kupd. destruct (eqb x (fst b)); reflexivity. }
  exists sched, u, old, y, e, h. split; [exact R|]. split; [rewrite twin_app, R; reflexivity|]. do 7 (split; [assumption|]). split; [|exact Lu].
  rewrite (Lu _ Pa). destruct (eqb (fst a) (fst b)) eqn:X; [apply EO in X; contradiction|exact La].
Qed.
Print Assumptions C94_lost_law.

(** The table of functions not found yet, after any history after which it grows for the next function: two calls of gotcha_wrap enter two functions that no
    tool has wrapped.  There is an interleaving in which the first one stores its function in the array given back: it does not wait when the second call has
    entered its own.  Missing: the rest of both calls. *)
Theorem C94_wrap_law_partial : forall e maps mem ops st rs name b name' b', process_ok e maps ops -> fresh e ops -> run e (init_state maps mem) ops = Ok (st, rs) -> s_init st = true ->
  let t := b_nf (s_b st) in ht_size t / 2 < inuse_slots t -> name <> name' -> stack e maps ops name = [] -> stack e maps ops name' = [] ->
  exists sched u old y s h, twin (name, b) (name', b') sched t (GSize, None) (GSize, None) = Ok (u, (GAdd (ILink y h), Some old), (GAdd IDone, None)) /\
    nth_error (ht_table old) y = Some s /\ he_key s = Some name /\ he_data s = Some b /\
    lookup_hashtable u name = Ok None /\ lookup_hashtable u name' = Ok (Some b') /\ forall x, x <> name' -> lookup_hashtable u x = lookup_hashtable t x.
Proof.
  intros e maps mem ops st rs name b name' b' P F E Hi t HG Ne HS HN. destruct (run_hist e maps mem ops P F) as (st' & E' & R). rewrite E in E'. injection E' as <- _.
  destruct R as [Q|[ch S]]; [rewrite (pr_i _ _ _ _ _ Q) in Hi; discriminate Hi|]. destruct (sr_nf _ _ _ _ _ _ _ _ S) as (g & Gm & _ & Gn). fold t in Gm.
  assert (Eg : g name = None) by (apply Gn; left; exact HS). assert (Eg' : g name' = None) by (apply Gn; left; exact HN).
  destruct (twin_map _ _ anyk strhash libc_strcmp cstr_eqb t g (name, b) (name', b') cstr_eqb_ok Gm HG I Eg') as (sched & u & old & y & s & h & A & He & Hk & Hd & _ & _ & _ & _ & Mu).
  exists sched, u, old, y, s, h. do 4 (split; [assumption|]). cbn [fst snd] in Mu.
  assert (O : forall x, x <> name' -> lookup_hashtable u x = lookup_hashtable t x).
  { intros x Nx. rewrite (smap_lookup _ _ x Gm). refine (eq_trans (smap_lookup u _ x Mu) _). unfold kupd. destruct (cstr_eqb x name') eqn:X; [apply cstr_eqb_ok in X; contradiction|reflexivity]. }
  split; [rewrite (O _ Ne), (smap_lookup _ _ name Gm), Eg; reflexivity|]. split; [|exact O].
  refine (eq_trans (smap_lookup u _ name' Mu) _). unfold kupd. rewrite (proj2 (cstr_eqb_ok name' name') eq_refl). reflexivity.
Qed.
Print Assumptions C94_wrap_law_partial.

(** *** Examples *)
Definition twins (sched : list bool) := match twin (0, 13) (5, 14) sched full_t (GSize, None) (GSize, None) with
  | Ok (u, (p, o), (q, o')) => Ok (p, q, match o, o' with None, None => false | _, _ => true end, ht_size u, ht_count u, lookup_hashtable u 0, lookup_hashtable u 5, foreach_hash_entry (fun _ => u) note []) | Fault f => Fault f end.
Example C94_ex_hyps : ht_size full_t / 2 < inuse_slots full_t /\ lookup_hashtable full_t 0 = Ok None /\ lookup_hashtable full_t 5 = Ok None /\
  twins (repeat true 30 ++ repeat false 30) = Ok (GAdd IDone, GAdd IDone, false, 8, 5, Ok (Some 13), Ok (Some 14), Ok ([(Some 5, Some 14); (Some 0, Some 13); (Some 3, Some 12); (Some 2, Some 11); (Some 1, Some 10)], 0)).
Proof. split; [vm_compute; reflexivity|]. do 2 (split; [vm_compute; reflexivity|]). vm_compute. reflexivity. Qed.
(** room for both: the table of four slots with one entry *)
Example C94_ex_safe : let t := four_t [HAdd 1 10] in inuse_slots t + 1 <= ht_size t / 2 /\
  match twin (0, 13) (5, 14) (true :: repeat false 18 ++ repeat true 18) t (GSize, None) (GSize, None) with Ok (u, x, y) => (x, y, lookup_hashtable u 0, lookup_hashtable u 5, ht_count u) | Fault _ => ((GSize, None), (GSize, None), Ok None, Ok None, 0) end
  = ((GAdd IDone, None), (GAdd IDone, None), Ok (Some 13), Ok (Some 14), 3).
Proof. split; vm_compute; [discriminate|reflexivity]. Qed.
(** both decide to grow the table; the second one grows it when the first one has its slot *)
Example C94_ex_lost : twins ([true; false] ++ repeat true 3 ++ repeat false 30 ++ repeat true 8) = Ok (GAdd (ILink 0 5), GAdd IDone, true, 8, 4, Ok None, Ok (Some 14), Ok ([(Some 5, Some 14); (Some 3, Some 12); (Some 2, Some 11); (Some 1, Some 10)], 0)) /\
  twins ([true; false] ++ repeat true 3 ++ repeat false 30 ++ repeat true 9) = Fault NullDeref.
Proof. split; vm_compute; reflexivity. Qed.
(** the second one grows the table when the first one is about to search *)
Example C94_ex_search : twins ([true; false; true; true; false] ++ repeat true 30) = Ok (GAdd IDone, GHash, false, 8, 4, Ok (Some 13), Ok None, Ok ([(Some 0, Some 13); (Some 3, Some 12); (Some 2, Some 11); (Some 1, Some 10)], 0)).
Proof. vm_compute. reflexivity. Qed.
(** a growth of the second one after the first has finished is harmless *)
Example C94_ex_again : twins ([true; false] ++ repeat true 30 ++ repeat false 30) = Ok (GAdd IDone, GAdd IDone, false, 8, 5, Ok (Some 13), Ok (Some 14), Ok ([(Some 5, Some 14); (Some 3, Some 12); (Some 2, Some 11); (Some 1, Some 10); (Some 0, Some 13)], 0)).
Proof. vm_compute. reflexivity. Qed.
Example C94_ex_wrap : process_ok demo_env demo_libs hist84 /\ fresh demo_env hist84 /\ s_init (st_of (demo_run hist84)) = true /\
  (let t := b_nf (s_b (st_of (demo_run hist84))) in ht_size t / 2 <? inuse_slots t) = true /\ [98] <> [99] :> cstr /\
  stack demo_env demo_libs hist84 [98] = [] /\ stack demo_env demo_libs hist84 [99] = [].
Proof. split; [process|]. split; [apply freshb_ok; vm_compute; reflexivity|]. do 2 (split; [vm_compute; reflexivity|]). split; [discriminate|]. split; vm_compute; reflexivity. Qed.
