(** Property C89: a pass over all entries of a table in one thread while another thread adds and removes entries. *)
From Verif Require Import Base ListFacts HashModel SpecHash HashProofs HashTrace ToolModel CoreModel SpecCore SpecRun CoreMaps CoreStep CoreMain CoreHist HashMoments SpecMoments MomentProofs CostProofs RaceCores RaceModel SpecRace RaceProofs WalkModel WalkProofs PropsMoments PropsElf Demo PropsCoreEx PropsCost PropsRace.
Open Scope list_scope.
Open Scope Z_scope.
From Coq Require Import Permutation.

(** the callback that notes down what it is given *)
Definition note {K D} (k : option K) (d : option D) (acc : list (option K * option D)) : outcome (list (option K * option D) * Z) := Ok (acc ++ [(k, d)], 0).

(** Without the writer the walk is foreach_hash_entry, on any table whatsoever. *)
Lemma walk_app K D a b : forall (w : wstate K D) s, walk (a ++ b) w s = (do ' (w1, s1) <- walk a w s; walk b w1 s1).
Proof. induction a as [|x a IH]; intros w s; cbn [app walk bind]; [reflexivity|]. destruct x; [destruct (wstep w)|destruct (fstep (w_table w) s)]; cbn [bind]; auto. Qed.
Theorem C89_alone : forall K D (t : htable K D) pend todo, foreach_hash_entry (fun _ => t) note [] <> Fault NoTermination ->
  exists q, walk (repeat false q) (mkW t pend todo) (FStart, []) =
    match foreach_hash_entry (fun _ => t) note [] with Ok (out, _) => Ok (mkW t pend todo, (FDone, out)) | Fault f => Fault f end.
Proof.
  intros K D t pend todo. unfold foreach_hash_entry. set (w := mkW t pend todo).
  assert (G : forall fuel o out, foreach_loop fuel (fun _ => t) note o out <> Fault NoTermination -> exists q, walk (repeat false q) w (at_link o, out) =
    match foreach_loop fuel (fun _ => t) note o out with Ok (out, _) => Ok (w, (FDone, out)) | Fault f => Fault f end).
  { induction fuel as [|fuel IH]; intros [i|] out; cbn [foreach_loop]; [congruence|exists O; reflexivity| |exists O; reflexivity].
    destruct (nth_error (ht_table t) i) as [e|] eqn:He; [|exists 1%nat; cbn; rewrite He; reflexivity]. unfold note at 1 3. cbn [bind negb Z.eqb]. intros N. destruct (IH (he_next e) (out ++ [(he_key e, he_data e)]) N) as (q & Hq).
    exists (S (S (S q))). cbn [repeat walk at_link fstep w w_table]. rewrite He. cbn [bind walk fstep w_table]. rewrite He. cbn [bind walk fstep w_table]. rewrite He. cbn [bind]. exact Hq. }
  intros N. destruct (G _ _ _ N) as (q & Hq). exists (S q). cbn [repeat walk fstep bind w w_table]. exact Hq.
Qed.
Print Assumptions C89_alone.

(** Any table with any history and any additions that do not make it grow; any number of steps of the writer before the walk starts and
    any interleaving then.  Neither thread crashes, the walk ends after three reads per entry and one, and the callback is given the
    entries of one moment between its start and its end: the latest first, none left out, none twice. *)
Theorem C89_walk : forall K D (P : K -> Prop) hf cmp ps n (ops : list (hop K D)) t0 t rs new before sched,
  48 <= ps -> 0 < n -> cmp_ok P hf cmp -> Forall (fun o => P (op_key o)) ops -> create_hashtable ps n hf cmp = Ok t0 -> hrun t0 ops = Ok (t, rs) ->
  inuse_slots t + Z.of_nat (length new) <= ht_size t / 2 + 1 ->
  exists c w w' pc out, foreach_hash_entry (fun _ => t) note [] = Ok (map (fun p => (Some (fst p), Some (snd p))) c, 0) /\ inuse_slots t = Z.of_nat (length c) /\
    wsteps before (mkW t [] (adds new)) = Ok w /\ walk sched w (FStart, []) = Ok (w', (pc, out)) /\
    (3 * (length c + length new) < reads sched -> pc = FDone)%nat /\
    (pc = FDone -> exists i, (finished (adds new) w <= i <= begun (adds new) w')%nat /\ out = map (fun p => (Some (fst p), Some (snd p))) (rev (firstn i new) ++ c)).
Proof.
  intros K D P hf cmp ps n ops t0 t rs new before sched Hps Hn CO HP E0 E HG.
  destruct (create_spec (D := D) ps n hf cmp Hps Hn) as (t1 & H0 & I0 & _). rewrite E0 in H0. injection H0 as <-.
  destruct (hrun_bag P hf cmp CO ops t0 [] [] I0) as (t' & xs & l & c & H1 & I & _); auto; [constructor|]. rewrite E in H1. injection H1 as <- _. rewrite (inuse_count I) in HG.
  destruct (walk_result K D hf cmp t l c new before sched I HG) as (w & w' & pc & out & A & B & C1 & C2). exists c, w, w', pc, out. split; [|split; [rewrite (inuse_count I); apply (inv_count_c I)|auto]].
  exact (note_inv t l c note I (fun _ _ _ => eq_refl)).
Qed.
Print Assumptions C89_walk.

(** Removals are another matter: for every entry there is an interleaving with its removal in which the callback is given a null key and null
    data; per_binding, the callback of dlopen, crashes on these. *)
Theorem C89_removal_law : forall K D (P : K -> Prop) hf cmp ps n (ops : list (hop K D)) t0 t rs k d rest,
  48 <= ps -> 0 < n -> cmp_ok P hf cmp -> Forall (fun o => P (op_key o)) ops -> create_hashtable ps n hf cmp = Ok t0 -> hrun t0 ops = Ok (t, rs) ->
  lookup_hashtable t k = Ok (Some d) ->
  exists sched w pc out, walk sched (mkW t [] (HRemove k :: rest)) (FStart, []) = Ok (w, (pc, out)) /\ In (None, None) out.
Proof.
  intros K D P hf cmp ps n ops t0 t rs k d rest Hps Hn CO HP E0 E L.
  destruct (create_spec (D := D) ps n hf cmp Hps Hn) as (t1 & H0 & I0 & _). rewrite E0 in H0. injection H0 as <-.
  destruct (hrun_bag P hf cmp CO ops t0 [] [] I0) as (t' & xs & l & c & H1 & I & _); auto; [constructor|]. rewrite E in H1. injection H1 as <- _. eapply walk_cleared; eauto.
Qed.
Print Assumptions C89_removal_law.

(** Nor are additions harmless that make the table grow: there is an interleaving in which the callback is given nothing at all, and one in which
    the walk leaves the table. *)
Theorem C89_growth_law : forall K D (P : K -> Prop) hf cmp ps n (ops : list (hop K D)) t0 t rs k d rest,
  48 <= ps -> 0 < n -> cmp_ok P hf cmp -> Forall (fun o => P (op_key o)) ops -> create_hashtable ps n hf cmp = Ok t0 -> hrun t0 ops = Ok (t, rs) ->
  ht_size t / 2 < inuse_slots t ->
  (exists sched w, walk sched (mkW t [] (HAdd k d :: rest)) (FStart, []) = Ok (w, (FDone, []))) /\
  (exists sched, walk sched (mkW t [] (HAdd k d :: rest)) (FStart, []) = Fault OutOfBounds).
Proof.
  intros K D P hf cmp ps n ops t0 t rs k d rest Hps Hn CO HP E0 E Hg.
  destruct (create_spec (D := D) ps n hf cmp Hps Hn) as (t1 & H0 & I0 & _). rewrite E0 in H0. injection H0 as <-.
  destruct (hrun_bag P hf cmp CO ops t0 [] [] I0) as (t' & xs & l & c & H1 & I & _); auto; [constructor|]. rewrite E in H1. injection H1 as <- _. rewrite (inuse_count I) in Hg.
  destruct (grow_form t l c k d I Hg) as (r & A). split.
  - exists (repeat true 7 ++ [false]). cbn [repeat app walk]. unfold wstep at 1. cbn [w_table w_pend w_todo op_stores]. rewrite A. cbn. eauto.
  - destruct (ht_head t) as [h|] eqn:Hh.
    + exists ([false] ++ repeat true 6 ++ [false]). cbn [repeat app walk fstep w_table]. rewrite Hh. cbn [bind at_link]. unfold wstep at 1. cbn [w_table w_pend w_todo op_stores]. rewrite A. cbn. destruct h; reflexivity.
    + exfalso. rewrite (inv_head _ _ _ _ _ I) in Hh. destruct l; [|discriminate Hh]. rewrite (inv_count _ _ _ _ _ I) in Hg. cbn in Hg. pose proof (inv_pos _ _ _ _ _ I). assert (0 <= ht_size t / 2) by (apply Z.div_pos; lia). lia.
Qed.
Print Assumptions C89_growth_law.

(** The table of functions not found yet, after any history: dlopen in one thread goes through it while gotcha_wrap in another enters more
    functions.  Every function that is wrapped and has no original yet is looked at once, and so are the new ones of one moment.
    Missing: the callback also removes what it finds; here it finds nothing.  Nor is the rest of both calls interleaved. *)
Theorem C89_pending_partial : forall e maps mem ops st rs new before sched, process_ok e maps ops -> fresh e ops -> run e (init_state maps mem) ops = Ok (st, rs) -> s_init st = true ->
  let t := b_nf (s_b st) in inuse_slots t + Z.of_nat (length new) <= ht_size t / 2 + 1 ->
  exists c w w' pc out, NoDup (map fst c) /\ (forall name, In name (map fst c) <-> stack e maps ops name <> [] /\ original e maps ops name = None) /\
    wsteps before (mkW t [] (adds new)) = Ok w /\ walk sched w (FStart, []) = Ok (w', (pc, out)) /\
    (3 * (length c + length new) < reads sched -> pc = FDone)%nat /\
    (pc = FDone -> exists i, (finished (adds new) w <= i <= begun (adds new) w')%nat /\ out = map (fun p => (Some (fst p), Some (snd p))) (rev (firstn i new) ++ c)).
Proof.
  intros e maps mem ops st rs new before sched P F E Hi t HG. destruct (run_hist e maps mem ops P F) as (st' & E' & R). rewrite E in E'. injection E' as <- _.
  destruct R as [Q|[ch S]]; [rewrite (pr_i _ _ _ _ _ Q) in Hi; discriminate Hi|]. destruct (sr_nf _ _ _ _ _ _ _ _ S) as (g & (l & c & I & KI & ND & Eg) & _ & Gn). fold t in I. rewrite (inuse_count I) in HG.
  destruct (walk_result cstr nat strhash libc_strcmp t l c new before sched I HG) as (w & w' & pc & out & A & B & C1 & C2). exists c, w, w', pc, out. split; [exact ND|]. split; [|auto].
  intros name. unfold stack, original. specialize (Gn name). rewrite <- Eg in Gn.
  assert (In name (map fst c) <-> aget cstr_eqb c name <> None) as ->.
  { clear. unfold aget. split.
    - intros H. apply in_map_iff in H as ((k & d) & Hk & Hin). cbn in Hk. subst k. destruct (find _ c) eqn:X; [discriminate|]. exfalso. pose proof (find_none _ _ X _ Hin) as Y. cbn in Y. rewrite cstr_eqb_refl in Y. discriminate Y.
    - destruct (find _ c) as [[k d]|] eqn:X; [|intros Hn; destruct Hn; reflexivity]. intros _. apply find_some in X as [Hin Ek]. apply cstr_eqb_ok in Ek. cbn in Ek. subst k. apply in_map_iff. exists (name, d). auto. }
  split.
  - intros H. split; [intros X; apply H, Gn; left; exact X|]. destruct (a_orig (history e maps ops) name) eqn:O; [|reflexivity]. exfalso. apply H, Gn. right. discriminate.
  - intros [A1 B1] X. apply Gn in X as [X|X]; congruence.
Qed.
Print Assumptions C89_pending_partial.

(** A function waiting in that table: dlopen in one thread finds and removes it while dlopen in another is at its entry. *)
Theorem C89_dlopen_law_partial : forall e maps mem ops st rs name, process_ok e maps ops -> fresh e ops -> run e (init_state maps mem) ops = Ok (st, rs) -> s_init st = true ->
  stack e maps ops name <> [] -> original e maps ops name = None ->
  exists sched w pc out, walk sched (mkW (b_nf (s_b st)) [] [HRemove name]) (FStart, []) = Ok (w, (pc, out)) /\ In (None, None) out.
Proof.
  intros e maps mem ops st rs name P F E Hi HS HO. destruct (run_hist e maps mem ops P F) as (st' & E' & R). rewrite E in E'. injection E' as <- _.
  destruct R as [Q|[ch S]]; [rewrite (pr_i _ _ _ _ _ Q) in Hi; discriminate Hi|]. destruct (sr_nf _ _ _ _ _ _ _ _ S) as (g & Gm & _ & Gn).
  destruct (g name) as [b|] eqn:Eg; [|destruct (proj1 (Gn name) Eg); contradiction]. pose proof (smap_lookup _ _ name Gm) as L. rewrite Eg in L. destruct Gm as (l & c & I & _). eapply walk_cleared; eauto.
Qed.
Print Assumptions C89_dlopen_law_partial.

(** *** Examples *)
Definition show_walk {K D} (x : outcome (wstate K D * (fpc K * list (option K * option D)))) : option (fpc K * list (option K * option D)) := match x with Ok (_, s) => Some s | Fault _ => None end.
(** Four slots; 0 is there, 4 and then 5 come in.  The walk starts after the first has been linked in and goes on while the second is. *)
Definition ex_add : wstate Z Z := mkW (four_t [HAdd 0 10]) [] (adds [(4, 11); (5, 12)]).
Example C89_ex_hyps : inuse_slots (four_t [HAdd 0 10]) + 2 <= ht_size (four_t [HAdd 0 10]) / 2 + 1 /\ foreach_hash_entry (fun _ => four_t [HAdd 0 10]) note [] = Ok ([(Some 0, Some 10)], 0).
Proof. split; [vm_compute; discriminate|vm_compute; reflexivity]. Qed.
Example C89_ex_walk : show_walk (walk (repeat true 9 ++ [false] ++ repeat true 12 ++ repeat false 6) ex_add (FStart, [])) = Some (FDone, [(Some 4, Some 11); (Some 0, Some 10)]).
Proof. vm_compute. reflexivity. Qed.
Example C89_ex_late : show_walk (walk (repeat true 21 ++ repeat false 10) ex_add (FStart, [])) = Some (FDone, [(Some 5, Some 12); (Some 4, Some 11); (Some 0, Some 10)]).
Proof. vm_compute. reflexivity. Qed.
(** a store to the head not made yet: the new entry is not seen *)
Example C89_ex_early : show_walk (walk (repeat true 7 ++ repeat false 4 ++ repeat true 14) ex_add (FStart, [])) = Some (FDone, [(Some 0, Some 10)]).
Proof. vm_compute. reflexivity. Qed.
(** 0 is removed while the walk is at it: null key and null data, on which per_binding crashes *)
Example C89_ex_removal : lookup_hashtable (four_t [HAdd 0 10; HAdd 1 11]) 0 = Ok (Some 10) /\ show_walk (walk (repeat false 4 ++ repeat true 3 ++ repeat false 3 ++ repeat true 6) (mkW (four_t [HAdd 0 10; HAdd 1 11]) [] [HRemove 0]) (FStart, [])) = Some (FDone, [(Some 1, Some 11); (None, None)]) /\ per_binding demo_env None None (st_of (demo_run hist1)) = Fault NullDeref.
Proof. vm_compute. auto. Qed.
(** 1 is removed and entered again in the same slot while the walk is at it: 2 is handed out twice *)
Example C89_ex_twice : show_walk (walk (repeat false 6 ++ repeat true 30 ++ repeat false 12) (mkW (four_t [HAdd 0 10; HAdd 1 11; HAdd 2 12]) [] [HRemove 1; HAdd 1 13]) (FStart, [])) =
  Some (FDone, [(Some 2, Some 12); (Some 1, Some 11); (Some 2, Some 12); (Some 0, Some 10)]).
Proof. vm_compute. reflexivity. Qed.
(** three of four slots in use: nothing is handed out *)
Example C89_ex_growth : let t := four_t [HAdd 0 10; HAdd 1 11; HAdd 2 12] in ht_size t / 2 < inuse_slots t /\ show_walk (walk (repeat true 7 ++ [false]) (mkW t [] [HAdd 3 13]) (FStart, [])) = Some (FDone, []) /\ walk ([false] ++ repeat true 6 ++ [false]) (mkW t [] [HAdd 3 13]) (FStart, []) = Fault OutOfBounds.
Proof. vm_compute. auto. Qed.
(** g is wrapped and not found yet, nor are dlopen and dlsym in this process; another function is entered meanwhile *)
Example C89_ex_pending : (stack demo_env demo_libs hist1 g_name <> [] /\ original demo_env demo_libs hist1 g_name = None) /\ s_init (st_of (demo_run hist1)) = true /\ (let t := b_nf (s_b (st_of (demo_run hist1))) in (inuse_slots t + 1 <=? ht_size t / 2 + 1) = true /\
  show_walk (walk (concat (repeat [true; true; false] 12)) (mkW t [] (adds [([104], 7%nat)])) (FStart, [])) = Some (FDone, [(Some g_name, Some 3%nat); (Some n_dlsym, Some 1%nat); (Some n_dlopen, Some 0%nat)])).
Proof. split; [split; vm_compute; [discriminate|reflexivity]|]. split; [vm_compute; reflexivity|]. split; vm_compute; reflexivity. Qed.
