(** What the code does where C05 and C33 fail: libraries whose link_maps have equal hash values. *)
From Verif Require Import Base ListFacts HashModel HashProofs ElfModel SpecElf ToolModel CoreModel SpecCore SpecRun SpecSync CoreRel CoreEnv CoreHist CoreFacts CoreApi CoreApi2 CoreLib CoreLoop CoreMain CoreSync CoreSync2 CoreSync3 CoreMicro CoreProt CoreStall CoreShare
  PropsElf Demo PropsCoreEx PropsSyncEx PropsStall.
From Coq Require String.
Import String.StringSyntax.
Open Scope string_scope.
Open Scope list_scope.
Open Scope Z_scope.

(** C05 fails for every library hidden by one with the same hash value: if throughout the history [a] is loaded and
    accepted by the filter, and the other libraries with [a]'s hash value come after [a] and have link_maps at no higher
    addresses, then GOTCHA stores into slots of [a] and of libraries with other hash values only, whatever is wrapped,
    loaded or unloaded; a slot of the hidden ones alone is what the loader leaves there. *)
Theorem C05_collision_law : forall e maps mem ops a st rs,
  env_ok e -> (forall l1 l2, ops = l1 ++ l2 -> shadows (last_filter l1) (maps_after maps l1) a) ->
  run e (init_state maps mem) ops = Ok (st, rs) ->
  (forall x v, In (PStore x v) (p_log (s_p st)) -> exists l1 l2 m n, ops = l1 ++ l2 /\ In m (maps_after maps l1) /\
    (m = a \/ link_map_hash (key_of m) <> link_map_hash (key_of a)) /\ slot relocs m n x) /\
  forall x, (forall l1 l2 m n, ops = l1 ++ l2 -> In m (maps_after maps l1) -> slot relocs m n x -> m <> a /\ link_map_hash (key_of m) = link_map_hash (key_of a)) ->
    p_mem (s_p st) x = left_by ops x (mem x).
Proof.
  intros e maps mem ops a st rs EO SH E. pose proof (eo_ps e EO) as Hps. split; [exact (proj2 (run_share e Hps a maps mem ops st rs SH E))|].
  intros x Hx. exact (run_share_mem e Hps a maps mem ops x SH Hx st rs E).
Qed.
Print Assumptions C05_collision_law.

(** C33 fails likewise: the record found for a hidden library is always [a]'s. *)
Theorem C33_collision_law : forall e maps mem ops a m st rs,
  env_ok e -> (forall l1 l2, ops = l1 ++ l2 -> shadows (last_filter l1) (maps_after maps l1) a) ->
  run e (init_state maps mem) ops = Ok (st, rs) ->
  link_map_hash (key_of m) = link_map_hash (key_of a) -> u64 (lm_ptr m) <= u64 (lm_ptr a) ->
  get_library (s_l st) m = get_library (s_l st) a /\
  forall i, get_library (s_l st) m = Ok (Some i) -> exists lb, nth_error (l_heap (s_l st)) i = Some lb /\ lb_map lb = lm_ptr a.
Proof.
  intros e maps mem ops a m st rs EO SH E Hh Hp. pose proof (eo_ps e EO) as Hps. destruct (s_init st) eqn:I.
  - destruct (proj1 (run_share e Hps a maps mem ops st rs SH E) I) as ([i|] & S).
    + rewrite (sinv_lookup a _ _ m S Hh Hp), (sinv_lookup a _ _ a S eq_refl (Z.le_refl _)). split; [auto|]. intros j Q. injection Q as <-. destruct S as (li & c & _ & _ & B). destruct (B i eq_refl) as [_ H]. exact H.
    + rewrite (sinv_none a _ m S Hh), (sinv_none a _ a S eq_refl). split; [auto|discriminate].
  - unfold get_library. rewrite (run_zero e maps mem ops st rs E I). cbn. split; [auto|discriminate].
Qed.
Print Assumptions C33_collision_law.

(** *** Examples *)
(** libpq.so hides libpa.so: f and g are wrapped, libpa.so unloaded, loaded again, and its slot for f at 65576 is
    never written though there is a store into libpq.so's, at 131112 *)
Definition hist_share : list op := [OWrap [mkUB f_name 11 1] (Some n_a); OUnload (fun m => negb (lm_ptr m =? lm_ptr lib_pa)) mem_p; OLoad [lib_pa] (fun _ => 77); OFinish; OWrap [mkUB g_name 12 2] (Some n_a)].
Lemma hist_share_shadows : forall l1 l2, hist_share = l1 ++ l2 -> shadows (last_filter l1) (maps_after [lib_pq; lib_pa] l1) lib_pq.
Proof.
  intros l1 l2 E. set (n := length l1). assert (El : l1 = firstn n hist_share) by (rewrite E; unfold n; rewrite firstn_app, firstn_all, Nat.sub_diag, firstn_O, app_nil_r; auto).
  assert (Hn : (n <= 5)%nat) by (unfold n; apply (f_equal (@length op)) in E; rewrite app_length in E; cbn [length hist_share] in E; lia). rewrite El. clearbody n. clear - Hn.
  exists [], (tl (maps_after [lib_pq; lib_pa] (firstn n hist_share))).
  do 6 (destruct n as [|n]; [split; [reflexivity|]; split; [reflexivity|]; split; [intros m []|]; intros m Hm; cbn in Hm; try (destruct Hm as [<-|Hm]; [vm_compute; discriminate|]); destruct Hm|]); lia.
Qed.
Example C05_collision_witness : exists st rs, run demo_env (init_state [lib_pq; lib_pa] mem_p) hist_share = Ok (st, rs) /\
  In (PStore 131112 11) (p_log (s_p st)) /\ outermost st f_name = Ok (Some 11) /\ slot relocs lib_pa f_name 65576 /\ p_mem (s_p st) 65576 = 77.
Proof.
  exists (st_of (p_run [lib_pq; lib_pa] hist_share)), (rs_of (p_run [lib_pq; lib_pa] hist_share)).
  split; [refine (run_of (p_run [lib_pq; lib_pa] hist_share) _); vm_compute; reflexivity|]. split; [vm_compute; tauto|]. split; [vm_compute; reflexivity|]. split; [is_slot 40|]. vm_compute. reflexivity.
Qed.
(** ... as the law says *)
Example C05_collision_applied : p_mem (s_p (st_of (p_run [lib_pq; lib_pa] hist_share))) 65576 = left_by hist_share 65576 (mem_p 65576).
Proof.
  refine (proj2 (C05_collision_law demo_env [lib_pq; lib_pa] mem_p hist_share lib_pq _ (rs_of (p_run [lib_pq; lib_pa] hist_share)) env_wf hist_share_shadows _) 65576 _).
  - refine (run_of (p_run [lib_pq; lib_pa] hist_share) _). vm_compute. reflexivity.
  - intros l1 l2 m n E Hm Hs. assert (Hin : In m [lib_pq; lib_pa]).
    { assert (H : In m (seen [lib_pq; lib_pa] hist_share)) by (rewrite E; apply seen_mono, maps_seen; auto). change (In m ([lib_pq; lib_pa] ++ [lib_pa])) in H. cbn [app In] in H |- *. tauto. }
    destruct Hin as [<-|[<-|[]]]; [|split; vm_compute; congruence]. exfalso. pose proof (slots_list _ _ _ Hs) as Q. vm_compute in Q. intuition discriminate.
Qed.
Example C33_collision_witness : exists i, get_library (s_l (st_of (p_run [lib_pq; lib_pa] hist_share))) lib_pa = Ok (Some i).
Proof. eexists. vm_compute. reflexivity. Qed.

(** C07: libpq.so is loaded when f is wrapped; then libpa.so, whose link_map is elsewhere but has the same hash value, is
    loaded with dlopen: its slot for f is as the loader left it. *)
Definition hist_c07 : list op := [OWrap [mkUB f_name 11 1] (Some n_a); OLoad [lib_pa] (fun _ => 77); OFinish].
Theorem C07_collision_refuted : exists e maps mem ops libs mem' st rs m n x w,
  let all := ops ++ [OLoad libs mem'; OFinish] in
  existsb is_api ops = true /\ (length ops <= 1)%nat /\ process_ok e maps all /\ fresh e all /\ NoDup (map lm_ptr (seen maps all)) /\
  run e (init_state maps mem) all = Ok (st, rs) /\
  In m libs /\ accepted (last_filter all) (maps_after maps all) m /\ slot relocs m n x /\ n <> of_string "main" /\
  outermost st n = Ok (Some w) /\ p_mem (s_p st) x <> w.
Proof.
  exists demo_env, [lib_pq], mem_p, [OWrap [mkUB f_name 11 1] (Some n_a)], [lib_pa], (fun _ => 77), (st_of (p_run [lib_pq] hist_c07)), (rs_of (p_run [lib_pq] hist_c07)), lib_pa, f_name, 65576, 11.
  intros all. split; [reflexivity|]. split; [cbn; lia|].
  split; [constructor; [exact env_wf|intros m [<-|[]]; apply demo_lib_wf|intros o m [<-|[<-|[<-|[]]]] Hm; [destruct Hm|destruct Hm as [<-|[]]; apply demo_lib_wf|destruct Hm]]|].
  split; [apply freshb_ok; vm_compute; reflexivity|]. split; [apply nodupb_ok; vm_compute; reflexivity|].
  split; [refine (run_of (p_run [lib_pq] hist_c07) _); vm_compute; reflexivity|].
  split; [left; reflexivity|]. split; [apply accepted_always; vm_compute; auto|].
  split; [is_slot 40|]. split; [discriminate|]. split; [vm_compute; reflexivity|]. vm_compute. discriminate.
Qed.
Print Assumptions C07_collision_refuted.
