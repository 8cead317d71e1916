(** Examples meeting the hypotheses of the theorems of PropsSync, and counterexamples: C05, C20-C23, C33, C57. *)
From Verif Require Import Base ListFacts HashModel HashProofs HashTrace SpecHash ElfModel SpecElf ToolModel ToolProofs CoreMaps CoreModel SpecCore SpecRun SpecSync CoreRel CoreLib CoreStep CoreWrap CoreLoop CoreMain CoreEnv CoreSpec CoreFacts CoreHist CoreApi CoreApi2 CoreSync CoreSync2 CoreSync3 CoreWrapAround
  PropsElf Demo PropsCoreEx.
From Coq Require String.
Import String.StringSyntax.
Open Scope string_scope.
Open Scope list_scope.
Open Scope Z_scope.

(** *** deciding the hypotheses *)
Definition slots_of (maps : list lmap) : list (Z * cstr) := flat_map (fun m => map (fun p => (u64 (lm_addr m + fst p), snd p)) (relocs m)) maps.
Definition apartb (maps : list lmap) : bool :=
  forallb (fun p => forallb (fun q => negb (fst p =? fst q) || cstr_eqb (snd p) (snd q)) (slots_of maps)) (slots_of maps).
Lemma slots_of_In maps m n x : In m maps -> slot relocs m n x -> In (x, n) (slots_of maps).
Proof.
  intros Hm (off & H & ->). unfold slots_of. apply in_flat_map. exists m. split; [auto|]. apply in_map_iff. exists (off, n). auto.
Qed.
Lemma apartb_ok maps : apartb maps = true -> slots_apart maps.
Proof.
  intros H m m' n n' x A B C D. apply slots_of_In with (maps := maps) in C; [|auto]. apply slots_of_In with (maps := maps) in D; [|auto].
  unfold apartb in H. rewrite forallb_forall in H. specialize (H _ C). rewrite forallb_forall in H. specialize (H _ D). cbn in H. rewrite Z.eqb_refl in H. cbn in H.
  apply cstr_eqb_ok in H. auto.
Qed.
Definition pend_step (s : bool * bool) (o : op) : bool * bool :=
  match o with
  | OLoad _ _ => (fst s, snd s || fst s)
  | OFinish => (fst s, false)
  | _ => (fst s || is_api o, snd s)
  end.
Definition pendingb (ops : list op) : bool := snd (fold_left pend_step ops (false, false)).
Lemma pendingb_ok ops : pendingb ops = false -> ~ pending ops.
Proof.
  intros H (l1 & libs & mm & l2 & -> & Hi & Hn). unfold pendingb in H. rewrite fold_left_app in H. cbn [fold_left] in H.
  assert (A : forall l s, fst (fold_left pend_step l s) = fst s || existsb is_api l).
  { clear. induction l as [|o r IH]; intros s; cbn; [rewrite orb_false_r; auto|]. rewrite IH. destruct s as [[] b], o; cbn; reflexivity. }
  assert (B : forall l s, ~ In OFinish l -> snd s = true -> snd (fold_left pend_step l s) = true).
  { clear. induction l as [|o r IH]; intros s Hn Hs; cbn; [auto|]. apply IH; [intros Hx; apply Hn; right; auto|].
    destruct o; cbn; rewrite ?Hs; auto. exfalso. apply Hn. left. auto. }
  rewrite B in H; [discriminate|auto|]. cbn. rewrite A, Hi. cbn. apply orb_true_r.
Qed.
Lemma accepted_always maps m : accepted FAlways maps m <-> In m maps.
Proof.
  split; [intros (p & r & -> & _); apply in_elt|]. intros H. apply in_split in H. destruct H as (p & r & ->). exists p, r. auto.
Qed.
(** all prefixes of a concrete list *)
Ltac prefixes l E := repeat (destruct l as [|? l]; [|injection E as <- E]); try discriminate E; try (destruct l; discriminate E).

(** *** a history with everything: wraps by two tools, a dlopen, an unload, a reload elsewhere, another wrap *)
Definition n_c : cstr := of_string "c".
Definition lib_e : lmap := placed demo_lib 3 (of_string "libe.so") 131072.
Definition lib_e2 : lmap := placed demo_lib 4 (of_string "libe.so") 196608.
Definition mem_e : Z -> Z := fun x => if x =? 131112 then 66048 else if x =? 131120 then 66048 else if x =? 131128 then 7 else mem1 x.
Definition mem_u : Z -> Z := mem1.
Definition mem_e2 : Z -> Z := fun x => if x =? 196648 then 66048 else if x =? 196656 then 66048 else if x =? 196664 then 7 else mem1 x.
Definition keep_d (m : lmap) : bool := negb (lm_ptr m =? 3).
Definition hist_s : list op := hist1 ++ [OLoad [lib_e] mem_e; OFinish; OUnload keep_d mem_u; OLoad [lib_e2] mem_e2; OFinish; OSetPriority n_c 9; OWrap [mkUB f_name 31 5] (Some n_c); OWrap [mkUB n_main 41 6] (Some n_a)].

Definition tidyb (maps : list lmap) (ops : list op) : bool :=
  nodupb (map (fun m => link_map_hash (key_of m)) (seen maps ops)) && forallb (fun k => apartb (maps_after maps (firstn k ops))) (seq 0 (Datatypes.S (length ops))) &&
  (Z.of_nat (wraps ops) + 4 <? two32).
Lemma tidyb_ok maps ops : tidyb maps ops = true -> tidy maps ops.
Proof.
  unfold tidyb. intros H. apply andb_prop in H. destruct H as [H H3]. apply andb_prop in H. destruct H as [H1 H2]. constructor.
  - apply nodupb_ok. auto.
  - intros l1 l2 E. rewrite forallb_forall in H2. specialize (H2 (length l1)). apply apartb_ok. subst ops.
    rewrite firstn_app, firstn_all, Nat.sub_diag, firstn_O, app_nil_r in H2. apply H2. apply in_seq. rewrite app_length. lia.
  - apply Z.ltb_lt in H3. auto.
Qed.

Lemma slots_list m n x : slot relocs m n x -> In (x, n) (slots_of [m]).
Proof. intros H. apply (slots_of_In [m] m); [left; auto|auto]. Qed.

(** the memory left by the loader agrees with what it found on the slots of [m] *)
Definition keeps (r : outcome (state * list res)) (mm : Z -> Z) (m : lmap) : bool :=
  forallb (fun p => mm (fst p) =? p_mem (s_p (st_of r)) (fst p)) (slots_of [m]).
Lemma keeps_ok r mm m st rs n x : keeps r mm m = true -> r = Ok (st, rs) -> slot relocs m n x -> mm x = p_mem (s_p st) x.
Proof.
  intros H -> Hs. unfold keeps in H. rewrite forallb_forall in H. specialize (H _ (slots_list _ _ _ Hs)). apply Z.eqb_eq in H. exact H.
Qed.

Example hist_s_ok : process_ok demo_env demo_libs hist_s /\ fresh demo_env hist_s /\ tidy demo_libs hist_s /\ existsb is_api hist1 = true /\ ~ pending hist_s.
Proof.
  split; [process|]. split; [apply freshb_ok; vm_compute; reflexivity|]. split; [apply tidyb_ok; vm_compute; reflexivity|]. split; [reflexivity|].
  apply pendingb_ok. vm_compute. reflexivity.
Qed.
Lemma hist_s_filter l1 l2 : hist_s = l1 ++ l2 -> last_filter l1 = FAlways.
Proof. intros E. unfold hist_s, hist1 in E. cbn [app] in E. prefixes l1 E; try reflexivity. destruct l1; [reflexivity|discriminate]. Qed.
Example hist_s_orderly : orderly demo_env demo_libs demo_mem hist_s.
Proof.
  constructor.
  - apply hist_s_ok.
  - intros l1 o l2 m E _ Hm _. rewrite (hist_s_filter l1 (o :: l2) E). apply accepted_always. auto.
  - intros l1 libs mm l2 st rs m n x E Er Hm Hs. unfold hist_s, hist1 in E. cbn [app] in E. 
    prefixes l1 E; injection E as <- <- _; cbn in Hm; repeat (destruct Hm as [<-|Hm]; [refine (keeps_ok _ _ _ _ _ _ _ _ Er Hs); vm_compute; reflexivity|]); destruct Hm.
  - intros l1 keep mm l2 st rs m n x E Er Hm Hk Hs. unfold hist_s, hist1 in E. cbn [app] in E.
    prefixes l1 E; injection E as <- <- _; cbn in Hm;
    destruct Hm as [<-|[<-|[]]]; [refine (keeps_ok _ _ _ _ _ _ _ _ Er Hs); vm_compute; reflexivity|discriminate Hk].
  - intros l1 ubs t l2 E. apply pendingb_ok. unfold hist_s, hist1 in E. cbn [app] in E. prefixes l1 E; vm_compute; reflexivity.
  - intros l1 o l2 E. unfold hist_s, hist1 in E. cbn [app] in E. prefixes l1 E; injection E as <- _; cbn; auto; try (intros [H|[H|[]]]; discriminate); try (intros [H|[]]; discriminate).
    intros _. right. eauto.
Qed.
(** libd.so and the reloaded libe.so are redirected to the outermost wrappers *)
Example hist_s_run : let st := st_of (demo_run hist_s) in
  (outermost st f_name, outermost st g_name) = (Ok (Some 31), Ok (Some 12)) /\
  map (p_mem (s_p st)) [65576; 65584; 65592; 196648; 196656; 196664] = [31; 31; 12; 31; 31; 12] /\
  maps_after demo_libs hist_s = [demo_lib; lib_e2] /\ stack demo_env demo_libs hist_s f_name = [mkE n_c 31 5; mkE n_b 21 3; mkE n_a 11 1].
Proof. split; [vm_compute; reflexivity|]. split; [vm_compute; reflexivity|]. split; [reflexivity|]. vm_compute. reflexivity. Qed.

(** C22: the hypotheses with a constructor that wraps during the load *)
Definition hist_ctor : list op := hist1 ++ [OLoad [lib_e] mem_e].
Definition ctor : op := OWrap [mkUB g_name 51 7] (Some n_b).
Example ctor_ok : main_alone hist_ctor ctor /\ process_ok demo_env demo_libs (hist_ctor ++ [ctor]) /\ calm demo_libs (hist_ctor ++ [ctor]).
Proof. split; [intros [H|[]]; discriminate|]. split; [process|apply tidy_calm, tidyb_ok; vm_compute; reflexivity]. Qed.
(** C23: a library loaded behind GOTCHA's back, then other things, then a dlopen *)
Definition mid_s : list op := [OSetPriority n_c 3; OFilter FAlways; OLoad [lib_e2] mem_e2].
Example mid_ok : forallb quiet mid_s = true /\ process_ok demo_env demo_libs (hist1 ++ OLoad [lib_e] mem_e :: mid_s) /\ tidy demo_libs (hist1 ++ OLoad [lib_e] mem_e :: mid_s).
Proof. split; [reflexivity|]. split; [process|apply tidyb_ok; vm_compute; reflexivity]. Qed.
(** C20: libraries do become current *)
Example hist_s_current : current (st_of (demo_run hist_s)) demo_lib.
Proof.
  unfold current. destruct (get_library (s_l (st_of (demo_run hist_s))) demo_lib) as [[i|]|] eqn:E; vm_compute in E; try discriminate. injection E as <-.
  exists 0%nat. eexists. split; [reflexivity|]. split; vm_compute; reflexivity.
Qed.

(** *** Refutations *)
(** the relevant slots of [m] *)
Ltac is_slot off := exists off; split; [vm_compute; auto|reflexivity].
Ltac run_ok ops := refine (run_of (demo_run ops) _); vm_compute; reflexivity.

(** C22: f is wrapped; while libe.so is being loaded its constructor wraps g; when dlopen returns libe.so
    still calls f directly. *)
Definition hist_c22 : list op := hist1 ++ [OLoad [lib_e] mem_e; ctor; OFinish].
Theorem C22_constructor_refuted : exists e maps mem before libs mem' ubs tool st rs m n x w,
  let ops := before ++ [OLoad libs mem'; OWrap ubs tool; OFinish] in
  process_ok e maps ops /\ fresh e ops /\ tidy maps ops /\ run e (init_state maps mem) ops = Ok (st, rs) /\
  In m libs /\ accepted (last_filter ops) (maps_after maps ops) m /\ slot relocs m n x /\ wrapped e before n /\
  outermost st n = Ok (Some w) /\ p_mem (s_p st) x = mem' x /\ mem' x <> w.
Proof.
  exists demo_env, demo_libs, demo_mem, hist1, [lib_e], mem_e, [mkUB g_name 51 7], (Some n_b), (st_of (demo_run hist_c22)), (rs_of (demo_run hist_c22)), lib_e, f_name, 131112, 21.
  cbv zeta. split; [process|]. split; [apply freshb_ok; vm_compute; reflexivity|]. split; [apply tidyb_ok; vm_compute; reflexivity|]. split; [run_ok hist_c22|].
  split; [left; reflexivity|]. split; [apply accepted_always; vm_compute; auto|]. split; [is_slot 40|]. split; [vm_compute; discriminate|].
  split; [vm_compute; reflexivity|]. split; [vm_compute; reflexivity|]. vm_compute. discriminate.
Qed.
Print Assumptions C22_constructor_refuted.

(** C23: the same with a raw load, a wrap, and an intercepted dlopen of another library. *)
Definition hist_c23 : list op := hist1 ++ [OLoad [lib_e] mem_e; ctor; OLoad [lib_e2] (fun x => if x =? 131128 then 51 else if x =? 65592 then 51 else mem_e2 x); OFinish].
Theorem C23_wrap_between_refuted : exists e maps mem before libs mem' mid st rs m n x w,
  let ops := before ++ OLoad libs mem' :: mid ++ [OFinish] in
  process_ok e maps ops /\ fresh e ops /\ tidy maps ops /\ run e (init_state maps mem) ops = Ok (st, rs) /\
  In m libs /\ accepted (last_filter ops) (maps_after maps ops) m /\ slot relocs m n x /\ wrapped e before n /\
  outermost st n = Ok (Some w) /\ p_mem (s_p st) x <> w.
Proof.
  exists demo_env, demo_libs, demo_mem, hist1, [lib_e], mem_e, [ctor; OLoad [lib_e2] (fun x => if x =? 131128 then 51 else if x =? 65592 then 51 else mem_e2 x)],
    (st_of (demo_run hist_c23)), (rs_of (demo_run hist_c23)), lib_e, f_name, 131112, 21.
  cbv zeta. split; [process|]. split; [apply freshb_ok; vm_compute; reflexivity|]. split; [apply tidyb_ok; vm_compute; reflexivity|]. split; [run_ok hist_c23|].
  split; [left; reflexivity|]. split; [apply accepted_always; vm_compute; auto|]. split; [is_slot 40|]. split; [vm_compute; discriminate|].
  split; [vm_compute; reflexivity|]. vm_compute. discriminate.
Qed.
Print Assumptions C23_wrap_between_refuted.

(** C21: libe.so is unloaded and loaded again, and its link_map is allocated at the same address. *)
Definition hist_c21 : list op := hist1 ++ [OLoad [lib_e] mem_e; OFinish; OUnload keep_d mem_u; OLoad [lib_e] mem_e; OFinish].
Theorem C21_reload_refuted : exists e maps mem before libs mem1 keep mem2 mem3 st rs m n x w,
  let ops := before ++ [OLoad libs mem1; OFinish; OUnload keep mem2; OLoad libs mem3; OFinish] in
  process_ok e maps ops /\ fresh e ops /\ run e (init_state maps mem) ops = Ok (st, rs) /\
  In m libs /\ ~ In m (maps_after maps (before ++ [OLoad libs mem1; OFinish; OUnload keep mem2])) /\
  accepted (last_filter ops) (maps_after maps ops) m /\ slot relocs m n x /\ wrapped e before n /\
  outermost st n = Ok (Some w) /\ p_mem (s_p st) x = mem3 x /\ mem3 x <> w.
Proof.
  exists demo_env, demo_libs, demo_mem, hist1, [lib_e], mem_e, keep_d, mem_u, mem_e, (st_of (demo_run hist_c21)), (rs_of (demo_run hist_c21)), lib_e, f_name, 131112, 21.
  cbv zeta. split; [process|]. split; [apply freshb_ok; vm_compute; reflexivity|]. split; [run_ok hist_c21|].
  split; [left; reflexivity|]. split; [intros [H|[]]; injection H; discriminate|]. split; [apply accepted_always; vm_compute; auto|]. split; [is_slot 40|]. split; [vm_compute; discriminate|].
  split; [vm_compute; reflexivity|]. split; [vm_compute; reflexivity|]. vm_compute. discriminate.
Qed.
Print Assumptions C21_reload_refuted.

(** C57: a filter hides libd.so while f is wrapped; then the filter is lifted and g is wrapped: libd.so now
    counts as up to date, but calls f directly. *)
Definition hist_c57 : list op := [OFilter (FName (Some (of_string "libg"))); OWrap [mkUB f_name 11 1] (Some n_a); OFilter FAlways; OWrap [mkUB g_name 12 2] (Some n_a)].
Theorem C57_filter_refuted : exists e maps mem ops st rs m n x w,
  process_ok e maps ops /\ fresh e ops /\ tidy maps ops /\ ~ pending ops /\ run e (init_state maps mem) ops = Ok (st, rs) /\
  accepted (last_filter ops) (maps_after maps ops) m /\ current st m /\ slot relocs m n x /\
  outermost st n = Ok (Some w) /\ p_mem (s_p st) x = mem x /\ mem x <> w.
Proof.
  exists demo_env, demo_libs, demo_mem, hist_c57, (st_of (demo_run hist_c57)), (rs_of (demo_run hist_c57)), demo_lib, f_name, 65576, 11.
  split; [process|]. split; [apply freshb_ok; vm_compute; reflexivity|]. split; [apply tidyb_ok; vm_compute; reflexivity|]. split; [apply pendingb_ok; reflexivity|]. split; [run_ok hist_c57|].
  split; [apply accepted_always; vm_compute; auto|]. split; [exists 0%nat; eexists; split; [vm_compute; reflexivity|]; split; vm_compute; reflexivity|]. split; [is_slot 40|].
  split; [vm_compute; reflexivity|]. split; [vm_compute; reflexivity|]. vm_compute. discriminate.
Qed.
Print Assumptions C57_filter_refuted.

(** C33, C05: libpa.so and libpq.so, whose link_maps lie 613936 bytes apart, have the same hash value; since
    link_map_cmp returns 0 when the first address is not below the second one, the record of libpa.so is
    found for libpq.so, which is never redirected. *)
Definition lib_pa : lmap := placed demo_lib 93824992935936 (of_string "libpa.so") 65536.
Definition lib_pq : lmap := placed demo_lib 93824993549872 (of_string "libpq.so") 131072.
Definition mem_p : Z -> Z := fun _ => 66048.
Notation p_run libs ops := (run demo_env (init_state libs mem_p) ops).
Definition hist_p : list op := [OWrap [mkUB f_name 11 1] (Some n_a)].
Theorem C33_collision_refuted : exists e maps mem ops st rs m m' i lb,
  process_ok e maps ops /\ fresh e ops /\ run e (init_state maps mem) ops = Ok (st, rs) /\ In m maps /\ In m' maps /\ lm_ptr m <> lm_ptr m' /\ key_of m <> key_of m' /\
  get_library (s_l st) m' = Ok (Some i) /\ nth_error (l_heap (s_l st)) i = Some lb /\ lb_map lb = lm_ptr m.
Proof.
  exists demo_env, [lib_pq; lib_pa], mem_p, hist_p, (st_of (p_run [lib_pq; lib_pa] hist_p)), (rs_of (p_run [lib_pq; lib_pa] hist_p)), lib_pq, lib_pa.
  eexists _, _. split; [constructor; [exact env_wf|intros m [<-|[<-|[]]]; apply demo_lib_wf|intros o m [<-|[]] []]|].
  split; [apply freshb_ok; vm_compute; reflexivity|]. split; [refine (run_of (p_run [lib_pq; lib_pa] hist_p) _); vm_compute; reflexivity|].
  split; [left; reflexivity|]. split; [right; left; reflexivity|]. split; [vm_compute; discriminate|]. split; [vm_compute; discriminate|].
  split; [vm_compute; reflexivity|]. split; vm_compute; reflexivity.
Qed.
Print Assumptions C33_collision_refuted.

Theorem C05_collision_refuted : exists e maps mem ops st rs m n x w,
  process_ok e maps ops /\ fresh e ops /\ slots_apart maps /\ existsb is_wrap ops = true /\ (forall o, In o ops -> is_wrap o = true /\ main_alone [] o) /\
  run e (init_state maps mem) ops = Ok (st, rs) /\ accepted (last_filter ops) maps m /\ n <> n_main /\ slot relocs m n x /\
  outermost st n = Ok (Some w) /\ p_mem (s_p st) x <> w.
Proof.
  exists demo_env, [lib_pq; lib_pa], mem_p, hist_p, (st_of (p_run [lib_pq; lib_pa] hist_p)), (rs_of (p_run [lib_pq; lib_pa] hist_p)), lib_pa, f_name, 65576, 11.
  split; [constructor; [exact env_wf|intros m [<-|[<-|[]]]; apply demo_lib_wf|intros o m [<-|[]] []]|].
  split; [apply freshb_ok; vm_compute; reflexivity|]. split; [apply apartb_ok; vm_compute; reflexivity|]. split; [reflexivity|].
  split; [intros o [<-|[]]; split; [reflexivity|]; intros [H|[]]; discriminate|]. split; [refine (run_of (p_run [lib_pq; lib_pa] hist_p) _); vm_compute; reflexivity|].
  split; [apply accepted_always; vm_compute; auto|]. split; [discriminate|]. split; [is_slot 40|]. split; [vm_compute; reflexivity|]. vm_compute. discriminate.
Qed.
Print Assumptions C05_collision_refuted.

(** C20: f is wrapped, then gotcha_wrap is called 2^32 - 1 times without bindings, then g is wrapped: the
    generation of libd.so is the current one again and its call to g is not redirected. *)
Definition hist_many (many : nat) : list op := [OWrap [mkUB f_name 11 1] (Some n_a)] ++ repeat (OWrap [] (Some n_a)) many ++ [OWrap [mkUB g_name 12 2] (Some n_a)].
Lemma wraparound many : Z.of_nat many = 4294967295 -> exists e maps mem ops st rs m n x w,
  process_ok e maps ops /\ fresh e ops /\ NoDup (map (fun m => link_map_hash (key_of m)) (seen maps ops)) /\ slots_apart maps /\
  (forall o, In o ops -> is_wrap o = true /\ main_alone [] o) /\
  run e (init_state maps mem) ops = Ok (st, rs) /\ accepted (last_filter ops) (maps_after maps ops) m /\ current st m /\
  slot relocs m n x /\ n <> n_main /\ outermost st n = Ok (Some w) /\ p_mem (s_p st) x <> w.
Proof.
  intros Hmany. set (hist := hist_many many).
  assert (Hops : forall o, In o hist -> (is_wrap o = true /\ main_alone [] o) /\ op_libs o = []).
  { intros o Ho. unfold hist, hist_many in Ho. apply in_app_or in Ho. destruct Ho as [[<-|[]]|Ho]; [split; [split; [reflexivity|intros [H|[]]; discriminate]|reflexivity]|].
    apply in_app_or in Ho. destruct Ho as [Ho|[<-|[]]]; [|split; [split; [reflexivity|intros [H|[]]; discriminate]|reflexivity]].
    apply repeat_spec in Ho. subst o. split; [split; [reflexivity|intros []]|reflexivity]. }
  assert (P : process_ok demo_env demo_libs hist).
  { constructor; [exact env_wf|intros m [<-|[]]; exact demo_wf|]. intros o m Ho Hm. rewrite (proj2 (Hops o Ho)) in Hm. destruct Hm. }
  assert (UB : user_binds hist = [mkUB f_name 11 1; mkUB g_name 12 2]).
  { unfold user_binds, hist, hist_many. rewrite !flat_map_app. cbn [flat_map op_binds app]. clear. induction many as [|k IH]; [reflexivity|exact IH]. }
  assert (SN : seen demo_libs hist = demo_libs).
  { unfold seen. replace (flat_map op_libs hist) with (@nil lmap); [rewrite app_nil_r; auto|]. clear -Hops. induction hist as [|o r IH]; [reflexivity|]. cbn.
    rewrite (proj2 (Hops o (or_introl eq_refl))). apply IH. intros; apply Hops. right. auto. }
  assert (MA : maps_after demo_libs hist = demo_libs).
  { clear -Hops. induction hist as [|o r IH]; [reflexivity|]. pose proof (Hops o (or_introl eq_refl)) as [[H _] _]. destruct o; try discriminate. cbn. apply IH. intros; apply Hops. right. auto. }
  assert (LF : last_filter hist = FAlways).
  { unfold last_filter. generalize FAlways. clear -Hops. induction hist as [|o r IH]; [reflexivity|]. intros f. pose proof (Hops o (or_introl eq_refl)) as [[H _] _]. destruct o; try discriminate.
    cbn. apply IH. intros; apply Hops. right. auto. }
  set (ops1 := [OWrap [mkUB f_name 11 1] (Some n_a)]).
  assert (E1 : demo_run ops1 = Ok (st_of (demo_run ops1), rs_of (demo_run ops1))) by (apply run_of; vm_compute; reflexivity).
  assert (G1 : l_gen (s_l (st_of (demo_run ops1))) = 2) by (vm_compute; reflexivity).
  assert (I1 : s_init (st_of (demo_run ops1)) = true) by (vm_compute; reflexivity).
  assert (X1 : p_mem (s_p (st_of (demo_run ops1))) 65592 = 7) by (vm_compute; reflexivity).
  assert (LB : exists lb, get_library (s_l (st_of (demo_run ops1))) demo_lib = Ok (Some 0%nat) /\ nth_error (l_heap (s_l (st_of (demo_run ops1)))) 0 = Some lb /\ lb_gen lb = 2).
  { eexists. split; [vm_compute; reflexivity|]. split; vm_compute; reflexivity. }
  revert E1 G1 I1 X1 LB. generalize (st_of (demo_run ops1)) (rs_of (demo_run ops1)). intros st1 rs1 E1 G1 I1 X1 (lb & GL & NL & GB).
  assert (P1 : process_ok demo_env demo_libs ops1) by (constructor; [exact env_wf|intros m [<-|[]]; exact demo_wf|intros o m [<-|[]] []]).
  destruct (reach demo_env demo_libs demo_mem ops1 st1 rs1 P1 E1) as (R1 & M1 & F1 & _).
  destruct R1 as [Q|[ch S1]]; [pose proof (pr_i _ _ _ _ _ Q) as H; congruence|].
  set (a1 := fst (arun ins_c (exports demo_env) demo_env (a0 demo_libs) ops1)) in *.
  destruct (empty_wraps demo_env env_wf (Some n_a) many st1 a1 ch S1) as (st2 & rs2 & a2 & E2 & S2 & A1 & A2 & A3 & A4 & A5 & P2 & L2).
  { vm_compute. reflexivity. }
  { rewrite G1. reflexivity. }
  assert (G2 : u32 (l_gen (s_l st2) + 1) = 2).
  { rewrite L2. cbn [l_gen with_gen]. rewrite u32_mod, G1. rewrite Hmany. reflexivity. }
  destruct (skipped demo_env env_wf st2 a2 ch (Some n_a) [mkUB g_name 12 2] demo_lib 0%nat lb S2) as (st3 & r3 & ch3 & E3 & S3 & P3 & L3).
  { left. intros u [<-|[]]. discriminate. }
  { discriminate. }
  { rewrite P2. exact M1. }
  { rewrite L2. exact GL. }
  { rewrite L2. exact NL. }
  { rewrite G2. exact GB. }
  assert (E : exists rs, demo_run hist = Ok (st3, rs)).
  { unfold hist, hist_many. fold ops1. rewrite run_app, E1. cbn [bind]. rewrite run_app, E2. cbn [bind]. rewrite run_one, E3. cbn [bind]. eauto. }
  destruct E as (rs & E).
  exists demo_env, demo_libs, demo_mem, hist, st3, rs, demo_lib, g_name, 65592, 12.
  split; [exact P|]. split.
  { apply freshb_ok. unfold freshb. rewrite UB. vm_compute. reflexivity. }
  split; [rewrite SN; apply nodupb_ok; vm_compute; reflexivity|]. split; [apply apartb_ok; vm_compute; reflexivity|]. split; [intros o Ho; apply (Hops o Ho)|].
  split; [exact E|]. split; [rewrite LF, MA; apply accepted_always; left; reflexivity|]. split.
  { exists 0%nat, lb. rewrite L3, L2. split; [exact GL|]. split; [exact NL|reflexivity]. }
  split; [exists 56; split; [vm_compute; auto|reflexivity]|]. split; [discriminate|]. split.
  - rewrite (rel_outermost demo_env False st3 _ g_name (or_intror (ex_intro _ ch3 S3))). f_equal. unfold hdw.
    assert (HS : hdw (fst (abinds ins_c (exports demo_env) (ause a2 (tool_of (Some n_a))) (tool_of (Some n_a)) [mkUB g_name 12 2])) g_name = Some 12).
    { cbn [SpecCore.abinds]. unfold SpecCore.abind, hdw. cbn [ause a_tools a_stack a_orig a_maps a_main a_init ub_name ub_wrapper ub_handle]. rewrite A2, A3, A4, A5. vm_compute. reflexivity. }
    exact HS.
  - rewrite P3, P2, X1. discriminate.
Qed.
Theorem C20_wraparound_refuted : exists e maps mem ops st rs m n x w,
  process_ok e maps ops /\ fresh e ops /\ NoDup (map (fun m => link_map_hash (key_of m)) (seen maps ops)) /\ slots_apart maps /\
  (forall o, In o ops -> is_wrap o = true /\ main_alone [] o) /\
  run e (init_state maps mem) ops = Ok (st, rs) /\ accepted (last_filter ops) (maps_after maps ops) m /\ current st m /\
  slot relocs m n x /\ n <> n_main /\ outermost st n = Ok (Some w) /\ p_mem (s_p st) x <> w.
Proof. apply (wraparound (Z.to_nat 4294967295)). apply Z2Nat.id. discriminate. Qed.
Print Assumptions C20_wraparound_refuted.
