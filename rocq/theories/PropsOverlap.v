(** Property C84: gotcha_wrap called by several threads at once. *)
From Verif Require Import Base ListFacts HashModel HashProofs SpecHash ElfModel SpecElf ToolModel CoreModel SpecCore SpecRun SpecSync CoreRel CoreLoop CoreSpec CoreMain CoreFacts CoreHist CoreApi CoreEnv CoreSync CoreSync2 CoreSync3 CommuteProofs
  PropsElf Demo PropsCoreEx PropsSync PropsSyncEx PropsStall PropsIdle OverlapModel SpecOverlap OverlapProofs OverlapProofs2 OverlapProofs3.
From Coq Require Import Permutation.
Open Scope list_scope.
Open Scope Z_scope.

(** C84: the stages of a call made without interruption, from any state and whatever the other threads are doing, are gotcha_wrap. *)
Theorem C84_undisturbed : forall e st cs i ubs tool, nth_error cs i = Some (mkWC ubs tool AtEnter) ->
  orun e st cs (repeat i (length ubs + 2)) = (do ' (st', code) <- gotcha_wrap e st ubs tool; Ok (st', upd cs i (fun _ => mkWC ubs tool (Returned code)))).
Proof. exact undisturbed. Qed.
Print Assumptions C84_undisturbed.

(** C84: once GOTCHA is initialised, calls of gotcha_wrap whose stages interleave in any way do not fault.  When all have returned there is
    a merge of the calls cut into calls with one binding each, in each thread's order, such that: making these one after another
    gives every thread the result its call returned (FUNCTION_NOT_FOUND if one of its parts reports that), leaves every function
    with the same outermost wrapper, and whatever is done later returns the same and leaves the same outermost wrappers.
    Partial: a stage is one step; nothing is said about the call sites here (see C84_second_update_law). *)
Theorem C84_overlap_partial : forall e maps mem ops st rs calls sched,
  process_ok e maps ops -> existsb is_api ops = true -> run e (init_state maps mem) ops = Ok (st, rs) ->
  exists st' cs', orun e st (about calls) sched = Ok (st', cs') /\
    (all_returned cs' -> exists ws st2 rs2, merges calls ws /\ run e st (map snd ws) = Ok (st2, rs2) /\ length cs' = length calls /\
       (forall i c, nth_error cs' i = Some c -> wc_at c = Returned (if existsb failed (results_of i ws rs2) then GOTCHA_FUNCTION_NOT_FOUND else GOTCHA_SUCCESS)) /\
       (forall n, outermost st' n = outermost st2 n) /\
       forall more, process_ok e maps (ops ++ more) -> exists s1 s2 xs, run e st' more = Ok (s1, xs) /\ run e st2 more = Ok (s2, xs) /\
         forall n, outermost s1 n = outermost s2 n).
Proof.
  intros e maps mem ops st rs calls sched P I E. pose proof (po_env _ _ _ P) as EO.
  destruct (overlapped e maps mem ops st rs calls P I E sched) as (st' & cs' & R & H). exists st', cs'. split; [exact R|]. intros Hr.
  destruct (H Hr) as (ws & a & ch & M & L & S & Q & _ & WW & _ & RC).
  assert (P2 : process_ok e maps (ops ++ map snd ws)).
  { destruct P as [P1 P2 P3]. constructor; auto. intros o m Ho Hm. apply in_app_or in Ho. destruct Ho as [Ho|Ho]; [eauto|].
    apply in_map_iff in Ho. destruct Ho as (p & <- & Hp). destruct (WW p Hp) as (l & t & Ew). rewrite Ew in Hm. destruct Hm. }
  destruct (reach e maps mem ops st rs P E) as (R0 & _).
  destruct (run_spec e (exports e) relocs EO False (map snd ws) st _ R0 ltac:(tauto)) as (st2 & E2 & R2).
  { intros o Ho. apply (process_ops _ _ _ P2). apply in_or_app. right. exact Ho. }
  assert (R1 : rel1 e False st' a) by (right; exists ch; apply (srel_false _ _ _ _ _ _ _ _ S)).
  exists ws, st2, (snd (arun ins_c (exports e) e (fst (arun ins_c (exports e) e (a0 maps) ops)) (map snd ws))). split; [exact M|]. split; [exact E2|]. split; [exact L|]. split; [exact RC|]. split.
  { intros n. rewrite (rel_outermost e False st' a n R1), (rel_outermost e False st2 _ n R2), (sm_stack _ _ Q). reflexivity. }
  intros more Pm. assert (LO : forall o, In o more -> lib_op e (exports e) relocs o) by (intros o Ho; apply (process_ops _ _ _ Pm), in_or_app; auto).
  destruct (run_spec e (exports e) relocs EO False more st' a R1 ltac:(tauto) LO) as (s1 & X1 & Y1).
  destruct (run_spec e (exports e) relocs EO False more st2 _ R2 ltac:(tauto) LO) as (s2 & X2 & Y2).
  destruct (run_sim e (exports e) ins_c ins_c_by_prio more _ _ Q) as [Z1 Z2]. rewrite <- Z2 in X2. exists s1, s2. eexists. split; [exact X1|]. split; [exact X2|].
  intros n. rewrite (rel_outermost e False s1 _ n Y1), (rel_outermost e False s2 _ n Y2), (sm_stack _ _ Z1). reflexivity.
Qed.
Print Assumptions C84_overlap_partial.

(** C84: if every binding has its own handle variable and wrapper, the handles lead through the wrappers as the specification says for such
    a merge: no binding is lost and none is there twice.  Only slots of accepted libraries for a function change, and only to hold
    one of its wrappers. *)
Theorem C84_wrappees_partial : forall e maps mem ops st rs calls sched st' cs',
  process_ok e maps ops -> existsb is_api ops = true -> fresh e (ops ++ call_ops calls) -> run e (init_state maps mem) ops = Ok (st, rs) ->
  orun e st (about calls) sched = Ok (st', cs') -> all_returned cs' ->
  exists ws, merges calls ws /\ Permutation (user_binds (map snd ws)) (user_binds (call_ops calls)) /\
    (forall n, wired st' (stack e maps (ops ++ map snd ws) n) (original e maps (ops ++ map snd ws) n)) /\
    forall x, p_mem (s_p st') x = p_mem (s_p st) x \/
      exists m n, accepted (p_filter (s_p st)) (p_maps (s_p st)) m /\ slot relocs m n x /\ In (p_mem (s_p st') x) (map en_wrapper (stack e maps (ops ++ map snd ws) n)).
Proof.
  intros e maps mem ops st rs calls sched st' cs' P I F E R Hr. pose proof (po_env _ _ _ P) as EO.
  destruct (overlapped e maps mem ops st rs calls P I E sched) as (st1 & cs1 & R1 & H). rewrite R in R1. injection R1 as <- <-.
  destruct (H Hr) as (ws & a & ch & M & L & S & Q & MF & WW & PB & RC). exists ws. split; [exact M|]. split; [rewrite call_binds; exact PB|].
  assert (F2 : fresh e (ops ++ map snd ws)).
  { destruct F as [F1 F2 F3]. rewrite user_binds_app, call_binds in F1, F2, F3.
    assert (PP : Permutation (user_binds ops ++ flat_map fst calls) (user_binds (ops ++ map snd ws))) by (rewrite user_binds_app; apply Permutation_app_head, Permutation_sym, PB).
    constructor; [apply (nodup_perm _ _ _ PP F1)|apply (nodup_perm _ _ _ PP F2)|]. intros u Hu. apply F3. eapply Permutation_in; [apply Permutation_sym, PP|exact Hu]. }
  assert (HA : history e maps (ops ++ map snd ws) = fst (arun ins_c (exports e) e (fst (arun ins_c (exports e) e (a0 maps) ops)) (map snd ws))).
  { rewrite (history_agree e maps _ EO F2), arun_app. reflexivity. }
  assert (HS : forall n, stack e maps (ops ++ map snd ws) n = a_stack a n) by (intros n; unfold stack; rewrite HA; symmetry; apply (sm_stack _ _ Q)).
  split.
  - intros n. rewrite HS. unfold original. rewrite HA, <- (sm_orig _ _ Q). apply (rel_wired e). right. exists ch. apply (srel_true _ _ _ _ _ _ _ _ F S).
  - intros x. destruct MF as (_ & _ & MF & _). destruct (MF x) as [X|(m & n & X1 & X2 & X3)]; [left; exact X|]. right. exists m, n. rewrite HS. auto.
Qed.
Print Assumptions C84_wrappees_partial.

(** C84: of the calls that have entered before one of them updates the call sites, no other stores anything from then on: the
    libraries count as up to date.  So the bindings of all other calls, and their parts made after the update, are not redirected, and
    this for every process in which no call is the first to bind main. *)
Theorem C84_second_update_law : forall e maps mem ops st rs calls s1 i c s2 st1 cs1 st2 cs2 st3 cs3,
  process_ok e maps ops -> existsb is_api ops = true -> run e (init_state maps mem) ops = Ok (st, rs) ->
  calm maps (ops ++ call_ops calls) -> main_settled ops calls ->
  orun e st (about calls) s1 = Ok (st1, cs1) -> nth_error cs1 i = Some c -> updates_next c -> orun e st1 cs1 [i] = Ok (st2, cs2) ->
  (forall j d, In j s2 -> nth_error cs2 j = Some d -> wc_at d <> AtEnter) -> orun e st2 cs2 s2 = Ok (st3, cs3) ->
  p_mem (s_p st3) = p_mem (s_p st2) /\ p_log (s_p st3) = p_log (s_p st2).
Proof.
  intros e maps mem ops st rs calls s1 i c s2 st1 cs1 st2 cs2 st3 cs3 P I E C PL R1 Hc U R2 Hn R3. unfold updates_next in U. destruct (wc_at c) as [|na [|n] b pr|] eqn:Hat; try contradiction.
  rewrite (second_update e maps mem ops st rs calls P I E C PL s1 i c na b pr s2 st1 cs1 st2 cs2 st3 cs3 R1 Hc Hat U R2 Hn R3). auto.
Qed.
Print Assumptions C84_second_update_law.

(** *** two threads *)
Definition ovl_ops : list op := [OSetPriority n_a 1; OSetPriority n_b 1].
Notation ost := (st_of (demo_run ovl_ops)).
Definition ost_of (o : outcome (state * list wcall)) : state := match o with Ok (s, _) => s | _ => init_state [] demo_mem end.
Definition ocs_of (o : outcome (state * list wcall)) : list wcall := match o with Ok (_, c) => c | _ => [] end.
Definition o_ok (o : outcome (state * list wcall)) : bool := match o with Ok _ => true | _ => false end.
Lemma orun_of o : o_ok o = true -> o = Ok (ost_of o, ocs_of o).
Proof. destruct o as [[s c]|]; [reflexivity|discriminate]. Qed.
Lemma run_fact (Q : state -> Prop) (o : outcome (state * list res)) s2 r2 : match o with Ok (s, _) => Q s | _ => True end -> o = Ok (s2, r2) -> Q s2.
Proof. intros H ->. exact H. Qed.
Notation orun_ov calls sched := (orun demo_env ost (about calls) sched).

(** a binds g and b binds f *)
Definition ov_gf : list (list ubind * option cstr) := [([mkUB g_name 12 2], Some n_a); ([mkUB f_name 11 1], Some n_b)].
(** both enter, bind, and then update: the thread of a first *)
Definition sched_gf : list nat := [0; 1; 0; 1; 0; 1]%nat.

Lemma ovl_process : process_ok demo_env demo_libs ovl_ops.
Proof. process. Qed.

(** Two threads bind one function each and both return success; but the call sites of f still call the original function, although
    they would call the wrapper had the calls been made one after the other, in either order. *)
Theorem C84_sites_refuted : exists e maps mem ops st rs calls sched st' cs' m n x w,
  process_ok e maps ops /\ existsb is_api ops = true /\ fresh e (ops ++ call_ops calls) /\ run e (init_state maps mem) ops = Ok (st, rs) /\
  orun e st (about calls) sched = Ok (st', cs') /\ all_returned cs' /\
  (exists i c, nth_error calls i = Some c /\ In n (map ub_name (fst c)) /\ option_map wc_at (nth_error cs' i) = Some (Returned GOTCHA_SUCCESS)) /\
  accepted (p_filter (s_p st')) (p_maps (s_p st')) m /\ slot relocs m n x /\ outermost st' n = Ok (Some w) /\ p_mem (s_p st') x <> w /\
  forall order s2 r2, Permutation (call_ops calls) order -> run e st order = Ok (s2, r2) -> outermost s2 n = Ok (Some w) /\ p_mem (s_p s2) x = w.
Proof.
  exists demo_env, demo_libs, demo_mem, ovl_ops, ost, (rs_of (demo_run ovl_ops)), ov_gf, sched_gf, (ost_of (orun_ov ov_gf sched_gf)), (ocs_of (orun_ov ov_gf sched_gf)), demo_lib, f_name, 65576, 11.
  split; [exact ovl_process|]. split; [reflexivity|]. split; [apply freshb_ok; vm_compute; reflexivity|]. split; [run_ok ovl_ops|].
  split; [apply orun_of; vm_compute; reflexivity|]. split.
  { assert (H : map wc_at (ocs_of (orun_ov ov_gf sched_gf)) = [Returned 1; Returned 0]) by (vm_compute; reflexivity). intros c Hc. apply (in_map wc_at) in Hc. rewrite H in Hc.
    destruct Hc as [<-|[<-|[]]]; eauto. }
  split; [exists 1%nat; eexists; split; [reflexivity|]; split; [left; reflexivity|vm_compute; reflexivity]|].
  split; [apply accepted_always; vm_compute; auto|]. split; [is_slot 40|]. split; [vm_compute; reflexivity|]. split; [vm_compute; discriminate|].
  intros order s2 r2 Hp Hrun. apply Permutation_length_2_inv in Hp. destruct Hp as [-> | ->].
  - revert Hrun. apply (run_fact (fun s => outermost s f_name = Ok (Some 11) /\ p_mem (s_p s) 65576 = 11)). vm_compute. auto.
  - revert Hrun. apply (run_fact (fun s => outermost s f_name = Ok (Some 11) /\ p_mem (s_p s) 65576 = 11)). vm_compute. auto.
Qed.
Print Assumptions C84_sites_refuted.

(** a binds f and g, b binds g and f, at the same priority *)
Definition ov_fggf : list (list ubind * option cstr) := [([mkUB f_name 11 1; mkUB g_name 12 2], Some n_a); ([mkUB g_name 22 3; mkUB f_name 21 4], Some n_b)].
Definition sched_fggf : list nat := [0; 1; 0; 1; 0; 1; 0; 1]%nat.
(** No order of the two calls gives the outermost wrappers that interleaving them gives: for f the wrapper of the one thread, for g that of
    the other. *)
Theorem C84_atomic_refuted : exists e maps mem ops st rs calls sched st' cs',
  process_ok e maps ops /\ existsb is_api ops = true /\ fresh e (ops ++ call_ops calls) /\ run e (init_state maps mem) ops = Ok (st, rs) /\
  orun e st (about calls) sched = Ok (st', cs') /\ all_returned cs' /\
  forall order s2 r2, Permutation (call_ops calls) order -> run e st order = Ok (s2, r2) -> exists n, outermost s2 n <> outermost st' n.
Proof.
  exists demo_env, demo_libs, demo_mem, ovl_ops, ost, (rs_of (demo_run ovl_ops)), ov_fggf, sched_fggf, (ost_of (orun_ov ov_fggf sched_fggf)), (ocs_of (orun_ov ov_fggf sched_fggf)).
  split; [exact ovl_process|]. split; [reflexivity|]. split; [apply freshb_ok; vm_compute; reflexivity|]. split; [run_ok ovl_ops|].
  split; [apply orun_of; vm_compute; reflexivity|]. split.
  { assert (H : map wc_at (ocs_of (orun_ov ov_fggf sched_fggf)) = [Returned 0; Returned 1]) by (vm_compute; reflexivity). intros c Hc. apply (in_map wc_at) in Hc. rewrite H in Hc.
    destruct Hc as [<-|[<-|[]]]; eauto. }
  intros order s2 r2 Hp Hrun. apply Permutation_length_2_inv in Hp. destruct Hp as [-> | ->].
  - exists g_name. replace (outermost (ost_of (orun_ov ov_fggf sched_fggf)) g_name) with (Ok (Some 22)) by (vm_compute; reflexivity).
    revert Hrun. apply (run_fact (fun s => outermost s g_name <> Ok (Some 22))). vm_compute. discriminate.
  - exists f_name. replace (outermost (ost_of (orun_ov ov_fggf sched_fggf)) f_name) with (Ok (Some 11)) by (vm_compute; reflexivity).
    revert Hrun. apply (run_fact (fun s => outermost s f_name <> Ok (Some 11))). vm_compute. discriminate.
Qed.
Print Assumptions C84_atomic_refuted.

(** the hypotheses of the theorems hold for these calls, and in the order of calls 0, 1 nothing is lost *)
Example C84_ex : process_ok demo_env demo_libs ovl_ops /\ existsb is_api ovl_ops = true /\ fresh demo_env (ovl_ops ++ call_ops ov_fggf) /\
  calm demo_libs (ovl_ops ++ call_ops ov_fggf) /\ main_settled ovl_ops ov_fggf /\ all_returned (ocs_of (orun_ov ov_fggf sched_fggf)) /\
  map (fun n => outermost (ost_of (orun_ov ov_fggf sched_fggf)) n) [f_name; g_name] = [Ok (Some 11); Ok (Some 22)] /\
  map (gotcha_get_wrappee (ost_of (orun_ov ov_fggf sched_fggf))) [1; 4; 3; 2] = [Ok (Ptr 21); Ok (Ptr 66048); Ok (Ptr 12); Ok Uninit].
Proof.
  split; [exact ovl_process|]. split; [reflexivity|]. split; [apply freshb_ok; vm_compute; reflexivity|]. split; [apply calmb_ok; vm_compute; reflexivity|].
  split; [right; intros c u Hc Hu; cbn in Hc; destruct Hc as [<-|[<-|[]]]; cbn in Hu; destruct Hu as [<-|[<-|[]]]; discriminate|]. split.
  { assert (H : map wc_at (ocs_of (orun_ov ov_fggf sched_fggf)) = [Returned 0; Returned 1]) by (vm_compute; reflexivity). intros c Hc. apply (in_map wc_at) in Hc. rewrite H in Hc.
    destruct Hc as [<-|[<-|[]]]; eauto. }
  split; vm_compute; reflexivity.
Qed.

(** after four steps the thread of a is about to update, the other is too; the first update stores at the slot of g, the second nowhere *)
Definition updatesb (c : wcall) : bool := match wc_at c with AtLoop _ O _ pr => match pr_new pr with Some _ => true | None => false end | _ => false end.
Lemma updatesb_ok cs : forallb updatesb cs = true -> forall c, In c cs -> updates_next c.
Proof.
  intros H c Hc. rewrite forallb_forall in H. specialize (H c Hc). unfold updatesb in H. unfold updates_next. destruct (wc_at c) as [|na [|n] b pr|]; try discriminate.
  destruct (pr_new pr); [discriminate|congruence].
Qed.
Notation ov4 := (orun_ov ov_gf [0; 1; 0; 1]%nat).
Example C84_update_ex : calm demo_libs (ovl_ops ++ call_ops ov_gf) /\ main_settled ovl_ops ov_gf /\
  length (ocs_of ov4) = 2%nat /\ (forall c, In c (ocs_of ov4) -> updates_next c) /\
  p_mem (s_p (ost_of ov4)) 65592 <> 12 /\
  (let s := ost_of (orun demo_env (ost_of ov4) (ocs_of ov4) [0]%nat) in p_mem (s_p s) 65592 = 12 /\ p_mem (s_p s) 65576 = 66048) /\
  (let s := ost_of (orun demo_env (ost_of ov4) (ocs_of ov4) [0; 1]%nat) in p_mem (s_p s) 65592 = 12 /\ p_mem (s_p s) 65576 = 66048) /\
  (let s := ost_of (orun demo_env (ost_of ov4) (ocs_of ov4) [1; 0]%nat) in p_mem (s_p s) 65592 <> 12 /\ p_mem (s_p s) 65576 = 11).
Proof.
  split; [apply calmb_ok; vm_compute; reflexivity|].
  split; [right; intros c u Hc Hu; cbn in Hc; destruct Hc as [<-|[<-|[]]]; cbn in Hu; destruct Hu as [<-|[]]; discriminate|].
  split; [vm_compute; reflexivity|]. split; [apply updatesb_ok; vm_compute; reflexivity|].
  split; [vm_compute; discriminate|]. split; [vm_compute; auto|]. split; [vm_compute; auto|]. split; vm_compute; [discriminate|reflexivity].
Qed.
