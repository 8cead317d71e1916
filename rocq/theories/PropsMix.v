(** Property C85: gotcha_wrap while other threads wrap functions, load libraries or set priorities. *)
From Verif Require Import Base ListFacts HashModel HashProofs SpecHash ElfModel SpecElf ToolModel ToolProofs CoreMaps CoreModel SpecCore SpecRun SpecSync CoreRel CoreLib CoreStep CoreLoop CoreSpec CoreMain CoreFacts CoreHist CoreApi CoreEnv CoreSync CoreSync2 CoreSync3 CoreMicro CommuteProofs
  PropsElf Demo PropsCoreEx PropsSync PropsSyncEx PropsStall PropsIdle OverlapModel SpecOverlap OverlapProofs OverlapProofs2 OverlapProofs3 PropsOverlap MixModel SpecMix MixProofs MixProofs2.
From Coq Require Import Permutation.
Open Scope list_scope.
Open Scope Z_scope.

(** C85: with steps of gotcha_wrap only these are the runs of C84, with other calls only those of the sequential model. *)
Theorem C85_runs : forall e st cs, (forall sched, mrun e st cs (map AStep sched) = (do z <- orun e st cs sched; Ok (z, []))) /\
  forall ops, mrun e st cs (map AOp ops) = (do ' (st', rs) <- run e st ops; Ok ((st', cs), rs)).
Proof.
  intros e st cs. split.
  - intros sched. revert st cs. induction sched as [|i r IH]; intros st cs; [reflexivity|]. cbn [map mrun orun]. destruct (nth_error cs i) as [c|]; [|apply IH].
    destruct (call_step e st c) as [[s1 c1]|]; cbn [bind]; [apply IH|reflexivity].
  - intros ops. revert st. induction ops as [|o r IH]; intros st; [reflexivity|]. cbn [map mrun run]. destruct (step e st o) as [[s1 x]|]; cbn [bind]; [|reflexivity]. rewrite IH.
    destruct (run e s1 r) as [[s2 xs]|]; reflexivity.
Qed.
Print Assumptions C85_runs.

(** C85: the sequence that stands for interleaved calls has all the other calls in their order, and of every thread as many parts of its
    call, in its order, as the thread has made steps: a call without bindings, then one call for every binding. *)
Theorem C85_in_line : forall calls acts, of_call (length calls) (in_line calls acts) = wholes acts /\
  (forall i l t, nth_error calls i = Some (l, t) -> of_call i (in_line calls acts) = firstn (made i acts) (OWrap [] t :: map (fun u => OWrap [u] t) l)) /\
  forall p, In p (in_line calls acts) -> (fst p <= length calls)%nat.
Proof.
  intros calls acts. split; [apply linear_wholes|]. split; [intros i l t H; apply (linear_thread calls i l t H acts [])|].
  unfold in_line. generalize (@nil act). induction acts as [|a r IH]; intros before p H; [destruct H|]. cbn [linear] in H. apply in_app_or in H. destruct H as [H|H]; [|eapply IH; eauto].
  destruct a as [i|o]; cbn [piece] in H; [|destruct H as [<-|[]]; cbn; lia]. destruct (nth_error calls i) as [[l t]|] eqn:Ec; [|destruct H]. apply nth_error_Some_lt in Ec.
  destruct (made i before) as [|k]; [destruct H as [<-|[]]; cbn; lia|]. destruct (nth_error l k); [destruct H as [<-|[]]; cbn; lia|destruct H].
Qed.
Print Assumptions C85_in_line.

(** the outermost wrappers while bindings are pending *)
Lemma pending_outermost e F st a ch todo n : srel e (exports e) relocs F st a ch todo -> outermost st n = Ok (option_map en_wrapper (hd_error (a_stack a n))).
Proof.
  intros S. unfold outermost. rewrite (sr_init _ _ _ _ _ _ _ _ S). pose proof (sr_b _ _ _ _ _ _ _ _ S) as B.
  rewrite (smap_lookup _ _ n (br_fn _ _ _ _ _ B)). cbn [bind].
  pose proof (br_stack _ _ _ _ _ B n) as FS. destruct FS as [|i x l s Hx FS]; [reflexivity|]. cbn [hd_error option_map].
  unfold entry_of in Hx. destruct (nth_error (b_ib (s_b st)) i) as [ib|] eqn:E; [|discriminate]. rewrite (deref_Ok _ _ _ E). cbn [bind].
  destruct (nth_error (b_tables (s_b st)) (ib_table ib)) as [bt|]; [|discriminate]. destruct (nth_error (ts_heap (b_tools (s_b st))) (bt_tool bt)); [|discriminate].
  injection Hx as <-. reflexivity.
Qed.

(** C85: once GOTCHA is initialised, calls of gotcha_wrap whose stages interleave in any way with one another and with other calls of other
    threads do not fault.  At every moment (not only when all have returned) the process is as if the parts had been made one after the
    other in the order of the steps: the other calls have returned the same, every call of gotcha_wrap that has returned has returned
    FUNCTION_NOT_FOUND exactly if one of its parts does, every function has the same outermost wrapper, and the same libraries
    are loaded.
    Partial: a stage is one step; nothing is said about the call sites here (see C85_update_law). *)
Theorem C85_mix_partial : forall e maps mem ops st rs calls acts,
  process_ok e maps (ops ++ wholes acts) -> existsb is_api ops = true -> run e (init_state maps mem) ops = Ok (st, rs) ->
  (forall o, In o (wholes acts) -> side o) ->
  let ws := in_line calls acts in
  exists st' cs' xs st2 rs2, mrun e st (about calls) acts = Ok (st', cs', xs) /\ run e st (map snd ws) = Ok (st2, rs2) /\
    xs = results_of (length calls) ws rs2 /\ length cs' = length calls /\
    (forall i c code, nth_error cs' i = Some c -> wc_at c = Returned code -> code = if existsb failed (results_of i ws rs2) then GOTCHA_FUNCTION_NOT_FOUND else GOTCHA_SUCCESS) /\
    (forall n, outermost st' n = outermost st2 n) /\ p_maps (s_p st') = p_maps (s_p st2).
Proof.
  intros e maps mem ops st rs calls acts P I E HS ws. pose proof (process_app _ _ _ _ P) as P0. pose proof (po_env _ _ _ P) as EO.
  destruct (mixed e maps mem ops st rs calls acts P I E HS) as (st' & cs' & xs & a & ch & R & V & X).
  destruct (reach e maps mem ops st rs P0 E) as (R0 & _).
  destruct (run_spec e (exports e) relocs EO False (map snd ws) st _ R0 ltac:(tauto)) as (st2 & E2 & R2).
  { intros o Ho. destruct (linear_ops calls acts [] o Ho) as [(l & t & ->)|H]; [intros m []|]. apply (process_ops _ _ _ P). apply in_or_app. right. exact H. }
  exists st', cs', xs, st2. eexists. split; [exact R|]. split; [exact E2|]. split; [exact X|]. destruct V as [VS VR VL VC VB VI VX]. split; [exact VL|]. split; [|split].
  - intros i c code Hc Hat. destruct (VC i c Hc) as [_ Y]. unfold xinv in Y. rewrite Hat in Y. apply Y.
  - intros n. rewrite (pending_outermost e _ st' a ch _ n VS), (rel_outermost e False st2 _ n R2), VR. reflexivity.
  - destruct (rel_lib _ _ _ _ _ _ R2) as [_ ->]. rewrite (sr_maps _ _ _ _ _ _ _ _ VS), VR. reflexivity.
Qed.
Print Assumptions C85_mix_partial.

(** C85: if every binding has its own handle variable and wrapper, then at every moment the handles lead through the wrappers as the
    specification says for that sequence, and everything GOTCHA has stored into the program is a wrapper of a function, in a slot of that
    function in a library that has been loaded. *)
Theorem C85_wrappees_partial : forall e maps mem ops st rs calls acts st' cs' xs,
  process_ok e maps (ops ++ wholes acts) -> existsb is_api ops = true -> fresh e (ops ++ call_ops calls) -> run e (init_state maps mem) ops = Ok (st, rs) ->
  (forall o, In o (wholes acts) -> side o) -> mrun e st (about calls) acts = Ok (st', cs', xs) ->
  let hist := ops ++ map snd (in_line calls acts) in
  (forall n, wired st' (stack e maps hist n) (original e maps hist n)) /\
  exists evs, p_log (s_p st') = p_log (s_p st) ++ evs /\
    forall x v, In (PStore x v) evs -> exists m n, In m (seen maps (ops ++ wholes acts)) /\ slot relocs m n x /\ In v (map en_wrapper (stack e maps hist n)).
Proof.
  intros e maps mem ops st rs calls acts st' cs' xs P I F E HS R hist. pose proof (po_env _ _ _ P) as EO.
  destruct (mixed e maps mem ops st rs calls acts P I E HS) as (st1 & cs1 & xs1 & a & ch & R1 & V & X). rewrite R in R1. injection R1 as <- <- <-. destruct V as [VS VR VL VC VB VI VX].
  assert (F2 : fresh e hist).
  { destruct F as [F1 F2 F3]. unfold hist. rewrite user_binds_app, call_binds in F1, F2, F3.
    assert (PP : Permutation (user_binds ops ++ flat_map fst calls) (user_binds hist ++ flat_map rem_of cs')) by (unfold hist; rewrite user_binds_app, <- app_assoc; apply Permutation_app_head, Permutation_sym, VB).
    pose proof (nodup_perm _ _ _ PP F1) as G1. pose proof (nodup_perm _ _ _ PP F2) as G2. rewrite map_app in G1, G2.
    constructor; [apply NoDup_app_remove_r in G1; exact G1|apply NoDup_app_remove_r in G2; exact G2|]. intros u Hu. apply F3.
    eapply Permutation_in; [apply Permutation_sym, PP|]. apply in_or_app. left. exact Hu. }
  assert (HA : history e maps hist = a) by (rewrite (history_agree e maps _ EO F2), VR; unfold hist; rewrite arun_app; reflexivity).
  assert (HS' : forall n, stack e maps hist n = a_stack a n) by (intros n; unfold stack; rewrite HA; reflexivity). split.
  - intros n. rewrite HS'. unfold original. rewrite HA. pose proof (sr_b _ _ _ _ _ _ _ _ VS) as B. pose proof (sr_w _ _ _ _ _ _ _ _ VS F) as W.
    eapply links_wired; [apply W|apply (br_stack _ _ _ _ _ B)|apply W].
  - destruct VX as (evs & L & W). exists evs. split; [exact L|]. intros x v Hx. destruct (W x v Hx) as (m & n & A1 & A2 & A3). exists m, n. rewrite HS'. auto.
Qed.
Print Assumptions C85_wrappees_partial.

(** C85: after an update of the call sites, by a call of gotcha_wrap or by GOTCHA's part of dlopen, no call of gotcha_wrap that had
    entered before stores anything into the program, nor do further such parts of dlopen or calls about priorities: what these calls
    bind stays without effect on the call sites.  This for every process in which no call is the first to bind main. *)
Theorem C85_update_law : forall e maps mem ops st rs calls s1 x s2 st1 cs1 xs1 st2 cs2 xs2 st3 cs3 xs3,
  let acts := s1 ++ x :: s2 in
  process_ok e maps (ops ++ wholes acts) -> existsb is_api ops = true -> run e (init_state maps mem) ops = Ok (st, rs) ->
  (forall o, In o (wholes acts) -> side o) -> calm maps (ops ++ wholes acts ++ call_ops calls) -> main_settled ops calls ->
  mrun e st (about calls) s1 = Ok (st1, cs1, xs1) -> update_act cs1 x -> mrun e st1 cs1 [x] = Ok (st2, cs2, xs2) ->
  (forall i c, In (AStep i) s2 -> nth_error cs2 i = Some c -> wc_at c <> AtEnter) -> (forall o, In (AOp o) s2 -> same_libs o) ->
  mrun e st2 cs2 s2 = Ok (st3, cs3, xs3) ->
  p_mem (s_p st3) = p_mem (s_p st2) /\ p_log (s_p st3) = p_log (s_p st2).
Proof.
  intros e maps mem ops st rs calls s1 x s2 st1 cs1 xs1 st2 cs2 xs2 st3 cs3 xs3 acts P I E HS C PL R1 U R2 H1 H2 R3.
  rewrite (after_update e maps mem ops st rs calls acts P I E HS C PL s1 x s2 st1 cs1 xs1 st2 cs2 xs2 st3 cs3 xs3 eq_refl R1 U R2 H1 H2 R3). auto.
Qed.
Print Assumptions C85_update_law.

(** *** a thread wraps f while another loads a library *)
Definition mst_of (o : outcome (state * list wcall * list res)) : state := match o with Ok (s, _, _) => s | _ => init_state [] demo_mem end.
Definition mcs_of (o : outcome (state * list wcall * list res)) : list wcall := match o with Ok (_, c, _) => c | _ => [] end.
Definition mrs_of (o : outcome (state * list wcall * list res)) : list res := match o with Ok (_, _, r) => r | _ => [] end.
Definition m_ok (o : outcome (state * list wcall * list res)) : bool := match o with Ok _ => true | _ => false end.
Lemma mrun_of o : m_ok o = true -> o = Ok (mst_of o, mcs_of o, mrs_of o).
Proof. destruct o as [[[s c] r]|]; [reflexivity|discriminate]. Qed.
Notation mst := (st_of (demo_run ovl_ops)).
Definition mix_calls : list (list ubind * option cstr) := [([mkUB f_name 11 1], Some n_a)].
(** libg.so, which has no slot, is loaded; the memory is as before *)
Definition mix_load : list op := [OLoad [g_lib] demo_mem; OFinish].
(** the call enters, the library is loaded, then the call goes on *)
Definition mix_acts : list act := [AStep 0; AOp (OLoad [g_lib] demo_mem); AOp OFinish; AStep 0; AStep 0].
Notation mix_run_ex := (mrun demo_env mst (about mix_calls) mix_acts).

(** The call of gotcha_wrap returns success and dlopen does its part, but no call site of f is redirected, although f's slots are in a
    library that was there all the time; had the two calls been made one after the other, in either order, they would be. *)
Theorem C85_dlopen_refuted : exists e maps mem ops st rs calls acts st' cs' xs m n x w,
  process_ok e maps (ops ++ wholes acts) /\ existsb is_api ops = true /\ fresh e (ops ++ call_ops calls) /\ run e (init_state maps mem) ops = Ok (st, rs) /\
  (forall o, In o (wholes acts) -> side o) /\ mrun e st (about calls) acts = Ok (st', cs', xs) /\
  (exists c, nth_error calls 0 = Some c /\ In n (map ub_name (fst c)) /\ option_map wc_at (nth_error cs' 0) = Some (Returned GOTCHA_SUCCESS)) /\
  In m maps /\ accepted (p_filter (s_p st')) (p_maps (s_p st')) m /\ slot relocs m n x /\ outermost st' n = Ok (Some w) /\ p_mem (s_p st') x <> w /\
  (exists lib mm, wholes acts = [OLoad lib mm; OFinish] /\
    (forall s2 r2, run e st (wholes acts ++ call_ops calls) = Ok (s2, r2) -> outermost s2 n = Ok (Some w) /\ p_mem (s_p s2) x = w) /\
    forall s2 r2 s3 r3, run e st (call_ops calls) = Ok (s2, r2) -> run e s2 [OLoad lib (p_mem (s_p s2)); OFinish] = Ok (s3, r3) -> outermost s3 n = Ok (Some w) /\ p_mem (s_p s3) x = w).
Proof.
  exists demo_env, demo_libs, demo_mem, ovl_ops, mst, (rs_of (demo_run ovl_ops)), mix_calls, mix_acts, (mst_of mix_run_ex), (mcs_of mix_run_ex), (mrs_of mix_run_ex), demo_lib, f_name, 65576, 11.
  split; [process|]. split; [reflexivity|]. split; [apply freshb_ok; vm_compute; reflexivity|]. split; [run_ok ovl_ops|].
  split; [intros o [<-|[<-|[]]]; exact Logic.I|]. split; [apply mrun_of; vm_compute; reflexivity|].
  split; [eexists; split; [reflexivity|]; split; [left; reflexivity|vm_compute; reflexivity]|].
  split; [vm_compute; auto|]. split; [apply accepted_always; vm_compute; auto|]. split; [is_slot 40|]. split; [vm_compute; reflexivity|]. split; [vm_compute; discriminate|].
  exists [g_lib], demo_mem. split; [reflexivity|]. split.
  - intros s2 r2. apply (run_fact (fun s => outermost s f_name = Ok (Some 11) /\ p_mem (s_p s) 65576 = 11)). vm_compute. auto.
  - intros s2 r2 s3 r3 H2. revert s3 r3. revert H2. apply (run_fact (fun s => forall s3 r3, run demo_env s [OLoad [g_lib] (p_mem (s_p s)); OFinish] = Ok (s3, r3) -> outermost s3 f_name = Ok (Some 11) /\ p_mem (s_p s3) 65576 = 11)).
    destruct (run demo_env mst (call_ops mix_calls)) as [[s r]|] eqn:Er; [|exact Logic.I]. intros s3 r3.
    apply (run_fact (fun s => outermost s f_name = Ok (Some 11) /\ p_mem (s_p s) 65576 = 11)).
    assert (Es : s = st_of (run demo_env mst (call_ops mix_calls))) by (rewrite Er; reflexivity). rewrite Es. vm_compute. auto.
Qed.
Print Assumptions C85_dlopen_refuted.

(** the hypotheses of the law hold here: the first update is that of dlopen *)
Example C85_ex : process_ok demo_env demo_libs (ovl_ops ++ wholes mix_acts) /\ (forall o, In o (wholes mix_acts) -> side o) /\
  calm demo_libs (ovl_ops ++ wholes mix_acts ++ call_ops mix_calls) /\ main_settled ovl_ops mix_calls /\
  update_act (mcs_of (mrun demo_env mst (about mix_calls) [AStep 0; AOp (OLoad [g_lib] demo_mem)])) (AOp OFinish) /\
  in_line mix_calls mix_acts = [(0, OWrap [] (Some n_a)); (1, OLoad [g_lib] demo_mem); (1, OFinish); (0, OWrap [mkUB f_name 11 1] (Some n_a))]%nat /\
  map wc_at (mcs_of mix_run_ex) = [Returned GOTCHA_SUCCESS] /\ mrs_of mix_run_ex = [RNone; RNone] /\
  gotcha_get_wrappee (mst_of mix_run_ex) 1 = Ok (Ptr 66048).
Proof.
  split; [process|]. split; [intros o [<-|[<-|[]]]; exact Logic.I|]. split; [apply calmb_ok; vm_compute; reflexivity|].
  split; [right; intros c u Hc Hu; cbn in Hc; destruct Hc as [<-|[]]; cbn in Hu; destruct Hu as [<-|[]]; discriminate|].
  split; [reflexivity|]. split; [reflexivity|]. split; [vm_compute; reflexivity|]. split; vm_compute; reflexivity.
Qed.
(** a priority set between the two bindings of a call counts for the second only: the wrapper of f stays inside b's, that of g goes outside *)
Definition mix_b : list op := ovl_ops ++ [OSetPriority n_b 5; OWrap [mkUB f_name 21 3; mkUB g_name 22 4] (Some n_b)].
Notation mix_prio_ex := (mrun demo_env (st_of (demo_run mix_b)) (about [([mkUB f_name 11 1; mkUB g_name 12 2], Some n_a)]) [AStep 0; AStep 0; AOp (OSetPriority n_a 9); AStep 0; AStep 0]).
Example C85_prio_ex : process_ok demo_env demo_libs (mix_b ++ [OSetPriority n_a 9]) /\ fresh demo_env (mix_b ++ [OWrap [mkUB f_name 11 1; mkUB g_name 12 2] (Some n_a)]) /\
  map (outermost (mst_of mix_prio_ex)) [f_name; g_name] = [Ok (Some 21); Ok (Some 12)] /\ mrs_of mix_prio_ex = [RCode GOTCHA_SUCCESS].
Proof. split; [process|]. split; [apply freshb_ok; vm_compute; reflexivity|]. split; vm_compute; reflexivity. Qed.
