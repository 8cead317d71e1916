(** Properties C72: the first calls of the API made by several threads at once. *)
From Verif Require Import Base ListFacts HashModel ElfModel SpecElf ToolModel CoreModel SpecCore SpecRun PropsElf Demo PropsCoreEx PropsSyncEx CoreHist CoreApi3 ThreadModel ThreadProofs.
From Coq Require Import Permutation.
Open Scope list_scope.
Open Scope Z_scope.

(** C72: when a single thread makes the call, the five parts together are the call of the sequential model. *)
Theorem C72_one_thread e st o : is_api o = true -> s_init st = false ->
  trun e st (entering [o]) [0; 0; 0; 0; 0]%nat = (do ' (st', r) <- step e st o; Ok (st', [mkTh o (Done r)])).
Proof. apply one_thread. Qed.
Print Assumptions C72_one_thread.

(** C72: several threads make calls of the API once GOTCHA is initialised, or one of them completes gotcha_init before the others
    start.  Then no call faults, whatever the schedule, and when all have returned, the state and the return values are those of
    making the calls one after the other in some order.  Partial: the work after gotcha_init is one step of the
    model; without the hypothesis the claim is refuted (C72_early_call_law, C72_both_initialise_refuted). *)
Theorem C72_after_init_partial e maps mem ops st rs calls sched :
  process_ok e maps ops -> run e (init_state maps mem) ops = Ok (st, rs) -> (forall o, In o calls -> is_api o = true) ->
  existsb is_api ops = true \/ (exists i rest, (i < length calls)%nat /\ sched = i :: i :: i :: i :: rest) ->
  exists st' ts', trun e st (entering calls) sched = Ok (st', ts') /\
    ((forall t, In t ts' -> exists r, th_at t = Done r) ->
     exists order rs', Permutation order (seq 0 (length calls)) /\ run e st (map (fun i => nth i calls OFinish) order) = Ok (st', rs') /\
       forall k i, nth_error order k = Some i -> exists r, nth_error rs' k = Some r /\ nth_error ts' i = Some (mkTh (nth i calls OFinish) (Done r))).
Proof. intros P E A H. exact (after_init e maps mem ops st rs P E calls sched A H). Qed.
Print Assumptions C72_after_init_partial.

(** C72: in every process in which GOTCHA is not initialised: one thread makes any call and has set the flag; another then calls
    gotcha_wrap with a binding, finds the flag set and goes on without the tables.  It calls the hash function through a null
    pointer. *)
Theorem C72_early_call_law e maps mem ops st rs o ubs tool others :
  process_ok e maps ops -> existsb is_api ops = false -> run e (init_state maps mem) ops = Ok (st, rs) -> ubs <> [] ->
  trun e st (entering (o :: OWrap ubs tool :: others)) [0; 0; 1; 1]%nat = Fault NullDeref.
Proof. intros P I E N. apply (early_call e maps mem ops st rs P E); [|exact N]. rewrite (state_init e maps mem ops st rs P E). exact I. Qed.
Print Assumptions C72_early_call_law.

(** C72: in every such process: two threads find the flag clear, the first makes its whole call, whichever it is, and returns.  When
    the second sets up the tables, no function is recorded as wrapped any more. *)
Theorem C72_both_initialise_law e maps mem ops st rs o p others :
  process_ok e maps ops -> existsb is_api ops = false -> run e (init_state maps mem) ops = Ok (st, rs) -> is_api o = true ->
  exists st' r, trun e st (entering (o :: p :: others)) [0; 1; 0; 0; 0; 0; 1; 1]%nat = Ok (st', mkTh o (Done r) :: mkTh p AtDl :: entering others) /\
    forall n, outermost st' n = Ok None.
Proof. intros P I E A. apply (forgotten e maps mem ops st rs P E); [|exact A]. rewrite (state_init e maps mem ops st rs P E). exact I. Qed.
Print Assumptions C72_both_initialise_law.

(** *** a process with two threads, wrapping f and g *)
Definition wrap_f : op := OWrap [mkUB f_name 11 1] (Some n_a).
Definition wrap_g : op := OWrap [mkUB g_name 12 2] (Some n_b).
Definition tstate_of (r : outcome (state * list thread)) : state := match r with Ok (s, _) => s | Fault _ => init_state [] (fun _ => 0) end.
Definition threads_of (r : outcome (state * list thread)) : list thread := match r with Ok (_, ts) => ts | Fault _ => [] end.
Lemma trun_of r : is_ok r = true -> r = Ok (tstate_of r, threads_of r).
Proof. destruct r as [[s x]|]; [reflexivity|discriminate]. Qed.
(** memory after libe.so has been loaded: the slots of the other libraries keep their values *)
Definition mem_t (s : state) : Z -> Z := fun x => if x =? 131112 then 66048 else if x =? 131120 then 66048 else if x =? 131128 then 7 else p_mem (s_p s) x.
Definition load_e (s : state) : state := st_of (run demo_env s [OLoad [lib_e] (mem_t s); OFinish]).

(** C72, refuted: both threads find the flag clear; both calls return without a fault, f's wrapping with GOTCHA_SUCCESS.  A
    library loaded afterwards calls the original f, though in either order of the two calls it would call the wrapper 11. *)
Theorem C72_both_initialise_refuted : exists e maps mem calls sched st' ts',
  process_ok e maps calls /\ trun e (init_state maps mem) (entering calls) sched = Ok (st', ts') /\
  (forall t, In t ts' -> exists r, th_at t = Done r) /\ nth_error ts' 0 = Some (mkTh wrap_f (Done (RCode 0))) /\
  slot relocs lib_e f_name 131112 /\
  (exists s, run e st' [OLoad [lib_e] (mem_t st'); OFinish] = Ok (s, [RNone; RNone]) /\ p_mem (s_p s) 131112 = 66048) /\
  forall order, Permutation order calls -> exists s1 rs s2, run e (init_state maps mem) order = Ok (s1, rs) /\
    run e s1 [OLoad [lib_e] (mem_t s1); OFinish] = Ok (s2, [RNone; RNone]) /\ p_mem (s_p s2) 131112 = 11.
Proof.
  set (r := trun demo_env (init_state demo_libs demo_mem) (entering [wrap_f; wrap_g]) [0; 1; 0; 0; 0; 0; 1; 1; 1; 1]%nat).
  exists demo_env, demo_libs, demo_mem, [wrap_f; wrap_g], [0; 1; 0; 0; 0; 0; 1; 1; 1; 1]%nat, (tstate_of r), (threads_of r).
  assert (R : threads_of r = [mkTh wrap_f (Done (RCode 0)); mkTh wrap_g (Done (RCode 1))]) by (vm_compute; reflexivity).
  split. { constructor; [exact env_wf|intros m [<-|[]]; exact demo_wf|]. intros o m [<-|[<-|[]]] []. }
  split; [apply trun_of; vm_compute; reflexivity|]. rewrite R.
  split. { intros t [<-|[<-|[]]]; eexists; reflexivity. }
  split; [reflexivity|]. split. { exists 40. split; [vm_compute; auto|reflexivity]. }
  split.
  - exists (load_e (tstate_of r)). split.
    + unfold load_e. transitivity (Ok (st_of (run demo_env (tstate_of r) [OLoad [lib_e] (mem_t (tstate_of r)); OFinish]), rs_of (run demo_env (tstate_of r) [OLoad [lib_e] (mem_t (tstate_of r)); OFinish]))).
      * apply run_of. vm_compute. reflexivity.
      * vm_compute (rs_of _). reflexivity.
    + vm_compute. reflexivity.
  - assert (V : forall l, is_ok (run demo_env (init_state demo_libs demo_mem) l) = true ->
       let s := st_of (run demo_env (init_state demo_libs demo_mem) l) in
       rs_of (run demo_env s [OLoad [lib_e] (mem_t s); OFinish]) = [RNone; RNone] -> p_mem (s_p (load_e s)) 131112 = 11 ->
       exists s1 rs s2, run demo_env (init_state demo_libs demo_mem) l = Ok (s1, rs) /\ run demo_env s1 [OLoad [lib_e] (mem_t s1); OFinish] = Ok (s2, [RNone; RNone]) /\ p_mem (s_p s2) 131112 = 11).
    { intros l A s B C. exists s, (rs_of (run demo_env (init_state demo_libs demo_mem) l)), (load_e s). split; [apply run_of; exact A|]. split; [|exact C].
      unfold load_e. rewrite <- B. apply run_of. destruct (run demo_env s [OLoad [lib_e] (mem_t s); OFinish]) as [[? ?]|]; [reflexivity|discriminate B]. }
    intros order Hp. apply Permutation_sym, Permutation_length_2_inv in Hp. destruct Hp as [->| ->]; apply V; vm_compute; reflexivity.
Qed.
Print Assumptions C72_both_initialise_refuted.

(** the hypotheses of the theorems: a process with GOTCHA initialised and one without, and threads that all return *)
Example C72_ex_initialised : process_ok demo_env demo_libs hist1 /\ existsb is_api hist1 = true /\
  let r := trun demo_env (st_of (demo_run hist1)) (entering [wrap_f; wrap_g; OSetPriority n_b 7]) [2; 0; 1; 1; 2; 0]%nat in
  map th_at (threads_of r) = [Done (RCode 0); Done (RCode 0); Done (RCode 0)].
Proof. split; [exact (process_app _ _ hist1 _ (proj1 hist_s_ok))|]. split; vm_compute; reflexivity. Qed.
Example C72_ex_first : process_ok demo_env demo_libs [] /\ existsb is_api ([] : list op) = false /\
  let r := trun demo_env (init_state demo_libs demo_mem) (entering [wrap_f; wrap_g; OSetPriority n_b 7]) [2; 2; 2; 2; 0; 1; 1; 2; 0]%nat in
  map th_at (threads_of r) = [Done (RCode 0); Done (RCode 1); Done (RCode 0)].
Proof. split; [constructor; [exact env_wf|intros m [<-|[]]; exact demo_wf|intros o m []]|]. split; vm_compute; reflexivity. Qed.
