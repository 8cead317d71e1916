(** C64: running out of memory.  The last argument of the functions ending in _a lists the answers gotcha_malloc gives. *)
From Verif Require Import Base ListFacts SpecHash HashTrace HashModel ElfModel SpecElf ToolModel CoreModel SpecCore SpecRun PropsElf Demo PropsCoreEx ToolProofs CoreHist CoreApi CoreApi3 FailModel SpecFail FailProofs FailProofs2 FailProofs3.
Open Scope list_scope.
Open Scope Z_scope.

(** with enough memory everything is as in CoreModel *)
Theorem C64_enough_memory : forall e maps mem ops al, process_ok e maps ops -> ~ In false al ->
  exists st rs al', run e (init_state maps mem) ops = Ok (st, rs) /\ run_a e (init_state maps mem) ops al = Ok ((st, rs), al').
Proof.
  intros e maps mem ops al P N. destruct (run_any e maps mem ops P) as (st & E & _). eexists st, _.
  pose proof (run_agrees e maps mem ops [] (init_state maps mem) [] P eq_refl al N) as A. rewrite E in A. destruct A as (al' & _ & A). exists al'. split; [exact E|exact A].
Qed.
Print Assumptions C64_enough_memory.

(** What gotcha_wrap does after initialisation, whatever memory it gets: it gives up cleanly, reporting it, exactly if
    the answers are [refused]; else it crashes, and only if an answer was NULL; or it does its work and returns what it
    would return with enough memory.  Calls that make GOTCHA wrap main itself are left out. *)
Theorem C64_wrap_law : forall e maps mem ops ubs tool al st rs,
  process_ok e maps (ops ++ [OWrap ubs tool]) -> existsb is_api ops = true -> main_bound ops \/ ~ In n_main (map ub_name ubs) ->
  run e (init_state maps mem) ops = Ok (st, rs) ->
  exists st1 c1, gotcha_wrap e st ubs tool = Ok (st1, c1) /\
  match gotcha_wrap_a e st ubs tool al with
  | Fault f => f = NullDeref /\ In false al /\ ~ refused ops ubs tool al
  | Ok ((st', c), _) => (refused ops ubs tool al /\ c = GOTCHA_INTERNAL /\ not_installed st st' ubs) \/
                        (~ refused ops ubs tool al /\ c = c1 /\ alike st1 st')
  end.
Proof.
  intros e maps mem ops ubs tool al st rs P A M E. pose proof (process_app _ _ _ _ P) as P0. pose proof (state_init _ _ _ _ _ _ P0 E) as Hi. rewrite A in Hi.
  destruct (run_any e maps mem _ P) as (st2 & E2 & _). rewrite run_app, E in E2. cbn [bind] in E2. rewrite run_one in E2. cbn [step] in E2.
  destruct (gotcha_wrap e st ubs tool) as [[st1 c1]|] eqn:W; cbn [bind] in E2; [|discriminate E2]. exists st1, c1. split; [reflexivity|]. clear E2.
  unfold gotcha_wrap in W. cbn [wrap_n] in W. unfold wrap_body at 1 in W. unfold gotcha_init at 1 in W. rewrite Hi in W. cbn [bind] in W.
  assert (Q : forall u, In u ubs -> quiet st (ub_name u)).
  { intros u Hu. destruct M as [M|M]; [left; eapply main_known; eauto|right; intros H; apply M; rewrite <- H; apply in_map, Hu]. }
  pose proof (wrap_tool_a_law e (wrap_n_a e 2) _ st ubs tool st1 c1 al Q W) as L. cbv zeta in L.
  assert (W2 : gotcha_wrap_a e st ubs tool al = wrap_tool_a e (wrap_n_a e 2) st ubs tool al).
  { unfold gotcha_wrap_a. cbn [wrap_n_a]. unfold wrap_body_a at 1. rewrite (abind_ok _ _ al st al); [reflexivity|]. unfold gotcha_init_a. rewrite Hi. reflexivity. }
  rewrite W2. clear W2.
  assert (R : refused ops ubs tool al <-> internal (b_tools (s_b st)) (match tool with Some n => n | None => n_unspecified end) ubs al).
  { unfold refused, internal. fold (tool_name tool). pose proof (known_tool e maps mem ops st rs (tool_name tool) P0 A E) as K. destruct (used ops (tool_name tool)); [destruct K as (i & ->)|rewrite K]; tauto. }
  destruct (wrap_tool_a e (wrap_n_a e 2) st ubs tool al) as [[[st' c] al']|f]; rewrite R; exact L.
Qed.
Print Assumptions C64_wrap_law.

(** gotcha_set_priority after initialisation crashes exactly if the tool is new and there is no memory for its record *)
Theorem C64_set_priority_law : forall e maps mem ops t v al st rs, process_ok e maps ops -> existsb is_api ops = true -> run e (init_state maps mem) ops = Ok (st, rs) ->
  exists st1, gotcha_set_priority e st t v = Ok (st1, GOTCHA_SUCCESS) /\
  match gotcha_set_priority_a e st t v al with
  | Fault f => f = NullDeref /\ used ops t = false /\ hd true al = false
  | Ok ((st', c), _) => (used ops t = false -> hd true al = true) /\ c = GOTCHA_SUCCESS /\ alike st1 st'
  end.
Proof.
  intros e maps mem ops t v al st rs P A E. pose proof (state_init _ _ _ _ _ _ P E) as Hi. rewrite A in Hi.
  assert (P2 : process_ok e maps (ops ++ [OSetPriority t v])).
  { destruct P as [P1 P2 P3]. constructor; auto. intros o m Ho Hm. apply in_app_or in Ho. destruct Ho as [Ho|[<-|[]]]; [|destruct Hm]. eapply P3; eauto. }
  destruct (run_any e maps mem _ P2) as (st2 & E2 & _). rewrite run_app, E in E2. cbn [bind] in E2. rewrite run_one in E2. cbn [step] in E2. unfold gotcha_set_priority, api_init, gotcha_init in *. rewrite Hi in *. cbn [bind] in *.
  destruct (set_priority_int (e_ps e) (b_tools (s_b st)) t v) as [ts1|] eqn:S; cbn [bind] in E2; [|discriminate E2]. clear E2. cbn [bind]. eexists. split; [reflexivity|].
  destruct (tools_known e maps mem ops st rs P E A) as (l & T). destruct (po_env _ _ _ P) as [Hps _ _].
  pose proof (set_priority_a_law (e_ps e) (b_tools (s_b st)) l t v ts1 al Hps T S) as L. pose proof (known_tool e maps mem ops st rs t P A E) as K.
  unfold gotcha_set_priority_a. rewrite (abind_ok _ _ _ st al) by (unfold gotcha_init_a; rewrite Hi; reflexivity).
  destruct (set_priority_int_a (e_ps e) (b_tools (s_b st)) t v al) as [[ts' al']|f] eqn:X.
  - rewrite (abind_ok _ _ _ _ _ X). cbn [aret]. destruct L as (L1 & L2). split; [intros U; rewrite U in K; auto|]. split; [reflexivity|]. exists ts'. split; [reflexivity|]. split; apply L2.
  - rewrite (abind_fault _ _ _ _ X). destruct L as (-> & L1 & L2). split; [reflexivity|]. split; [|exact L2]. destruct (used ops t); [destruct K as (i & K); congruence|reflexivity].
Qed.
Print Assumptions C64_set_priority_law.

(** gotcha_get_priority after initialisation needs no memory *)
Theorem C64_get_priority : forall e maps mem ops t al st rs, process_ok e maps ops -> existsb is_api ops = true -> run e (init_state maps mem) ops = Ok (st, rs) ->
  exists r, step e st (OGetPriority t) = Ok (st, r) /\ step_a e st (OGetPriority t) al = Ok ((st, r), al).
Proof.
  intros e maps mem ops t al st rs P A E. pose proof (state_init _ _ _ _ _ _ P E) as Hi. rewrite A in Hi. destruct (tools_known e maps mem ops st rs P E A) as (l & T).
  cbn [step step_a]. unfold gotcha_get_priority, api_init, gotcha_init. rewrite Hi. cbn [bind]. rewrite (abind_ok _ _ _ st al) by (unfold gotcha_init_a; rewrite Hi; reflexivity).
  unfold abind, alift. rewrite (get_configuration_spec _ l t T). cbn [bind]. destruct (aget cstr_eqb (tool_prios (ts_heap (b_tools (s_b st)))) t); eexists; split; reflexivity.
Qed.
Print Assumptions C64_get_priority.

(** what follows a dlopen either crashes for want of memory or gets all the memory it asks for *)
Theorem C64_dlopen_law : forall e maps mem ops al st rs, process_ok e maps ops -> run e (init_state maps mem) ops = Ok (st, rs) ->
  exists st1, step e st OFinish = Ok (st1, RNone) /\
  match step_a e st OFinish al with
  | Fault f => f = NullDeref /\ In false al
  | Ok ((st', r), al') => st' = st1 /\ r = RNone /\ exists u, al = u ++ al' /\ ~ In false u
  end.
Proof.
  intros e maps mem ops al st rs P E. assert (P2 : process_ok e maps (ops ++ [OFinish])).
  { destruct P as [P1 P2 P3]. constructor; auto. intros o m Ho Hm. apply in_app_or in Ho. destruct Ho as [Ho|[<-|[]]]; [|destruct Hm]. eapply P3; eauto. }
  destruct (run_any e maps mem _ P2) as (st2 & E2 & _). rewrite run_app, E in E2. cbn [bind] in E2. rewrite run_one in E2. cbn [step step_a] in *.
  destruct (s_init st) eqn:Hi; [|exists st; split; [reflexivity|]; cbn; split; [reflexivity|split; [reflexivity|exists []; split; [reflexivity|intros []]]]]. rewrite (dlopen_known e maps mem ops st rs P E) by (rewrite <- (state_init _ _ _ _ _ _ P E); exact Hi). cbn [andb].
  pose proof (finish_refines e st al) as R. destruct (dlopen_finish e st) as [st1|]; cbn [bind] in *; [|discriminate E2]. exists st1. split; [reflexivity|]. destruct R as [(I & X)|(u & al' & U1 & U2 & X)].
  - rewrite (abind_fault _ _ _ _ X). auto.
  - rewrite (abind_ok _ _ _ _ _ X). cbn. split; [reflexivity|]. split; [reflexivity|]. exists u. auto.
Qed.
Print Assumptions C64_dlopen_law.

(** ** Examples and counterexamples *)
Definition sta_of (r : outcome ((state * list res) * list bool)) : state := match r with Ok ((s, _), _) => s | Fault _ => init_state [] (fun _ => 0) end.
Definition rsa_of (r : outcome ((state * list res) * list bool)) : list res := match r with Ok ((_, x), _) => x | Fault _ => [] end.
Definition ala_of (r : outcome ((state * list res) * list bool)) : list bool := match r with Ok (_, a) => a | Fault _ => [] end.
Lemma runa_of r : is_ok r = true -> r = Ok ((sta_of r, rsa_of r), ala_of r).
Proof. destruct r as [[[s x] a]|]; [reflexivity|discriminate]. Qed.
Definition hist_f : list op := [OWrap [mkUB f_name 11 1] (Some n_a)].
Definition st_f : state := st_of (demo_run hist_f).
Lemma run_f : demo_run hist_f = Ok (st_f, rs_of (demo_run hist_f)).
Proof. refine (run_of (demo_run hist_f) _). vm_compute. reflexivity. Qed.
Definition code_of (r : outcome ((state * Z) * list bool)) : option Z := match r with Ok ((_, c), _) => Some c | Fault _ => None end.
Definition state_of (r : outcome ((state * Z) * list bool)) : state := match r with Ok ((s, _), _) => s | Fault _ => init_state [] (fun _ => 0) end.

(** the hypotheses of C64_wrap_law hold, and each of its cases occurs *)
Example wrap_cases :
  process_ok demo_env demo_libs (hist_f ++ [OWrap [mkUB f_name 21 3] (Some n_b)]) /\ existsb is_api hist_f = true /\ ~ In n_main (map ub_name [mkUB f_name 21 3]) /\
  map (fun al => code_of (gotcha_wrap_a demo_env st_f [mkUB f_name 21 3] (Some n_b) al)) [[]; [false]; [true; false]; [true; true; false]; [true; true; true; false]; [true; true; true; true; false]] =
    [Some GOTCHA_SUCCESS; Some GOTCHA_INTERNAL; Some GOTCHA_SUCCESS; None; None; Some GOTCHA_INTERNAL] /\
  map (fun al => code_of (gotcha_wrap_a demo_env st_f [mkUB f_name 21 3] (Some n_a) al)) [[false]; [true; false]; [true; true; false]] = [None; None; Some GOTCHA_INTERNAL].
Proof.
  split; [process|]. split; [reflexivity|]. split; [intros [H|[]]; vm_compute in H; discriminate H|]. split; vm_compute; reflexivity.
Qed.

(** C64 fails: without memory for the table of bindings gotcha_wrap crashes *)
Theorem C64_wrap_refuted : exists e maps mem ops st rs ubs tool,
  process_ok e maps (ops ++ [OWrap ubs tool]) /\ fresh e (ops ++ [OWrap ubs tool]) /\ existsb is_api ops = true /\ run e (init_state maps mem) ops = Ok (st, rs) /\
  gotcha_wrap_a e st ubs tool [false] = Fault NullDeref.
Proof.
  exists demo_env, demo_libs, demo_mem, hist_f, st_f, (rs_of (demo_run hist_f)), [mkUB f_name 21 3], (Some n_a).
  split; [process|]. split; [apply freshb_ok; vm_compute; reflexivity|]. split; [reflexivity|]. split; [exact run_f|vm_compute; reflexivity].
Qed.
Print Assumptions C64_wrap_refuted.

(** ... and gotcha_set_priority crashes where the documentation promises GOTCHA_INTERNAL *)
Theorem C64_set_priority_refuted : exists e maps mem ops st rs t v,
  process_ok e maps ops /\ fresh e ops /\ existsb is_api ops = true /\ run e (init_state maps mem) ops = Ok (st, rs) /\
  gotcha_set_priority_a e st t v [false] = Fault NullDeref.
Proof.
  exists demo_env, demo_libs, demo_mem, hist_f, st_f, (rs_of (demo_run hist_f)), n_b, 5.
  split; [process|]. split; [apply freshb_ok; vm_compute; reflexivity|]. split; [reflexivity|]. split; [exact run_f|vm_compute; reflexivity].
Qed.
Print Assumptions C64_set_priority_refuted.

(** ... and when gotcha_wrap has returned GOTCHA_INTERNAL the handle may point to a binding whose wrappee was never set *)
Theorem C64_handle_refuted : exists e maps mem ops st rs ubs tool al st' al' h,
  process_ok e maps (ops ++ [OWrap ubs tool]) /\ fresh e (ops ++ [OWrap ubs tool]) /\ existsb is_api ops = true /\ run e (init_state maps mem) ops = Ok (st, rs) /\
  gotcha_wrap_a e st ubs tool al = Ok ((st', GOTCHA_INTERNAL), al') /\ In h (map ub_handle ubs) /\ gotcha_get_wrappee st' h = Ok Uninit.
Proof.
  exists demo_env, demo_libs, demo_mem, hist_f, st_f, (rs_of (demo_run hist_f)), [mkUB f_name 21 3], (Some n_a), [true; true; false],
    (state_of (gotcha_wrap_a demo_env st_f [mkUB f_name 21 3] (Some n_a) [true; true; false])), [], 3.
  split; [process|]. split; [apply freshb_ok; vm_compute; reflexivity|]. split; [reflexivity|]. split; [exact run_f|]. split; [|split; [left; reflexivity|vm_compute; reflexivity]].
  assert (X : forall r : outcome ((state * Z) * list bool), code_of r = Some GOTCHA_INTERNAL -> match r with Ok (_, a) => a | Fault _ => [true] end = [] -> r = Ok ((state_of r, GOTCHA_INTERNAL), [])).
  { intros [[[s c] a]|f] H1 H2; [|discriminate H1]. cbn in *. congruence. }
  apply X; vm_compute; reflexivity.
Qed.
Print Assumptions C64_handle_refuted.

(** ... and when the memory for wrapping dlopen is missing during initialisation, gotcha_wrap returns GOTCHA_SUCCESS but
    libraries opened later are not redirected *)
Definition lib3 : lmap := placed demo_lib 3 n_b 2097152.
Definition mem3 : Z -> Z := fun x => if x =? 65576 then 11 else if x =? 65584 then 11 else 7.
Definition hist3 : list op := hist_f ++ [OLoad [lib3] mem3; OFinish].
Definition short3 : list bool := [true; true; true; true; true; true; true; false].
Notation demo_run_a ops al := (run_a demo_env (init_state demo_libs demo_mem) ops al).
Theorem C64_silent_refuted : exists e maps mem ubs tool lib mem' al st rs st' al' x w,
  let ops := [OWrap ubs tool; OLoad [lib] mem'; OFinish] in
  process_ok e maps ops /\ fresh e ops /\
  run e (init_state maps mem) ops = Ok (st, RCode GOTCHA_SUCCESS :: rs) /\ run_a e (init_state maps mem) ops al = Ok ((st', RCode GOTCHA_SUCCESS :: rs), al') /\
  In w (map ub_wrapper ubs) /\ p_mem (s_p st) x = w /\ p_mem (s_p st') x = mem' x /\ mem' x <> w.
Proof.
  exists demo_env, demo_libs, demo_mem, [mkUB f_name 11 1], (Some n_a), lib3, mem3, short3, (st_of (demo_run hist3)), [RNone; RNone], (sta_of (demo_run_a hist3 short3)), [], 2097192, 11. cbv zeta.
  split; [process|]. split; [apply freshb_ok; vm_compute; reflexivity|].
  split; [change (RCode GOTCHA_SUCCESS :: [RNone; RNone]) with [RCode GOTCHA_SUCCESS; RNone; RNone]; assert (H : rs_of (demo_run hist3) = [RCode GOTCHA_SUCCESS; RNone; RNone]) by (vm_compute; reflexivity); rewrite <- H; refine (run_of (demo_run hist3) _); vm_compute; reflexivity|].
  split; [assert (H : rsa_of (demo_run_a hist3 short3) = [RCode GOTCHA_SUCCESS; RNone; RNone]) by (vm_compute; reflexivity);
    assert (H2 : ala_of (demo_run_a hist3 short3) = []) by (vm_compute; reflexivity); rewrite <- H, <- H2 at 1; refine (runa_of (demo_run_a hist3 short3) _); vm_compute; reflexivity|].
  split; [left; reflexivity|]. split; [vm_compute; reflexivity|]. split; [vm_compute; reflexivity|vm_compute; discriminate].
Qed.
Print Assumptions C64_silent_refuted.

Example enough_case : process_ok demo_env demo_libs hist3 /\ ~ In false [true; true] /\ rsa_of (demo_run_a hist3 [true; true]) = [RCode GOTCHA_SUCCESS; RNone; RNone].
Proof. split; [process|]. split; [intros [H|[H|[]]]; discriminate H|vm_compute; reflexivity]. Qed.
