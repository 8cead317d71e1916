(** C64, continued: running out of memory in gotcha_init. *)
From Verif Require Import Base ListFacts SpecHash HashTrace HashModel ElfModel SpecElf ToolModel CoreModel SpecCore SpecRun PropsElf Demo PropsCoreEx ToolProofs CoreRel CoreStep CoreMain CoreHist CoreApi CoreApi3 FailModel SpecFail FailProofs FailProofs2 FailProofs3 FailProofs4 PropsFail PropsArr.
Open Scope list_scope.
Open Scope Z_scope.

(** What the first API call does in gotcha_init, whatever memory it gets.  If the answers are [init_refused] it leaves
    dlopen and dlsym unwrapped and nobody is told: nothing is installed, and libraries opened later are not looked at.
    Else it crashes, and only if an answer was NULL; or the tables of libraries and of functions were created and it did
    its work.  Only the table of missing functions may then be absent, provided dlopen and dlsym were both found. *)
Theorem C64_init_law : forall e maps mem ops al st rs,
  process_ok e maps ops -> existsb is_api ops = false -> run e (init_state maps mem) ops = Ok (st, rs) -> p_maps (s_p st) <> [] ->
  exists st1, api_init e st = Ok st1 /\
  match gotcha_init_a e (wrap_n_a e 3) st al with
  | Fault f => f = NullDeref /\ In false al /\ ~ init_refused e al
  | Ok (st', _) =>
      (init_refused e al /\ s_init st' = true /\ s_p st' = s_p st /\ (forall al2, step_a e st' OFinish al2 = Ok ((st', RNone), al2)) /\
       forall h, ~ In h (map ub_handle (dl_binds e)) -> b_handles (s_b st') h = b_handles (s_b st) h) \/
      (~ init_refused e al /\ nth 0 al true = true /\ nth 1 al true = true /\
       (nth 2 al true = true /\ alike st1 st' \/
        nth 2 al true = false /\ first_export (exports e) (p_maps (s_p st)) n_dlopen <> None /\ first_export (exports e) (p_maps (s_p st)) n_dlsym <> None /\
          alike (set_b (set_nf zero_table (s_b st1)) st1) st'))
  end.
Proof.
  intros e maps mem ops al st rs P A E M. pose proof (state_init _ _ _ _ _ _ P E) as Hi. rewrite A in Hi.
  destruct (run_any e maps mem ops P) as (st0 & E0 & R). rewrite E in E0. injection E0 as <- _. destruct R as [R|[ch S]]; [|rewrite (sr_init _ _ _ _ _ _ _ _ S) in Hi; discriminate Hi].
  destruct (init_law e (po_env _ _ _ P) st _ al R M) as (st1 & E1 & L). exists st1. split; [exact E1|]. destruct (gotcha_init_a e (wrap_n_a e 3) st al) as [[st' al']|f]; [|exact L].
  destruct L as [(L1 & L2 & _ & L3 & L4 & L5)|L]; [left|right; exact L]. do 3 (split; [assumption|]). split; [|exact L5]. intros al2. cbn [step_a]. rewrite L4, andb_false_r. reflexivity.
Qed.
Print Assumptions C64_init_law.

(** the cases occur: all memory; no record for the tool; no hash table for the bindings; no table of libraries, of
    functions, of missing functions (dlopen is not exported); the same where dlopen and dlsym are *)
Definition outcome_of (r : outcome (state * list bool)) : option bool := match r with Ok (st, _) => Some (dlopen_wrapped st) | Fault _ => None end.
Example init_cases :
  process_ok demo_env demo_libs [] /\ process_ok demo_env libs_2 [] /\ run demo_env (init_state libs_2 demo_mem) [] = Ok (init_state libs_2 demo_mem, []) /\ libs_2 <> [] /\
  map (fun al => outcome_of (gotcha_init_a demo_env (wrap_n_a demo_env 3) (init_state demo_libs demo_mem) al))
    [[]; [true; true; true; false]; short3; [false]; [true; false]; [true; true; false]; [true; true; true; true; false]; [true; true; true; true; true; false]] =
    [Some true; Some false; Some false; None; None; None; Some true; None] /\
  map (fun al => outcome_of (gotcha_init_a demo_env (wrap_n_a demo_env 3) (init_state libs_2 demo_mem) al)) [[true; true; false]; [false; false; false; false]] = [Some true; Some false].
Proof.
  split; [process|]. split. { constructor; [exact env_wf|intros m [<-|[<-|[<-|[]]]]; [exact demo_wf|exact g_lib_wf|exact dl_lib_wf]|intros o m []]. }
  split; [reflexivity|]. split; [discriminate|]. split; vm_compute; reflexivity.
Qed.
