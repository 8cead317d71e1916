(** Laws behind three refuted properties: C11, C12 and C15. *)
From Verif Require Import Base ListFacts HashModel ElfModel SpecElf ToolModel CoreModel SpecCore SpecRun SpecSync CoreDl CoreRewrap CoreHist CoreSync3 CoreTogether PropsElf Demo PropsCoreEx PropsSyncEx PropsReg.
From Coq Require Import Permutation.

(** C11 fails for every history, not just for the witness [C11_rewrap_refuted]: if a binding in use is passed to gotcha_wrap again,
    under the same or another tool's name, whatever the priorities, then either its wrappee is not initialised, or the
    wrappees lead from the wrapper [w] through some of the wrappers outside it ([lb]) back to [w], and never to the
    original function ([wired] with [Some w] in place of the original). *)
Theorem C11_rewrap_law : forall e maps mem ops st rs n w h tool st' r,
  process_ok e maps ops -> fresh e ops -> In (mkUB n w h) (user_binds ops) ->
  run e (init_state maps mem) ops = Ok (st, rs) -> step e st (OWrap [mkUB n w h] tool) = Ok (st', r) ->
  exists l1 x l2, stack e maps ops n = l1 ++ x :: l2 /\ en_wrapper x = w /\ en_handle x = h /\
    (gotcha_get_wrappee st' h = Ok Uninit \/ exists la lb, l1 = la ++ lb /\ wired st' (x :: lb) (Some w)).
Proof. exact rewrap_law. Qed.
Print Assumptions C11_rewrap_law.

(** the law's cases: the wrapper becomes its own wrappee; the two wrappers of f call each other; the wrappee is not initialised *)
Notation again u tool := (stepped (step demo_env (st_of (demo_run hist1)) (OWrap [u] (Some tool)))).
Example C11_rewrap_ex : In (mkUB f_name 11 1) (user_binds hist1) /\ In (mkUB f_name 21 3) (user_binds hist1) /\
  gotcha_get_wrappee (again (mkUB f_name 11 1) n_a) 1 = Ok (Ptr 11) /\
  gotcha_get_wrappee (again (mkUB f_name 11 1) n_b) 1 = Ok (Ptr 11) /\ gotcha_get_wrappee (again (mkUB f_name 11 1) n_b) 3 = Ok (Ptr 11) /\
  gotcha_get_wrappee (again (mkUB f_name 21 3) n_a) 3 = Ok Uninit.
Proof. split; [left; auto|]. split; [right; right; left; auto|]. vm_compute. repeat split. Qed.

(** C12 fails for every call that wraps main for the first time along with other functions: no call site of any other
    function is changed, in any library.  The exceptions are the functions GOTCHA wraps for itself: __libc_start_main, and, if
    this is the first call of the API, dlopen and dlsym. *)
Theorem C12_main_together_law : forall e maps mem ops ubs tool st rs,
  ~ main_bound ops -> In n_main (map ub_name ubs) ->
  process_ok e maps (ops ++ [OWrap ubs tool]) -> calm maps (ops ++ [OWrap ubs tool]) -> run e (init_state maps mem) ops = Ok (st, rs) ->
  exists st' r, step e st (OWrap ubs tool) = Ok (st', r) /\
    forall m n x, In m (p_maps (s_p st)) -> slot relocs m n x -> n <> n_main -> n <> n_libc_start_main ->
      (existsb is_api ops = false -> n <> n_dlopen /\ n <> n_dlsym) -> p_mem (s_p st') x = p_mem (s_p st) x.
Proof. intros e maps mem ops ubs tool st rs Hm Hin P. exact (main_together e (po_env _ _ _ P) maps mem ops ubs tool st rs Hm Hin P). Qed.
Print Assumptions C12_main_together_law.

(** a call that wraps f, then main: f's slot keeps its content although f has a wrapper *)
Definition hist_f_main : list op := [OWrap [mkUB f_name 11 1; mkUB n_main 31 5] (Some n_a)].
Example C12_law_ex : process_ok demo_env demo_libs hist_f_main /\ calm demo_libs hist_f_main /\ ~ main_bound [] /\
  slot relocs demo_lib f_name 65576 /\ outermost (st_of (demo_run hist_f_main)) f_name = Ok (Some 11) /\
  p_mem (s_p (st_of (demo_run hist_f_main))) 65576 = demo_mem 65576 /\ demo_mem 65576 <> 11.
Proof.
  split; [process|]. split; [apply tidy_calm, tidyb_ok; vm_compute; reflexivity|]. split; [intros []|]. split; [exists 40; split; [vm_compute; auto|reflexivity]|].
  split; [vm_compute; reflexivity|]. split; [vm_compute; reflexivity|vm_compute; discriminate].
Qed.

(** C15, what the code does: the outermost wrapper if the real dlsym finds nothing or the outermost wrapper's wrappee, what the real
    dlsym finds otherwise *)
Theorem C15_dlsym_law : forall e maps mem ops st rs w h n x r,
  process_ok e maps ops -> fresh e ops -> existsb is_api ops = true -> run e (init_state maps mem) ops = Ok (st, rs) ->
  stack e maps ops n = x :: r -> h <> 18446744073709551615 ->
  (dw_dlsym w h n = 0 \/ gotcha_get_wrappee st (en_handle x) = Ok (Ptr (dw_dlsym w h n)) -> dlsym_wrapper e w st h n = Ok (DReturn (en_wrapper x))) /\
  (forall v, dw_dlsym w h n <> 0 -> gotcha_get_wrappee st (en_handle x) = Ok (Ptr v) -> v <> dw_dlsym w h n -> dlsym_wrapper e w st h n = Ok (DReturn (dw_dlsym w h n))).
Proof.
  intros e maps mem ops st rs w h n x r P F A E Hs Hh. destruct (dlsym_eq e maps mem ops st rs w h n P F A E) as [i Ed]. rewrite Ed, Hs. clear Ed. cbv zeta.
  assert (Hp : plain_dlsym e w st h n = Ok (DReturn (dw_dlsym w h n))) by (unfold plain_dlsym; destruct (Z.eqb_spec h RTLD_NEXT); [contradiction|reflexivity]).
  assert (W : wired st (x :: r) (original e maps ops n)).
  { destruct (dl_handles e maps mem ops st rs P F A E) as (R & _). rewrite <- Hs. apply (rel_wired e st _ n R). }
  destruct W as [W _]. rewrite W. clear W. split.
  - intros [H|H]; [rewrite H; reflexivity|]. destruct r as [|y r]; [destruct (original e maps ops n); [|discriminate H]|]; injection H as <-; rewrite Z.eqb_refl, orb_true_r; reflexivity.
  - intros v H0 H1 H2. destruct (Z.eqb_spec (dw_dlsym w h n) 0); [contradiction|]. cbn [orb].
    destruct r as [|y r]; [destruct (original e maps ops n); [|discriminate H1]|]; injection H1 as ->; destruct (Z.eqb_spec v (dw_dlsym w h n)); try contradiction; exact Hp.
Qed.
Print Assumptions C15_dlsym_law.

(** C15 fails for every function with two wrappers: dlsym returns the original function, as if it were not wrapped. *)
Theorem C15_two_wrappers : forall e maps mem ops st rs w h n x y r a,
  process_ok e maps ops -> fresh e ops -> existsb is_api ops = true -> run e (init_state maps mem) ops = Ok (st, rs) ->
  stack e maps ops n = x :: y :: r -> h <> 18446744073709551615 -> dw_dlsym w h n = a -> a <> 0 -> a <> en_wrapper y ->
  dlsym_wrapper e w st h n = Ok (DReturn a) /\ outermost st n = Ok (Some (en_wrapper x)).
Proof.
  intros e maps mem ops st rs w h n x y r a P F A E Hs Hh Ha H0 Hy. destruct (dl_handles e maps mem ops st rs P F A E) as (R & _). split.
  - rewrite <- Ha. apply (proj2 (C15_dlsym_law e maps mem ops st rs w h n x (y :: r) P F A E Hs Hh) (en_wrapper y)); [congruence| |congruence].
    pose proof (rel_wired e st _ n R) as W. fold (stack e maps ops n) in W. rewrite Hs in W. apply W.
  - rewrite (rel_outermost e True st _ n R). fold (stack e maps ops n). rewrite Hs. reflexivity.
Qed.
Print Assumptions C15_two_wrappers.

Example C15_law_ex : stack demo_env demo_libs hist1 f_name = [mkE n_b 21 3; mkE n_a 11 1] /\ 66048 = dw_dlsym demo_world 1 f_name /\ dlsym_wrapper demo_env demo_world (st_of (demo_run hist1)) 1 f_name = Ok (DReturn 66048) /\ outermost (st_of (demo_run hist1)) f_name = Ok (Some 21).
Proof. vm_compute. auto. Qed.
