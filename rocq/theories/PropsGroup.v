(** Grouping of bindings into calls of gotcha_wrap, and the order of calls (C77). *)
From Verif Require Import Base ListFacts HashModel HashProofs SpecHash ElfModel SpecElf ToolModel CoreModel SpecCore SpecRun SpecSync SpecOnly SpecGroup CoreRel CoreLoop CoreSpec CoreFacts CoreHist CoreApi CoreEnv CoreSync CoreSync2 CoreSync3 CommuteProofs
  PropsElf Demo PropsCoreEx PropsSync PropsSyncEx PropsStall PropsIdle.
From Coq Require String.
Import String.StringSyntax.
Open Scope string_scope.
Open Scope list_scope.
Open Scope Z_scope.

(** C77: Binding some functions in one call of gotcha_wrap or in two consecutive ones by the same tool: the one call reports what the first
    failing one of the two reports, and every other call of the history reports the same. *)
Theorem C77_split_codes : forall e maps mem pre l1 l2 t post, process_ok e maps (pre ++ OWrap (l1 ++ l2) t :: post) ->
  exists st st' r0 c1 c2 r3, length r0 = length pre /\
    run e (init_state maps mem) (pre ++ OWrap (l1 ++ l2) t :: post) = Ok (st, r0 ++ RCode (if c1 =? 0 then c2 else c1) :: r3) /\
    run e (init_state maps mem) (pre ++ OWrap l1 t :: OWrap l2 t :: post) = Ok (st', r0 ++ RCode c1 :: RCode c2 :: r3).
Proof.
  intros e maps mem pre l1 l2 t post P. pose proof (regrouped_process e maps _ _ (rg_split pre l1 l2 t post) P) as P'.
  destruct (run_any e maps mem _ P) as (st & E & _). destruct (run_any e maps mem _ P') as (st' & E' & _).
  destruct (split_run e (exports e) ins_c ins_c_by_prio pre l1 l2 t post (a0 maps)) as (r0 & c1 & c2 & r3 & L & R & R' & _).
  rewrite R in E. rewrite R' in E'. eauto 10.
Qed.
Print Assumptions C77_split_codes.

(** Two consecutive calls without a common function report the same in either order, and so does every other call of the history. *)
Theorem C77_swap_codes : forall e maps mem pre l1 t1 l2 t2 post, process_ok e maps (pre ++ OWrap l1 t1 :: OWrap l2 t2 :: post) -> disjoint l1 l2 ->
  exists st st' r0 c1 c2 r3, length r0 = length pre /\
    run e (init_state maps mem) (pre ++ OWrap l1 t1 :: OWrap l2 t2 :: post) = Ok (st, r0 ++ RCode c1 :: RCode c2 :: r3) /\
    run e (init_state maps mem) (pre ++ OWrap l2 t2 :: OWrap l1 t1 :: post) = Ok (st', r0 ++ RCode c2 :: RCode c1 :: r3).
Proof.
  intros e maps mem pre l1 t1 l2 t2 post P D. pose proof (regrouped_process e maps _ _ (rg_swap pre l1 t1 l2 t2 post D) P) as P'.
  destruct (run_any e maps mem _ P) as (st & E & _). destruct (run_any e maps mem _ P') as (st' & E' & _).
  destruct (swap_run e (exports e) ins_c ins_c_by_prio pre l1 t1 l2 t2 post (a0 maps) D) as (r0 & c1 & c2 & r3 & L & R & R' & _).
  rewrite R in E. rewrite R' in E'. eauto 10.
Qed.
Print Assumptions C77_swap_codes.

(** However the bindings are grouped, and whatever the order of neighbouring calls without a common function, the outermost wrapper of every
    function is the same. *)
Theorem C77_outermost : forall e maps mem mem' ops ops' n st rs st' rs', process_ok e maps ops -> regrouped ops ops' ->
  run e (init_state maps mem) ops = Ok (st, rs) -> run e (init_state maps mem') ops' = Ok (st', rs') -> outermost st n = outermost st' n.
Proof.
  intros e maps mem mem' ops ops' n st rs st' rs' P R E E'. pose proof (regrouped_process e maps _ _ R P) as P'.
  destruct (reach e maps mem ops st rs P E) as (_ & _ & _ & O). destruct (reach e maps mem' ops' st' rs' P' E') as (_ & _ & _ & O').
  rewrite O, O'. unfold hdw. rewrite (sm_stack _ _ (regrouped_sim e (exports e) ins_c ins_c_by_prio ops ops' R (a0 maps))). reflexivity.
Qed.
Print Assumptions C77_outermost.

(** ... and, if every binding has its own handle variable and wrapper, the whole stack, the original function and all wrappees are the same. *)
Theorem C77_wrappees : forall e maps mem mem' ops ops' n st rs st' rs', process_ok e maps ops -> fresh e ops -> regrouped ops ops' ->
  run e (init_state maps mem) ops = Ok (st, rs) -> run e (init_state maps mem') ops' = Ok (st', rs') ->
  stack e maps ops n = stack e maps ops' n /\ original e maps ops n = original e maps ops' n /\
  forall x, In x (stack e maps ops n) -> exists w, gotcha_get_wrappee st (en_handle x) = Ok w /\ gotcha_get_wrappee st' (en_handle x) = Ok w.
Proof.
  intros e maps mem mem' ops ops' n st rs st' rs' P F Q E E'. pose proof (regrouped_process e maps _ _ Q P) as P'. pose proof (regrouped_fresh e _ _ Q F) as F'.
  pose proof (regrouped_sim e (exports e) place place_by_prio ops ops' Q (a0 maps)) as L.
  assert (S : stack e maps ops n = stack e maps ops' n) by apply (sm_stack _ _ L). assert (O : original e maps ops n = original e maps ops' n) by apply (sm_orig _ _ L).
  split; [exact S|]. split; [exact O|].
  destruct (run_hist e maps mem ops P F) as (st0 & E0 & R). rewrite E in E0. injection E0 as <- _. destruct (run_hist e maps mem' ops' P' F') as (st0 & E0 & R'). rewrite E' in E0. injection E0 as <- _.
  pose proof (rel_wired e st _ n R) as W. pose proof (rel_wired e st' _ n R') as W'. fold (stack e maps ops n) (original e maps ops n) in W. fold (stack e maps ops' n) (original e maps ops' n) in W'.
  rewrite <- S, <- O in W'. revert W W'. generalize (original e maps ops n). clear. induction (stack e maps ops n) as [|y r IH]; intros o W W' x Hx; [destruct Hx|].
  destruct W as [W Wr], W' as [W' Wr']. destruct Hx as [<-|Hx]; [eauto|]. eapply IH; eauto.
Qed.
Print Assumptions C77_wrappees.

(** ... and the call sites hold the same.  Partial: both histories have to be orderly (see C77_sites_refuted). *)
Theorem C77_sites_partial : forall e maps mem mem' ops ops' n st rs st' rs' m x w, process_ok e maps ops -> regrouped ops ops' -> n <> n_main ->
  orderly e maps mem ops -> orderly e maps mem' ops' -> ~ pending ops -> ~ pending ops' ->
  run e (init_state maps mem) ops = Ok (st, rs) -> run e (init_state maps mem') ops' = Ok (st', rs') ->
  accepted (last_filter ops) (maps_after maps ops) m -> slot relocs m n x -> outermost st n = Ok (Some w) ->
  p_mem (s_p st) x = w /\ p_mem (s_p st') x = w.
Proof.
  intros e maps mem mem' ops ops' n st rs st' rs' m x w P R Hm O O' N N' E E' Ha Hs Hw. pose proof (regrouped_process e maps _ _ R P) as P'.
  destruct (regrouped_frame _ _ R) as (F & M & _). split.
  - apply (C05_redirected_partial e maps mem ops st rs P O N E m Ha n x w Hm Hs Hw).
  - rewrite F, M in Ha. apply (C05_redirected_partial e maps mem' ops' st' rs' P' O' N' E' m Ha n x w Hm Hs).
    rewrite <- (C77_outermost e maps mem mem' ops ops' n st rs st' rs' P R E E'). exact Hw.
Qed.
Print Assumptions C77_sites_partial.

(** If main is bound in the same call as f the call sites of f are not redirected; if it is bound in a call of its own they are. *)
Definition main_with : list op := [OWrap [mkUB f_name 11 1; mkUB n_main 31 5] (Some n_a)].
Definition main_own : list op := [OWrap [mkUB f_name 11 1] (Some n_a); OWrap [mkUB n_main 31 5] (Some n_a)].
Theorem C77_sites_refuted : exists e maps mem ops ops' n st rs st' rs' m x w,
  process_ok e maps ops /\ fresh e ops /\ regrouped ops ops' /\ n <> n_main /\
  run e (init_state maps mem) ops = Ok (st, rs) /\ run e (init_state maps mem) ops' = Ok (st', rs') /\
  accepted (last_filter ops) (maps_after maps ops) m /\ slot relocs m n x /\ outermost st n = Ok (Some w) /\ outermost st' n = Ok (Some w) /\
  p_mem (s_p st) x <> w /\ p_mem (s_p st') x = w.
Proof.
  exists demo_env, demo_libs, demo_mem, main_with, main_own, f_name, (st_of (demo_run main_with)), (rs_of (demo_run main_with)), (st_of (demo_run main_own)), (rs_of (demo_run main_own)), demo_lib, 65576, 11.
  split; [process|]. split; [apply freshb_ok; vm_compute; reflexivity|]. split; [apply (rg_split [] [mkUB f_name 11 1] [mkUB n_main 31 5] (Some n_a) [])|]. split; [discriminate|].
  split; [refine (run_of (demo_run main_with) _); vm_compute; reflexivity|]. split; [refine (run_of (demo_run main_own) _); vm_compute; reflexivity|].
  split; [apply accepted_always; left; reflexivity|]. split; [is_slot 40|]. split; [vm_compute; reflexivity|]. split; [vm_compute; reflexivity|]. split; [vm_compute; discriminate|vm_compute; reflexivity].
Qed.
Print Assumptions C77_sites_refuted.

(** f, g and h are bound by tool a in one call and f by tool b in another; or f by b after f by a, but g and h at the end *)
Definition grp1 : list op := [OWrap [mkUB f_name 11 1; mkUB g_name 12 2; mkUB h_name 51 7] (Some n_a); OWrap [mkUB f_name 21 3] (Some n_b); OSetPriority n_b 5].
Definition grp2 : list op := [OWrap [mkUB f_name 11 1] (Some n_a); OWrap [mkUB f_name 21 3] (Some n_b); OWrap [mkUB g_name 12 2; mkUB h_name 51 7] (Some n_a); OSetPriority n_b 5].
Lemma grp_regrouped : regrouped grp1 grp2.
Proof.
  eapply rg_trans.
  - apply (rg_split [] [mkUB f_name 11 1] [mkUB g_name 12 2; mkUB h_name 51 7] (Some n_a) [OWrap [mkUB f_name 21 3] (Some n_b); OSetPriority n_b 5]).
  - apply (rg_swap [OWrap [mkUB f_name 11 1] (Some n_a)] [mkUB g_name 12 2; mkUB h_name 51 7] (Some n_a) [mkUB f_name 21 3] (Some n_b) [OSetPriority n_b 5]).
    intros u1 u2 H1 H2. cbn [In] in H1, H2. destruct H2 as [<-|[]]. destruct H1 as [<-|[<-|[]]]; cbn [ub_name]; (split; [|split; intros]; discriminate).
Qed.
Example C77_ex : process_ok demo_env demo_libs grp1 /\ fresh demo_env grp1 /\ regrouped grp1 grp2 /\
  (orderly demo_env demo_libs demo_mem grp1 /\ ~ pending grp1) /\ (orderly demo_env demo_libs demo_mem grp2 /\ ~ pending grp2) /\
  rs_of (demo_run grp1) = [RCode 1; RCode 0; RCode 0] /\ rs_of (demo_run grp2) = [RCode 0; RCode 0; RCode 1; RCode 0] /\
  outermost (st_of (demo_run grp1)) f_name = Ok (Some 11) /\ gotcha_get_wrappee (st_of (demo_run grp1)) 1 = Ok (Ptr 21).
Proof.
  split; [process|]. split; [apply freshb_ok; vm_compute; reflexivity|]. split; [apply grp_regrouped|].
  split; [apply no_loads_orderly|split; [apply no_loads_orderly|vm_compute; auto]].
  1: intros o [<-|[<-|[<-|[]]]]; exact I. 3: intros o [<-|[<-|[<-|[<-|[]]]]]; exact I.
  1,3: apply tidyb_ok; vm_compute; reflexivity.
  1: intros ubs t [Q|[Q|[Q|[]]]]. 4: intros ubs t [Q|[Q|[Q|[Q|[]]]]].
  all: try discriminate Q; injection Q as <- _; intros Hm; cbn [map ub_name In] in Hm; repeat (destruct Hm as [Hm|Hm]; [discriminate Hm|]); destruct Hm.
Qed.
(** The order of two calls that bind the same function matters. *)
Example C77_same_function : outermost (st_of (demo_run [OWrap [mkUB f_name 11 1] (Some n_a); OWrap [mkUB f_name 21 3] (Some n_b)])) f_name = Ok (Some 11) /\
  outermost (st_of (demo_run [OWrap [mkUB f_name 21 3] (Some n_b); OWrap [mkUB f_name 11 1] (Some n_a)])) f_name = Ok (Some 21).
Proof. split; vm_compute; reflexivity. Qed.
