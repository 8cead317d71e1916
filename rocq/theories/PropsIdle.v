(** A dlopen that brings nothing (C75), and functions that do not affect each other (C76). *)
From Verif Require Import Base ListFacts HashModel HashProofs SpecHash ElfModel SpecElf ToolModel CoreModel SpecCore SpecRun SpecSync SpecOnly CoreRel CoreLoop CoreSpec CoreFacts CoreHist CoreApi CoreEnv CoreSync CoreSync2 CoreSync3 CoreIdle OnlyProofs
  PropsElf Demo PropsCoreEx PropsSync PropsSyncEx PropsStall.
From Coq Require String.
Import String.StringSyntax.
Open Scope string_scope.
Open Scope list_scope.
Open Scope Z_scope.

(** C75: Once a dlopen has returned, the work GOTCHA does at the end of a further dlopen changes nothing at all - no store,
    no mprotect, no wrappee, no record - if meanwhile nothing was wrapped, no library has come and none is accepted that was
    not.  In between priorities may change, libraries may be unloaded, and the program may write to its memory. *)
Theorem C75_nothing_new : forall e maps mem ops mid st rs,
  process_ok e maps (ops ++ [OFinish] ++ mid) -> calm maps (ops ++ [OFinish] ++ mid) -> existsb is_api ops = true -> Forall idle mid ->
  incl (maps_after maps (ops ++ mid)) (maps_after maps ops) ->
  (forall m, accepted (last_filter (ops ++ mid)) (maps_after maps (ops ++ mid)) m -> accepted (last_filter ops) (maps_after maps ops) m) ->
  run e (init_state maps mem) (ops ++ [OFinish] ++ mid) = Ok (st, rs) ->
  run e (init_state maps mem) ((ops ++ [OFinish] ++ mid) ++ [OFinish]) = Ok (st, rs ++ [RNone]).
Proof.
  intros e maps mem ops mid st rs P T A F I Ha E. rewrite run_app, E. cbn [bind]. rewrite run_one.
  rewrite (idle_finish e (po_env _ _ _ P) maps mem ops mid st rs P T A F I Ha E). reflexivity.
Qed.
Print Assumptions C75_nothing_new.

(** f and g are wrapped, libe.so is loaded, a priority changes, the program writes to its memory, libe.so is unloaded: the next dlopen finds nothing to do *)
Definition idle_mid : list op := [OSetPriority n_a 9; OLoad [] (fun x => if x =? 131112 then 21 else 5); OUnload keep_d mem_u].
Example C75_ex : process_ok demo_env demo_libs (hist_l1 ++ [OFinish] ++ idle_mid) /\ calm demo_libs (hist_l1 ++ [OFinish] ++ idle_mid) /\ existsb is_api hist_l1 = true /\ Forall idle idle_mid /\
  incl (maps_after demo_libs (hist_l1 ++ idle_mid)) (maps_after demo_libs hist_l1) /\
  (forall m, accepted (last_filter (hist_l1 ++ idle_mid)) (maps_after demo_libs (hist_l1 ++ idle_mid)) m -> accepted (last_filter hist_l1) (maps_after demo_libs hist_l1) m) /\
  length (p_log (s_p (st_of (demo_run hist_l1)))) <> length (p_log (s_p (st_of (demo_run (hist_l1 ++ [OFinish]))))).
Proof.
  split; [process|]. split; [apply calmb_ok; vm_compute; reflexivity|]. split; [reflexivity|]. split; [repeat constructor|].
  assert (HI : incl (maps_after demo_libs (hist_l1 ++ idle_mid)) (maps_after demo_libs hist_l1)) by (intros m [<-|[]]; left; reflexivity).
  split; [exact HI|]. split; [intros m H; apply accepted_always; apply HI; eapply accepted_in; exact H|]. vm_compute. discriminate.
Qed.
(** Without a dlopen before it the work need not be empty: after a second gotcha_wrap that brings nothing new, all slots are stored again. *)
Definition idle_ops : list op := [OWrap [mkUB f_name 11 1] (Some n_a); OWrap [] (Some n_a)].
Example C75_first : length (p_log (s_p (st_of (demo_run idle_ops)))) <> length (p_log (s_p (st_of (demo_run (idle_ops ++ [OFinish]))))) /\
  p_log (s_p (st_of (demo_run (idle_ops ++ [OFinish; OFinish])))) = p_log (s_p (st_of (demo_run (idle_ops ++ [OFinish])))).
Proof. split; [vm_compute; discriminate|vm_compute; reflexivity]. Qed.

(** C76: Two histories that differ only in the bindings of functions other than [n] (and in what the loader leaves in memory) have the
    same outermost wrapper of [n].  Only __libc_start_main is affected by another function, namely main. *)
Theorem C76_outermost : forall e maps mem mem' ops ops' n st rs st' rs',
  process_ok e maps ops -> process_ok e maps ops' -> same_for n ops ops' -> n <> n_libc_start_main ->
  run e (init_state maps mem) ops = Ok (st, rs) -> run e (init_state maps mem') ops' = Ok (st', rs') ->
  outermost st n = outermost st' n.
Proof.
  intros e maps mem mem' ops ops' n st rs st' rs' P P' H Hn E E'.
  destruct (reach e maps mem ops st rs P E) as (_ & _ & _ & O). destruct (reach e maps mem' ops' st' rs' P' E') as (_ & _ & _ & O').
  rewrite O, O'. unfold hdw. rewrite (lk_stack _ _ _ (run_like e (exports e) ins_c n Hn ops ops' H _ _ (start_like n maps))). reflexivity.
Qed.
Print Assumptions C76_outermost.

(** ... and, if every binding has its own handle variable and wrapper, the same stack, the same original function and the same wrappees. *)
Theorem C76_wrappees : forall e maps mem mem' ops ops' n st rs st' rs',
  process_ok e maps ops -> process_ok e maps ops' -> fresh e ops -> fresh e ops' -> same_for n ops ops' -> n <> n_libc_start_main ->
  run e (init_state maps mem) ops = Ok (st, rs) -> run e (init_state maps mem') ops' = Ok (st', rs') ->
  stack e maps ops n = stack e maps ops' n /\ original e maps ops n = original e maps ops' n /\
  forall x, In x (stack e maps ops n) -> exists w, gotcha_get_wrappee st (en_handle x) = Ok w /\ gotcha_get_wrappee st' (en_handle x) = Ok w.
Proof.
  intros e maps mem mem' ops ops' n st rs st' rs' P P' F F' H Hn E E'.
  pose proof (run_like e (exports e) place n Hn ops ops' H _ _ (start_like n maps)) as L.
  assert (S : stack e maps ops n = stack e maps ops' n) by apply (lk_stack _ _ _ L). assert (O : original e maps ops n = original e maps ops' n) by apply (lk_orig _ _ _ L).
  split; [exact S|]. split; [exact O|].
  destruct (run_hist e maps mem ops P F) as (st0 & E0 & R). rewrite E in E0. injection E0 as <- _. destruct (run_hist e maps mem' ops' P' F') as (st0 & E0 & R'). rewrite E' in E0. injection E0 as <- _.
  pose proof (rel_wired e st _ n R) as W. pose proof (rel_wired e st' _ n R') as W'. fold (stack e maps ops n) (original e maps ops n) in W. fold (stack e maps ops' n) (original e maps ops' n) in W'.
  rewrite <- S, <- O in W'. revert W W'. generalize (original e maps ops n). clear. induction (stack e maps ops n) as [|y r IH]; intros o W W' x Hx; [destruct Hx|].
  destruct W as [W Wr], W' as [W' Wr']. destruct Hx as [<-|Hx]; [eauto|]. eapply IH; eauto.
Qed.
Print Assumptions C76_wrappees.

(** ... and the same content of the call sites of [n].  Partial: both histories have to be orderly (see C76_sites_refuted). *)
Theorem C76_sites_partial : forall e maps mem mem' ops ops' n st rs st' rs' m x w,
  process_ok e maps ops -> process_ok e maps ops' -> same_for n ops ops' -> n <> n_libc_start_main -> n <> n_main ->
  orderly e maps mem ops -> orderly e maps mem' ops' -> ~ pending ops -> ~ pending ops' ->
  run e (init_state maps mem) ops = Ok (st, rs) -> run e (init_state maps mem') ops' = Ok (st', rs') ->
  accepted (last_filter ops) (maps_after maps ops) m -> slot relocs m n x -> outermost st n = Ok (Some w) ->
  p_mem (s_p st) x = w /\ p_mem (s_p st') x = w.
Proof.
  intros e maps mem mem' ops ops' n st rs st' rs' m x w P P' H Hn Hm O O' N N' E E' Ha Hs Hw.
  assert (Ha' : accepted (last_filter ops') (maps_after maps ops') m).
  { assert (EF : last_filter ops = last_filter ops' /\ forall maps, maps_after maps ops = maps_after maps ops').
    { clear - H. unfold last_filter. generalize FAlways. induction H as [|o o' r r' H _ IH]; intros f; [auto|]. cbn [fold_left].
      assert (Q : set_filter_last f o = set_filter_last f o' /\ forall maps, maps_after maps [o] = maps_after maps [o']).
      { destruct o, o'; try destruct H; cbn; auto; split; auto; congruence. }
      destruct Q as [Q1 Q2]. rewrite Q1. destruct (IH (set_filter_last f o')) as [I1 I2]. split; [exact I1|]. intros maps. rewrite (maps_after_cons maps o r), (maps_after_cons maps o' r'), Q2. apply I2. }
    destruct EF as [<- <-]. exact Ha. }
  split.
  - apply (C05_redirected_partial e maps mem ops st rs P O N E m Ha n x w Hm Hs Hw).
  - apply (C05_redirected_partial e maps mem' ops' st' rs' P' O' N' E' m Ha' n x w Hm Hs). rewrite <- (C76_outermost e maps mem mem' ops ops' n st rs st' rs' P P' H Hn E E'). exact Hw.
Qed.
Print Assumptions C76_sites_partial.

(** Call sites of f are redirected or not according to whether main is wrapped along with it. *)
Theorem C76_sites_refuted : exists e maps mem ops ops' n st rs st' rs' m x w,
  process_ok e maps ops /\ process_ok e maps ops' /\ fresh e ops /\ fresh e ops' /\ same_for n ops ops' /\ n <> n_libc_start_main /\ n <> n_main /\
  run e (init_state maps mem) ops = Ok (st, rs) /\ run e (init_state maps mem) ops' = Ok (st', rs') /\
  accepted (last_filter ops) (maps_after maps ops) m /\ slot relocs m n x /\ outermost st n = Ok (Some w) /\ outermost st' n = Ok (Some w) /\
  p_mem (s_p st) x = w /\ p_mem (s_p st') x <> w.
Proof.
  exists demo_env, demo_libs, demo_mem, hist_without, hist_with, f_name, (st_of (demo_run hist_without)), (rs_of (demo_run hist_without)), (st_of (demo_run hist_with)), (rs_of (demo_run hist_with)), demo_lib, 65576, 11.
  split; [process|]. split; [process|]. split; [apply freshb_ok; vm_compute; reflexivity|]. split; [apply freshb_ok; vm_compute; reflexivity|].
  split; [repeat constructor|]. split; [discriminate|]. split; [discriminate|].
  split; [refine (run_of (demo_run hist_without) _); vm_compute; reflexivity|]. split; [refine (run_of (demo_run hist_with) _); vm_compute; reflexivity|].
  split; [apply accepted_always; left; reflexivity|]. split; [is_slot 40|]. split; [vm_compute; reflexivity|]. split; [vm_compute; reflexivity|]. split; [vm_compute; reflexivity|vm_compute; discriminate].
Qed.
Print Assumptions C76_sites_refuted.

(** the excluded function: wrapping main wraps __libc_start_main too *)
Example C76_libc_start_main : same_for n_libc_start_main [OWrap [mkUB n_main 31 5] (Some n_a)] [OWrap [] (Some n_a)] /\
  outermost (st_of (demo_run [OWrap [mkUB n_main 31 5] (Some n_a)])) n_libc_start_main <> outermost (st_of (demo_run [OWrap [] (Some n_a)])) n_libc_start_main.
Proof. split; [repeat constructor|vm_compute; discriminate]. Qed.

(** hist1 without its binding of g, and with a binding of h *)
Definition hist1h : list op := [OWrap [mkUB f_name 11 1] (Some n_a); OSetPriority n_b 5; OWrap [mkUB h_name 51 7; mkUB f_name 21 3] (Some n_b)].
Lemma no_loads_orderly ops : (forall o, In o ops -> match o with OWrap _ _ | OSetPriority _ _ | OGetPriority _ => True | _ => False end) -> tidy demo_libs ops ->
  (forall ubs t, In (OWrap ubs t) ops -> ~ In n_main (map ub_name ubs)) -> orderly demo_env demo_libs demo_mem ops /\ ~ pending ops.
Proof.
  intros H T M. assert (NL : forall l1 o l2, ops = l1 ++ o :: l2 -> match o with OWrap _ _ | OSetPriority _ _ | OGetPriority _ => True | _ => False end) by (intros l1 o l2 ->; apply H, in_elt).
  assert (NP : forall l1 l2, ops = l1 ++ l2 -> ~ pending l1). { intros l1 l2 E (k1 & libs & mm & k2 & E' & _). rewrite E' in E. rewrite <- app_assoc in E. exact (NL _ _ _ E). }
  assert (FA : forall l1 l2, ops = l1 ++ l2 -> last_filter l1 = FAlways).
  { intros l1 l2 E. assert (H' : forall o, In o l1 -> match o with OWrap _ _ | OSetPriority _ _ | OGetPriority _ => True | _ => False end) by (intros o Ho; apply H; rewrite E; apply in_or_app; auto).
    clear - H'. unfold last_filter. induction l1 as [|o l IH]; [reflexivity|]. cbn [fold_left]. pose proof (H' o (or_introl eq_refl)) as Q. destruct o; try destruct Q; cbn [set_filter_last]; apply IH; intros; apply H'; right; auto. }
  split; [|apply (NP ops []); rewrite app_nil_r; reflexivity]. constructor.
  - exact T.
  - intros l1 o l2 m E _ Hm _. rewrite (FA l1 (o :: l2) E). apply accepted_always. exact Hm.
  - intros l1 libs mm l2 st rs m n x E. destruct (NL _ _ _ E).
  - intros l1 keep mm l2 st rs m n x E. destruct (NL _ _ _ E).
  - intros l1 ubs t l2 E. exact (NP _ _ E).
  - intros l1 o l2 E. destruct o as [ubs t| | | | | |]; try exact I. intros Hm. exfalso. apply (M ubs t); [rewrite E; apply in_elt|exact Hm].
Qed.
Example C76_ex : process_ok demo_env demo_libs hist1h /\ fresh demo_env hist1h /\ same_for f_name hist1 hist1h /\
  (orderly demo_env demo_libs demo_mem hist1 /\ ~ pending hist1) /\ (orderly demo_env demo_libs demo_mem hist1h /\ ~ pending hist1h) /\
  outermost (st_of (demo_run hist1h)) f_name = Ok (Some 21) /\ outermost (st_of (demo_run hist1h)) h_name = Ok (Some 51) /\ outermost (st_of (demo_run hist1)) h_name = Ok None.
Proof.
  split; [process|]. split; [apply freshb_ok; vm_compute; reflexivity|]. split; [repeat constructor|].
  split; [apply no_loads_orderly|split; [apply no_loads_orderly|vm_compute; auto]].
  1,4: intros o [<-|[<-|[<-|[]]]]; exact I.
  1,3: apply tidyb_ok; vm_compute; reflexivity.
  all: intros ubs t [Q|[Q|[Q|[]]]]; try discriminate Q; injection Q as <- _; intros Hm; cbn [map ub_name In] in Hm; repeat (destruct Hm as [Hm|Hm]; [discriminate Hm|]); destruct Hm.
Qed.
