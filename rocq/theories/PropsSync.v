(** Theorems about the redirection of call sites over whole histories: C05, C07, C12, C20-C23, C33, C57.
    The hypotheses [tidy], [calm], [main_alone] and [orderly] are defined in SpecSync; examples meeting them and
    counterexamples when they fail are in PropsSyncEx. *)
From Verif Require Import Base HashModel SpecHash ElfModel SpecElf ToolModel CoreModel SpecCore SpecRun SpecSync CoreEnv CoreSync3.

(** C05, at every moment of an orderly history without a pending load: all slots of all accepted libraries
    hold the outermost wrapper.  Partial: assumes [orderly] (the full claim is refuted: C05_collision_refuted,
    C12_main_together_refuted, C22_constructor_refuted, C57_filter_refuted). *)
Theorem C05_redirected_partial e maps mem ops st rs :
  process_ok e maps ops -> orderly e maps mem ops -> ~ pending ops -> run e (init_state maps mem) ops = Ok (st, rs) ->
  forall m, accepted (last_filter ops) (maps_after maps ops) m -> redirected st m.
Proof. intros P O Hp E m Ha. exact (all_redirected e (po_env _ _ _ P) maps mem ops st rs P O E m Ha (or_introl Hp)). Qed.
Print Assumptions C05_redirected_partial.

(** C05 with the outermost wrapper given by the specified stack. *)
Theorem C05_stack_partial e maps mem ops st rs m n x y s :
  process_ok e maps ops -> fresh e ops -> orderly e maps mem ops -> ~ pending ops -> run e (init_state maps mem) ops = Ok (st, rs) ->
  accepted (last_filter ops) (maps_after maps ops) m -> n <> n_main -> slot relocs m n x -> stack e maps ops n = y :: s ->
  p_mem (s_p st) x = en_wrapper y.
Proof. intros P F O Hp E. exact (all_redirected_stack e (po_env _ _ _ P) maps mem ops st rs m n x y s P F O E Hp). Qed.
Print Assumptions C05_stack_partial.

(** C05, one call: in any calm history (loads may be pending, libraries may have been reloaded, the filter may have changed), after an API call
    every slot of an accepted library holds the outermost wrapper of its function unless the call changed
    neither the slot nor the outermost wrapper. *)
Theorem C05_call_partial e maps mem ops o st rs :
  is_api o = true -> main_alone ops o -> process_ok e maps (ops ++ [o]) -> calm maps (ops ++ [o]) -> run e (init_state maps mem) ops = Ok (st, rs) ->
  exists st' r, step e st o = Ok (st', r) /\
    forall m n x w, accepted (p_filter (s_p st)) (p_maps (s_p st)) m -> n <> n_main -> slot relocs m n x -> outermost st' n = Ok (Some w) ->
      p_mem (s_p st') x = w \/ (p_mem (s_p st') x = p_mem (s_p st) x /\ outermost st n = Ok (Some w)).
Proof. intros Ho Hm P. exact (api_redirects e (po_env _ _ _ P) maps mem ops o st rs Ho Hm P). Qed.
Print Assumptions C05_call_partial.

(** C07: when dlopen returns, all slots of the newly loaded accepted libraries, for all wrapped functions
    including main, hold the outermost wrapper.  Partial: [tidy] (distinct hash values in particular). *)
Theorem C07_dlopen_partial e maps mem ops libs mem' st rs :
  existsb is_api ops = true -> process_ok e maps (ops ++ [OLoad libs mem']) -> tidy maps (ops ++ [OLoad libs mem']) ->
  run e (init_state maps mem) (ops ++ [OLoad libs mem']) = Ok (st, rs) ->
  exists st', step e st OFinish = Ok (st', RNone) /\
    forall m n x w, In m libs -> accepted (p_filter (s_p st)) (p_maps (s_p st)) m -> slot relocs m n x -> outermost st' n = Ok (Some w) -> p_mem (s_p st') x = w.
Proof. intros Hi P T E. exact (dlopen_redirects e (po_env _ _ _ P) maps mem ops libs mem' [] st rs Hi eq_refl P T E). Qed.
Print Assumptions C07_dlopen_partial.

(** C20: a library that GOTCHA takes for up to date is redirected.  Partial: [orderly], which bounds the
    number of gotcha_wrap calls (C20_wraparound_refuted). *)
Theorem C20_current_partial e maps mem ops st rs :
  process_ok e maps ops -> orderly e maps mem ops -> run e (init_state maps mem) ops = Ok (st, rs) ->
  forall m, accepted (last_filter ops) (maps_after maps ops) m -> current st m -> redirected st m.
Proof. intros P O E m Ha Hc. exact (all_redirected e (po_env _ _ _ P) maps mem ops st rs P O E m Ha (or_intror Hc)). Qed.
Print Assumptions C20_current_partial.

(** C21: unload some libraries, then load others with dlopen (possibly the same files again): these are
    redirected.  Partial: [tidy] excludes reuse of a hash value, so that the reloaded library has a new
    link_map address (C21_reload_refuted). *)
Theorem C21_reload_partial e maps mem ops keep mem1 libs mem2 st rs :
  existsb is_api ops = true -> process_ok e maps (ops ++ [OUnload keep mem1; OLoad libs mem2]) -> tidy maps (ops ++ [OUnload keep mem1; OLoad libs mem2]) ->
  run e (init_state maps mem) (ops ++ [OUnload keep mem1; OLoad libs mem2]) = Ok (st, rs) ->
  exists st', step e st OFinish = Ok (st', RNone) /\
    forall m n x w, In m libs -> accepted (p_filter (s_p st)) (p_maps (s_p st)) m -> slot relocs m n x -> outermost st' n = Ok (Some w) -> p_mem (s_p st') x = w.
Proof.
  intros Hi P T E. change [OUnload keep mem1; OLoad libs mem2] with ([OUnload keep mem1] ++ [OLoad libs mem2]) in *. rewrite app_assoc in *.
  assert (Hi' : existsb is_api (ops ++ [OUnload keep mem1]) = true) by (rewrite existsb_app, Hi; reflexivity).
  exact (dlopen_redirects e (po_env _ _ _ P) maps mem (ops ++ [OUnload keep mem1]) libs mem2 [] st rs Hi' eq_refl P T E).
Qed.
Print Assumptions C21_reload_partial.

(** C22: the functions wrapped by a constructor during dlopen are redirected everywhere, also in the library
    being loaded.  Partial: functions wrapped earlier need not be (C22_constructor_refuted). *)
Theorem C22_constructor_partial e maps mem ops libs mem' ubs tool st rs :
  let before := ops ++ [OLoad libs mem'] in
  main_alone before (OWrap ubs tool) -> process_ok e maps (before ++ [OWrap ubs tool]) -> calm maps (before ++ [OWrap ubs tool]) ->
  run e (init_state maps mem) before = Ok (st, rs) ->
  exists st' r, step e st (OWrap ubs tool) = Ok (st', r) /\
    forall m n x w, accepted (p_filter (s_p st)) (p_maps (s_p st)) m -> n <> n_main -> slot relocs m n x ->
      outermost st' n = Ok (Some w) -> outermost st n <> Ok (Some w) -> p_mem (s_p st') x = w.
Proof.
  intros before Hm P T E. destruct (api_redirects e (po_env _ _ _ P) maps mem before (OWrap ubs tool) st rs eq_refl Hm P T E) as (st' & r & E' & H).
  exists st', r. split; [exact E'|]. intros m n x w Ha D Hs Hw Hn. destruct (H m n x w Ha D Hs Hw) as [|[_ Hc]]; [assumption|contradiction].
Qed.
Print Assumptions C22_constructor_partial.

(** C23: libraries loaded behind GOTCHA's back are redirected at the end of the next dlopen, if in between
    there was no gotcha_wrap (nor another dlopen): arbitrarily many loads, unloads, priority and filter
    changes.  Partial: with a gotcha_wrap in between the claim is refuted (C23_wrap_between_refuted). *)
Theorem C23_next_dlopen_partial e maps mem ops libs mem' mid st rs :
  existsb is_api ops = true -> forallb quiet mid = true ->
  process_ok e maps (ops ++ OLoad libs mem' :: mid) -> tidy maps (ops ++ OLoad libs mem' :: mid) -> run e (init_state maps mem) (ops ++ OLoad libs mem' :: mid) = Ok (st, rs) ->
  exists st', step e st OFinish = Ok (st', RNone) /\
    forall m n x w, In m libs -> accepted (p_filter (s_p st)) (p_maps (s_p st)) m -> slot relocs m n x -> outermost st' n = Ok (Some w) -> p_mem (s_p st') x = w.
Proof. intros Hi Hq P. exact (dlopen_redirects e (po_env _ _ _ P) maps mem ops libs mem' mid st rs Hi Hq P). Qed.
Print Assumptions C23_next_dlopen_partial.

(** C33: the record found for a link map is its own one.  Partial: [calm], i.e. different libraries have different hash values
    (C33_collision_refuted). *)
Theorem C33_own_record_partial e maps mem ops st rs :
  process_ok e maps ops -> calm maps ops -> run e (init_state maps mem) ops = Ok (st, rs) -> s_init st = true ->
  (forall m, In m (seen maps ops) -> exists r, get_library (s_l st) m = Ok r /\
     forall i, r = Some i -> exists lb, nth_error (l_heap (s_l st)) i = Some lb /\ lb_map lb = lm_ptr m) /\
  (forall m m' i, In m (seen maps ops) -> In m' (seen maps ops) -> get_library (s_l st) m = Ok (Some i) -> get_library (s_l st) m' = Ok (Some i) -> lm_ptr m = lm_ptr m' /\ lib_name m = lib_name m').
Proof. intros P. intros T E I. destruct (own_record e (po_env _ _ _ P) maps mem ops st rs P T E I) as [A B]. split; [exact A|]. intros m m' i H H' G G'. specialize (B m m' i H H' G G'). unfold key_of in B. injection B. auto. Qed.
Print Assumptions C33_own_record_partial.

(** C12: with main already wrapped, or wrapped by a call of its own, the functions of a gotcha_wrap call are
    redirected everywhere.  Partial: false when main is first wrapped together with other functions
    (C12_main_together_refuted). *)
Theorem C12_main_apart_partial e maps mem ops ubs tool st rs :
  (In n_main (map ub_name ubs) -> main_bound ops \/ exists u, ubs = [u]) ->
  process_ok e maps (ops ++ [OWrap ubs tool]) -> calm maps (ops ++ [OWrap ubs tool]) -> run e (init_state maps mem) ops = Ok (st, rs) ->
  exists st' r, step e st (OWrap ubs tool) = Ok (st', r) /\
    forall m n x w, accepted (p_filter (s_p st)) (p_maps (s_p st)) m -> n <> n_main -> slot relocs m n x ->
      outermost st' n = Ok (Some w) -> outermost st n <> Ok (Some w) -> p_mem (s_p st') x = w.
Proof.
  intros Hm P T E. destruct (api_redirects e (po_env _ _ _ P) maps mem ops (OWrap ubs tool) st rs eq_refl Hm P T E) as (st' & r & E' & H).
  exists st', r. split; [exact E'|]. intros m n x w Ha D Hs Hw Hn. destruct (H m n x w Ha D Hs Hw) as [|[_ Hc]]; [assumption|contradiction].
Qed.
Print Assumptions C12_main_apart_partial.
