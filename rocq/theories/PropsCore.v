(** Properties C01-C04, C06, C08-C19, C24-C27 and the link-order part of C39: wrapping, src/gotcha.c,
    src/gotcha_dl.c, src/tool.c, src/library_filters.c, src/translations.c.

    [ops] is any history of API calls, loads and unloads (CoreModel.op); [process_ok] says that the libraries
    are well-formed ELF; [fresh] says that every binding passed to gotcha_wrap has its own handle variable
    and, per function, its own wrapper. *)
From Verif Require Import Base ListFacts SpecHash HashTrace HashModel HashProofs ElfModel SpecElf ElfProofs ToolModel CoreModel SpecCore SpecRun
  ToolProofs CoreMaps CoreRel CoreLib CoreStep CoreWrap CoreLoop CoreMain CoreEnv CoreSpec CoreFacts CoreHist CoreApi CoreApi2 CoreApi3 CoreDl PropsElf.
From Coq Require Import Permutation Sorted.
From Coq Require String.
Import String.StringSyntax.
Open Scope string_scope.
Open Scope list_scope.
Open Scope Z_scope.

(** C01: the calls go through every installed wrapper exactly once ... *)
Theorem C01_stack_order : forall e maps mem ops, process_ok e maps ops -> fresh e ops ->
  exists st rs, run e (init_state maps mem) ops = Ok (st, rs) /\
  forall n, let s := stack e maps ops n in
    outermost st n = Ok (option_map en_wrapper (hd_error s)) /\
    wired st s (original e maps ops n) /\
    Permutation s (installed e ops n) /\ NoDup (map en_wrapper s) /\ NoDup (map en_handle s).
Proof.
  intros e maps mem ops P F. destruct (run_hist e maps mem ops P F) as (st & E & R). exists st, (snd (arun place (exports e) e (a0 maps) ops)). split; [exact E|]. intros n s.
  split; [apply (rel_outermost e True); auto|]. split; [apply (rel_wired e); auto|]. split; [apply stacks_installed|]. apply stack_nodup; [apply (po_env _ _ _ P)|auto].
Qed.
Print Assumptions C01_stack_order.

(** ... the order of the wrappers already installed never changes ... *)
Theorem C01_order_kept : forall e maps ops more n, subseq (stack e maps ops n) (stack e maps (ops ++ more) n).
Proof. intros e maps ops more n. unfold stack, history. rewrite arun_app. apply run_keeps_order. Qed.
Print Assumptions C01_order_kept.

(** ... and a new one, the last binding of a call after those of [l], is placed just outside the first
    wrapper whose tool has strictly lower priority. *)
Theorem C01_new_wrapper : forall e maps ops l u tool, ub_name u <> n_main \/ main_bound (ops ++ [OWrap l tool]) ->
  let before := stack e maps (ops ++ [OWrap l tool]) in
  let after := stack e maps (ops ++ [OWrap (l ++ [u]) tool]) in
  let x := mkE (tool_name tool) (ub_wrapper u) (ub_handle u) in
  (forall n, n <> ub_name u -> after n = before n) /\
  exists l1 l2, before (ub_name u) = l1 ++ l2 /\ after (ub_name u) = l1 ++ x :: l2 /\
    (forall y, In y l1 -> last_set ops (tool_name tool) <= last_set ops (en_tool y)) /\
    match l2 with [] => True | y :: _ => last_set ops (en_tool y) < last_set ops (tool_name tool) end.
Proof. exact new_wrapper. Qed.
Print Assumptions C01_new_wrapper.

(** The first wrapper of main comes together with GOTCHA's own one. *)
Theorem C01_first_main : forall e maps ops l u tool, ub_name u = n_main -> ~ main_bound (ops ++ [OWrap l tool]) ->
  let x := mkE (tool_name tool) (ub_wrapper u) (ub_handle u) in
  let own := mkE n_gotcha (e_w_main e) (e_h_main e) in
  stack e maps (ops ++ [OWrap l tool]) n_main = [] /\
  stack e maps (ops ++ [OWrap (l ++ [u]) tool]) n_main =
    if last_set ops n_gotcha <? last_set ops (tool_name tool) then [x; own] else [own; x].
Proof. exact first_main. Qed.
Print Assumptions C01_first_main.

(** C02 *)
Theorem C02_higher_priority_outside : forall e maps mem ops, process_ok e maps ops -> fresh e ops -> priorities_first ops ->
  exists st rs, run e (init_state maps mem) ops = Ok (st, rs) /\
  forall n, exists s orig, outermost st n = Ok (option_map en_wrapper (hd_error s)) /\ wired st s orig /\
    Permutation s (installed e ops n) /\ StronglySorted (outside_by (last_set ops) (installed e ops n)) s.
Proof.
  intros e maps mem ops P F H. destruct (C01_stack_order e maps mem ops P F) as (st & rs & E & HS). exists st, rs. split; [exact E|]. intros n.
  destruct (HS n) as (A & B & C & _). exists (stack e maps ops n), (original e maps ops n). split; [exact A|]. split; [exact B|]. split; [exact C|]. apply stack_sorted. auto.
Qed.
Print Assumptions C02_higher_priority_outside.

(** C04: once GOTCHA is initialised gotcha_set_priority changes nothing but the tools; see C24 for the
    effect on the tools and C01_new_wrapper for that on later bindings. *)
Theorem C04_set_priority_frame : forall e maps mem ops t v st rs,
  process_ok e maps ops -> run e (init_state maps mem) ops = Ok (st, rs) -> existsb is_api ops = true ->
  exists st', step e st (OSetPriority t v) = Ok (st', RCode GOTCHA_SUCCESS) /\ s_p st' = s_p st /\ s_l st' = s_l st /\
    (forall h, gotcha_get_wrappee st' h = gotcha_get_wrappee st h) /\ (forall n, outermost st' n = outermost st n) /\
    b_ib (s_b st') = b_ib (s_b st) /\ b_tables (s_b st') = b_tables (s_b st).
Proof. exact set_priority_frame'. Qed.
Print Assumptions C04_set_priority_frame.

(** C06: in any history, fresh or not *)
Theorem C06_writes_only_slots : forall e maps mem ops o st rs,
  process_ok e maps (ops ++ [o]) -> gotcha_op o -> run e (init_state maps mem) ops = Ok (st, rs) ->
  exists st' r, step e st o = Ok (st', r) /\ p_maps (s_p st') = p_maps (s_p st) /\ p_filter (s_p st') = p_filter (s_p st) /\
   forall x, p_mem (s_p st') x = p_mem (s_p st) x \/
    exists m n w, accepted (p_filter (s_p st)) (p_maps (s_p st)) m /\ slot relocs m n x /\
                  In w (installed e (ops ++ [o]) n) /\ p_mem (s_p st') x = en_wrapper w.
Proof. exact step_memory. Qed.
Print Assumptions C06_writes_only_slots.

(** C18: slots of a rejected library, unless they are also slots of an accepted one (loaded libraries do
    not overlap) *)
Theorem C18_rejected_untouched : forall e maps mem ops o st rs m n x,
  process_ok e maps (ops ++ [o]) -> gotcha_op o -> run e (init_state maps mem) ops = Ok (st, rs) ->
  slot relocs m n x -> ~ accepted (p_filter (s_p st)) (p_maps (s_p st)) m ->
  (forall m' n', slot relocs m' n' x -> accepted (p_filter (s_p st)) (p_maps (s_p st)) m' -> m' = m) ->
  exists st' r, step e st o = Ok (st', r) /\ p_mem (s_p st') x = p_mem (s_p st) x.
Proof.
  intros e maps mem ops o st rs m n x P G E S NA D. destruct (step_memory e maps mem ops o st rs P G E) as (st' & r & E1 & _ & _ & H). exists st', r. split; [exact E1|].
  destruct (H x) as [Hx|(m' & n' & w & A & B & _)]; [exact Hx|]. exfalso. apply NA. rewrite <- (D m' n' B A). exact A.
Qed.
Print Assumptions C18_rejected_untouched.

(** C08 *)
Theorem C08_bound_at_dlopen : forall e maps mem ops st rs,
  process_ok e maps ops -> fresh e ops -> run e (init_state maps mem) ops = Ok (st, rs) ->
  exists st', step e st OFinish = Ok (st', RNone) /\
  forall n, outermost st' n = outermost st n /\ wired st (stack e maps ops n) (original e maps ops n) /\
    wired st' (stack e maps ops n)
      (match original e maps ops n with Some x => Some x | None => first_export (exports e) (maps_after maps ops) n end).
Proof. exact finish_resolves. Qed.
Print Assumptions C08_bound_at_dlopen.

(** C09: when exactly the code returns GOTCHA_FUNCTION_NOT_FOUND: some binding other than main is the first
    one of its name ever and no loaded library exports it. *)
Theorem C09_return_code_partial : forall e maps mem ops ubs tool st rs,
  process_ok e maps ops -> run e (init_state maps mem) ops = Ok (st, rs) ->
  exists st' c, gotcha_wrap e st ubs tool = Ok (st', c) /\ (c = GOTCHA_SUCCESS \/ c = GOTCHA_FUNCTION_NOT_FOUND) /\
   (c = GOTCHA_FUNCTION_NOT_FOUND <->
    exists l1 u l2, ubs = l1 ++ u :: l2 /\ ub_name u <> n_main /\ ~ wrapped e (ops ++ [OWrap l1 tool]) (ub_name u) /\
      first_export (exports e) (maps_after maps ops) (ub_name u) = None).
Proof. exact wrap_code. Qed.
Print Assumptions C09_return_code_partial.

(** C10 *)
Theorem C10_innermost_wrappee : forall e maps mem ops, process_ok e maps ops -> fresh e ops ->
  exists st rs, run e (init_state maps mem) ops = Ok (st, rs) /\
  forall n s x, stack e maps ops n = s ++ [x] ->
    (forall a, gotcha_get_wrappee st (en_handle x) = Ok (Ptr a) <-> found_first e (exports e) maps ops n a) /\
    (gotcha_get_wrappee st (en_handle x) = Ok Uninit <-> forall a, ~ found_first e (exports e) maps ops n a).
Proof. exact innermost_wrappee. Qed.
Print Assumptions C10_innermost_wrappee.

Theorem C10_original_stays : forall e maps ops more n a,
  found_first e (exports e) maps ops n a -> found_first e (exports e) maps (ops ++ more) n a.
Proof. exact found_stays. Qed.
Print Assumptions C10_original_stays.

(** C13: GOTCHA's __libc_start_main calls the next one and hands it the next function after GOTCHA's main, which is also what
    GOTCHA's main calls.  So the wrappers of main that are entered are those inside GOTCHA's own one; these are all of them if
    no tool has a priority above the default one. *)
Theorem C13_main_entry : forall e maps mem ops, process_ok e maps ops -> fresh e ops -> main_bound ops ->
  exists st rs l1 l2 x l3 l4, run e (init_state maps mem) ops = Ok (st, rs) /\
    stack e maps ops n_main = l1 ++ mkE n_gotcha (e_w_main e) (e_h_main e) :: l2 /\
    stack e maps ops n_libc_start_main = l3 ++ x :: l4 /\ en_wrapper x = e_w_libc e /\ en_handle x = e_h_libc e /\
    let next := match l2 with
                | y :: _ => Ptr (en_wrapper y)
                | [] => match original e maps ops n_main with Some a => Ptr a | None => Uninit end
                end in
    internal_main_target e st = Ok next /\
    internal_libc_start_main e st =
      Ok (match l4 with
          | y :: _ => Ptr (en_wrapper y)
          | [] => match original e maps ops n_libc_start_main with Some a => Ptr a | None => Uninit end
          end, next) /\
    wired st l2 (original e maps ops n_main) /\ wired st l4 (original e maps ops n_libc_start_main).
Proof. exact main_entry. Qed.
Print Assumptions C13_main_entry.

Theorem C13_main_wrappers_entered_partial : forall e maps mem ops, process_ok e maps ops -> fresh e ops -> main_bound ops ->
  (forall t v, In (OSetPriority t v) ops -> t <> n_gotcha /\ v <= -1) ->
  exists st rs l2 x w, run e (init_state maps mem) ops = Ok (st, rs) /\
    hd_error l2 = Some x /\ Permutation (mkE n_gotcha (e_w_main e) (e_h_main e) :: l2) (installed e ops n_main) /\
    internal_libc_start_main e st = Ok (w, Ptr (en_wrapper x)) /\
    wired st l2 (original e maps ops n_main).
Proof.
  intros e maps mem ops P F M HP. destruct (main_entry e maps mem ops P F M) as (st & rs & l1 & l2 & x0 & l3 & l4 & E & Hs & _ & _ & _ & _ & Hm & W & _).
  destruct (main_head e maps ops HP M) as [r Hr]. pose proof (proj2 (stack_nodup e maps ops n_main (po_env _ _ _ P) F)) as ND.
  assert (l1 = [] /\ l2 = r) as [-> ->].
  { rewrite Hr in Hs, ND. destruct l1 as [|y l1]; [injection Hs as Hs; auto|]. injection Hs as <- Hs. rewrite Hs in ND. cbn [map] in ND. exfalso. inversion ND as [|? ? N1 N2]. apply N1. change (e_h_main e) with (en_handle (own_main e)). apply in_map. apply in_elt. }
  assert (Pm : Permutation (own_main e :: r) (installed e ops n_main)) by (rewrite <- Hr; apply stacks_installed).
  destruct r as [|x r].
  - exfalso. apply Permutation_length_1_inv in Pm. assert (Hin : In n_main (map ub_name (user_binds ops))) by exact M.
    apply in_map_iff in Hin. destruct Hin as (u & Hu1 & Hu2).
    assert (Ht : In u (map trip (installs e false false ops))) by (eapply Permutation_in; [apply Permutation_sym, installs_perm|]; apply in_or_app; auto).
    apply in_map_iff in Ht. destruct Ht as ([n y] & Ht1 & Ht2). subst u. cbn [trip ub_name fst] in Hu1. subst n.
    assert (Hy : In y (installed e ops n_main)) by (unfold installed; apply in_sel; auto). rewrite Pm in Hy. destruct Hy as [<-|[]].
    destruct (fr_internal _ _ F _ Hu2) as [Hh _]. apply Hh. unfold internal_handles. cbn. auto.
  - exists st, rs, (x :: r), x. eexists. split; [exact E|]. split; [reflexivity|]. split; [exact Pm|]. split; [exact Hm|exact W].
Qed.
Print Assumptions C13_main_wrappers_entered_partial.

(** C14 *)
Theorem C14_handles_stable : forall e maps mem ops more, process_ok e maps (ops ++ more) -> fresh e (ops ++ more) ->
  exists st rs st' rs', run e (init_state maps mem) ops = Ok (st, rs) /\ run e st more = Ok (st', rs') /\
  forall n x, In x (installed e ops n) ->
    exists i, denotes st (en_handle x) i n x /\ denotes st' (en_handle x) i n x.
Proof. exact handles_stable. Qed.
Print Assumptions C14_handles_stable.

(** C15, for functions wrapped by a single tool (see the refutation below); also if the real dlsym finds
    nothing *)
Theorem C15_dlsym_wrapped_partial : forall e maps mem ops st rs w h n x a,
  process_ok e maps ops -> fresh e ops -> existsb is_api ops = true -> run e (init_state maps mem) ops = Ok (st, rs) ->
  installed e ops n = [x] -> found_first e (exports e) maps ops n a -> dw_dlsym w h n = a \/ dw_dlsym w h n = 0 ->
  dlsym_wrapper e w st h n = Ok (DReturn (en_wrapper x)) /\ outermost st n = Ok (Some (en_wrapper x)).
Proof.
  intros e maps mem ops st rs w h n x a P F A E Hx Hf Hd. pose proof (stacks_installed e (exports e) maps ops n) as Pm. rewrite Hx in Pm. fold (history e maps ops) in Pm. fold (stack e maps ops n) in Pm.
  apply Permutation_sym, Permutation_length_1_inv in Pm. destruct (dlsym_eq e maps mem ops st rs w h n P F A E) as [i Ed]. rewrite Ed, Pm.
  apply original_found in Hf. rewrite Hf. split.
  - cbn. destruct Hd as [-> | ->]; rewrite Z.eqb_refl; [rewrite orb_true_r|]; reflexivity.
  - destruct (dl_handles e maps mem ops st rs P F A E) as (R & _). rewrite (rel_outermost e True st _ n R). fold (stack e maps ops n). rewrite Pm. reflexivity.
Qed.
Print Assumptions C15_dlsym_wrapped_partial.

(** C16 (the model's dlsym_wrapper does not change GOTCHA's state: it returns none) *)
Theorem C16_dlsym_transparent : forall e maps mem ops st rs w h n,
  process_ok e maps ops -> fresh e ops -> existsb is_api ops = true -> run e (init_state maps mem) ops = Ok (st, rs) ->
  ~ wrapped e ops n -> h <> 18446744073709551615 -> dlsym_wrapper e w st h n = Ok (DReturn (dw_dlsym w h n)).
Proof.
  intros e maps mem ops st rs w h n P F A E NW Hh. destruct (dlsym_eq e maps mem ops st rs w h n P F A E) as [i Ed]. rewrite Ed.
  assert (Es : stack e maps ops n = []) by (apply (stack_empty e (exports e) place place_ne maps ops n); auto). rewrite Es. unfold plain_dlsym. destruct (Z.eqb_spec h RTLD_NEXT); [contradiction|reflexivity].
Qed.
Print Assumptions C16_dlsym_transparent.

Theorem C16_dlsym_other_function : forall e maps mem ops st rs w h n a,
  process_ok e maps ops -> fresh e ops -> existsb is_api ops = true -> run e (init_state maps mem) ops = Ok (st, rs) ->
  found_first e (exports e) maps ops n a -> h <> 18446744073709551615 ->
  dw_dlsym w h n <> 0 -> dw_dlsym w h n <> a -> ~ In (dw_dlsym w h n) (map en_wrapper (installed e ops n)) ->
  dlsym_wrapper e w st h n = Ok (DReturn (dw_dlsym w h n)).
Proof.
  intros e maps mem ops st rs w h n a P F A E Hf Hh H0 Ha Hw. destruct (dlsym_eq e maps mem ops st rs w h n P F A E) as [i Ed]. rewrite Ed.
  apply original_found in Hf. rewrite Hf. assert (HP : plain_dlsym e w st h n = Ok (DReturn (dw_dlsym w h n))) by (unfold plain_dlsym; destruct (Z.eqb_spec h RTLD_NEXT); [contradiction|reflexivity]).
  destruct (stack e maps ops n) as [|x r] eqn:Es; [exact HP|]. cbn zeta.
  assert (Hin : forall y, In y (stack e maps ops n) -> en_wrapper y <> dw_dlsym w h n).
  { intros y Hy Ey. apply Hw. rewrite <- Ey. apply in_map. eapply Permutation_in; [apply stacks_installed|exact Hy]. }
  destruct (Z.eqb_spec (dw_dlsym w h n) 0); [contradiction|]. cbn [orb].
  destruct r as [|y r].
  - destruct (Z.eqb_spec a (dw_dlsym w h n)); [congruence|exact HP].
  - destruct (Z.eqb_spec (en_wrapper y) (dw_dlsym w h n)) as [Ey|Ey]; [|exact HP]. exfalso. apply (Hin y); [rewrite Es; cbn; auto|exact Ey].
Qed.
Print Assumptions C16_dlsym_other_function.

(** C17: [after] are the link maps after the caller's one *)
Theorem C17_dlsym_next : forall e maps mem ops st rs w n m after,
  process_ok e maps ops -> fresh e ops -> existsb is_api ops = true -> run e (init_state maps mem) ops = Ok (st, rs) ->
  ~ wrapped e ops n -> caller_in e st w m after ->
  dlsym_wrapper e w st 18446744073709551615 n =
    Ok (DReturn (match find (fun l => match exports e l n with Some _ => true | None => false end) after with
                 | Some lib => dw_dlsym w (dw_dlopen w (lm_name lib)) n
                 | None => 0
                 end)).
Proof. exact dlsym_next. Qed.
Print Assumptions C17_dlsym_next.

(** C19: which libraries each filter accepts ... *)
Theorem C19_filters : forall maps m,
  (accepted FAlways maps m <-> In m maps) /\
  (accepted FLast maps m <-> exists pre, maps = pre ++ [m]) /\
  (forall s nm, lm_name m = Some nm -> (accepted (FName (Some s)) maps m <-> In m maps /\ substring s nm)) /\
  (forall p, accepted (FUser p) maps m <-> exists pre rest, maps = pre ++ m :: rest /\ p m rest = true) /\
  ~ accepted (FName None) maps m.
Proof.
  intros maps m. unfold accepted. cbn [filter_func]. split; [|split; [|split; [|split]]].
  - split; [intros (pre & rest & -> & _); apply in_elt|]. intros H. apply in_split in H. destruct H as (l1 & l2 & ->). eauto.
  - split; [intros (pre & [|] & -> & H); [eauto|discriminate]|]. intros (pre & ->). exists pre, []. auto.
  - intros s nm Hn. rewrite Hn, <- strstr_spec. split.
    + intros (pre & rest & -> & H). split; [apply in_elt|]. injection H as H. exact H.
    + intros [H1 H2]. apply in_split in H1. destruct H1 as (l1 & l2 & ->). exists l1, l2. rewrite H2. auto.
  - intros p. split; intros (pre & rest & E & H); exists pre, rest; (split; [exact E|]); [injection H; auto|rewrite H; auto].
  - intros (pre & rest & _ & H). discriminate H.
Qed.
Print Assumptions C19_filters.

(** ... and the last one set is in force (FAlways if none). *)
Theorem C19_latest_filter : forall e maps mem ops, process_ok e maps ops ->
  exists st rs, run e (init_state maps mem) ops = Ok (st, rs) /\ p_filter (s_p st) = last_filter ops.
Proof. exact run_filter. Qed.
Print Assumptions C19_latest_filter.

(** C24, C25: in any history *)
Lemma last_set_none t ops : (forall v, ~ In (OSetPriority t v) ops) -> forall v, fold_left (set_last t) ops v = v.
Proof.
  induction ops as [|o r IH]; intros H v; cbn; [auto|]. rewrite IH; [|intros v' Hin; apply (H v'); right; auto].
  destruct o; cbn; auto. destruct (cstr_eqb tool t) eqn:E; [|auto]. apply cstr_eqb_ok in E. subst. exfalso. apply (H value). left. auto.
Qed.
Theorem C24_read_back : forall e maps mem l1 t v l2,
  process_ok e maps (l1 ++ OSetPriority t v :: l2 ++ [OGetPriority t]) -> (forall v', ~ In (OSetPriority t v') l2) ->
  exists st rs, run e (init_state maps mem) (l1 ++ OSetPriority t v :: l2 ++ [OGetPriority t]) =
    Ok (st, rs ++ [RPrio GOTCHA_SUCCESS (Some v)]).
Proof.
  intros e maps mem l1 t v l2 P H. destruct (run_any e maps mem _ P) as (st & E & _). exists st, (snd (arun ins_c (exports e) e (a0 maps) (l1 ++ OSetPriority t v :: l2))).
  rewrite E. f_equal. f_equal. rewrite app_comm_cons, app_assoc, get_result.
  assert (U : used ((l1 ++ OSetPriority t v :: l2) ++ [OGetPriority t]) t = true).
  { unfold used. rewrite !existsb_app. cbn [existsb uses]. rewrite cstr_eqb_refl. cbn. rewrite orb_true_r. auto. }
  rewrite U. f_equal. f_equal. f_equal. f_equal. unfold last_set. rewrite fold_left_app. cbn [fold_left set_last]. rewrite cstr_eqb_refl. apply last_set_none. auto.
Qed.
Print Assumptions C24_read_back.

Theorem C24_default : forall e maps mem ops t,
  process_ok e maps (ops ++ [OGetPriority t]) -> (forall v', ~ In (OSetPriority t v') ops) ->
  (exists ubs tool, In (OWrap ubs tool) ops /\ tool_name tool = t) ->
  exists st rs, run e (init_state maps mem) (ops ++ [OGetPriority t]) = Ok (st, rs ++ [RPrio GOTCHA_SUCCESS (Some (-1))]).
Proof.
  intros e maps mem ops t P H (ubs & tool & Hin & Ht). destruct (run_any e maps mem _ P) as (st & E & _). exists st, (snd (arun ins_c (exports e) e (a0 maps) ops)).
  rewrite E. f_equal. f_equal. rewrite get_result.
  assert (U : used (ops ++ [OGetPriority t]) t = true).
  { unfold used. rewrite existsb_app. apply orb_true_iff. left. apply existsb_exists. eexists. split; [exact Hin|]. cbn. rewrite Ht, cstr_eqb_refl. auto. }
  rewrite U. f_equal. f_equal. f_equal. f_equal. apply last_set_none. auto.
Qed.
Print Assumptions C24_default.

(** one tool's priority is not changed by operations on others (and wrapping, loading, ...) *)
Theorem C24_other_tools : forall e maps mem ops more t,
  process_ok e maps (ops ++ more ++ [OGetPriority t]) -> used ops t = true -> (forall v', ~ In (OSetPriority t v') more) ->
  exists st rs st' rs' r, run e (init_state maps mem) (ops ++ [OGetPriority t]) = Ok (st, rs ++ [r]) /\
    run e (init_state maps mem) (ops ++ more ++ [OGetPriority t]) = Ok (st', rs' ++ [r]) /\ r = RPrio GOTCHA_SUCCESS (Some (last_set ops t)).
Proof.
  intros e maps mem ops more t P U H.
  assert (P1 : process_ok e maps (ops ++ [OGetPriority t])).
  { destruct P as [P1 P2 P3]. constructor; auto. intros o m Ho Hm. apply in_app_or in Ho. destruct Ho as [Ho|[<-|[]]]; [|destruct Hm]. eapply P3; [apply in_or_app; left; eauto|auto]. }
  destruct (run_any e maps mem _ P1) as (st & E & _). destruct (run_any e maps mem _ P) as (st' & E' & _).
  exists st, (snd (arun ins_c (exports e) e (a0 maps) ops)), st', (snd (arun ins_c (exports e) e (a0 maps) (ops ++ more))), (RPrio GOTCHA_SUCCESS (Some (last_set ops t))).
  rewrite E, E'. split; [|split; [|auto]]; f_equal; f_equal; rewrite ?app_assoc, get_result.
  - assert (U1 : used (ops ++ [OGetPriority t]) t = true) by (unfold used in *; rewrite existsb_app, U; auto). rewrite U1. auto.
  - assert (U1 : used ((ops ++ more) ++ [OGetPriority t]) t = true) by (unfold used in *; rewrite !existsb_app, U; auto). rewrite U1.
    unfold last_set at 1. rewrite fold_left_app. rewrite last_set_none by auto. auto.
Qed.
Print Assumptions C24_other_tools.

Theorem C25_unknown_tools : forall e maps mem ops t, process_ok e maps (ops ++ [OGetPriority t]) ->
  exists st rs r, run e (init_state maps mem) (ops ++ [OGetPriority t]) = Ok (st, rs ++ [r]) /\
    (r = RPrio GOTCHA_INVALID_TOOL None <-> t <> n_gotcha /\ (forall v, ~ In (OSetPriority t v) ops) /\ (forall ubs tool, In (OWrap ubs tool) ops -> tool_name tool <> t)) /\
    (r = RPrio GOTCHA_INVALID_TOOL None \/ exists v, r = RPrio GOTCHA_SUCCESS (Some v)).
Proof.
  intros e maps mem ops t P. destruct (run_any e maps mem _ P) as (st & E & _). rewrite get_result in E. eexists st, _, _. split; [exact E|].
  assert (U : used (ops ++ [OGetPriority t]) t = false <-> t <> n_gotcha /\ (forall v, ~ In (OSetPriority t v) ops) /\ (forall ubs tool, In (OWrap ubs tool) ops -> tool_name tool <> t)).
  { unfold used. rewrite existsb_app. cbn [existsb uses]. rewrite orb_false_r, orb_false_iff. split.
    - intros [H1 H2]. assert (Hg : t <> n_gotcha) by (intros ->; rewrite cstr_eqb_refl in H2; discriminate). split; [exact Hg|].
      assert (HN : forall o, In o ops -> uses t o = false).
      { intros o Ho. destruct (uses t o) eqn:Eu; [|auto]. assert (existsb (uses t) ops = true) by (apply existsb_exists; eauto). congruence. }
      split.
      + intros v Hv. apply HN in Hv. cbn in Hv. rewrite cstr_eqb_refl in Hv. discriminate.
      + intros ubs tool Hw Ht. apply HN in Hw. cbn in Hw. rewrite Ht, cstr_eqb_refl in Hw. discriminate.
    - intros (Hg & H1 & H2). assert (Hg' : cstr_eqb n_gotcha t = false) by (apply cstr_eqb_neq; auto). split; [|auto].
      destruct (existsb (uses t) ops) eqn:Ex; [|auto]. apply existsb_exists in Ex. destruct Ex as (o & O1 & O2).
      destruct o as [ubs tool|t' v|t'|f|libs mem'| |keep mem']; cbn [uses] in O2; rewrite ?Hg', ?orb_false_r in O2; try discriminate; apply cstr_eqb_ok in O2.
      + exfalso. eapply H2; eauto.
      + subst t'. exfalso. eapply H1; eauto. }
  rewrite <- U. destruct (used (ops ++ [OGetPriority t]) t).
  - split; [split; discriminate|right; eauto].
  - split; [split; auto|left; auto].
Qed.
Print Assumptions C25_unknown_tools.

(** C26: in any history *)
Theorem C26_registry : forall e maps mem ops, process_ok e maps ops ->
  exists st rs tl, run e (init_state maps mem) ops = Ok (st, rs) /\
    tlist (ts_heap (b_tools (s_b st))) (ts_head (b_tools (s_b st))) tl /\
    NoDup (map t_name tl) /\ (forall t, In t (map t_name tl) <-> used ops t = true) /\
    StronglySorted Z.le (map t_prio tl) /\ (forall t, In t tl -> t_prio t = last_set ops (t_name t)).
Proof. exact registry. Qed.
Print Assumptions C26_registry.

(** C27: any history, fresh or not: no fault, every loop ends, recursion depth at most two below the
    user's call (deeper recursion is a fault of the model) *)
Theorem C27_no_faults : forall e maps mem ops, process_ok e maps ops -> exists st rs, run e (init_state maps mem) ops = Ok (st, rs) /\ length rs = length ops.
Proof.
  intros e maps mem ops P. destruct (run_any e maps mem ops P) as (st & E & _). eexists st, _. split; [exact E|].
  clear. generalize (a0 maps). induction ops as [|o r IH]; intros a; cbn [arun]; [auto|]. destruct (astep ins_c (exports e) e a o) as [a1 x]. specialize (IH a1). destruct (arun ins_c (exports e) e a1 r). cbn in *. auto.
Qed.
Print Assumptions C27_no_faults.

Theorem C27_dlsym_no_faults : forall e maps mem ops st rs w h n,
  process_ok e maps ops -> fresh e ops -> existsb is_api ops = true -> run e (init_state maps mem) ops = Ok (st, rs) ->
  exists r, dlsym_wrapper e w st h n = Ok r.
Proof. exact dlsym_total. Qed.
Print Assumptions C27_dlsym_no_faults.

(** any byte names: as if the GNU tables did not list the names that are not plain *)
Theorem C39_link_order_law : forall e maps mem ops, process_ok e maps ops -> fresh e ops ->
  exists st rs, run e (init_state maps mem) ops = Ok (st, rs) /\
  forall n s x a, Forall (fun c => 0 <= c <= 255) n -> stack e maps ops n = s ++ [x] -> gotcha_get_wrappee st (en_handle x) = Ok (Ptr a) ->
  exists l1 o l2 pre m post es i sym, ops = l1 ++ o :: l2 /\ maps_after maps (l1 ++ [o]) = pre ++ m :: post /\
    e_vdso e m = false /\ wf_lookup m es /\ found_result m es n (Some i) /\
    nth_error (l_syms m es) (Z.to_nat i) = Some sym /\ 0 < st_size sym /\ a = (st_value sym + lm_addr m) mod 2 ^ 64 /\
    forall m', In m' pre -> e_vdso e m' = true \/
      exists es' r', wf_lookup m' es' /\ found_result m' es' n r' /\
        match r' with Some i' => symbol_address m' es' i' = None | None => True end.
Proof.
  intros e maps mem ops P F. destruct (innermost_wrappee e maps mem ops P F) as (st & rs & E & H). exists st, rs. split; [exact E|].
  intros n s x a Ha Hs Hw. apply (proj1 (H n s x Hs)) in Hw. destruct Hw as (l1 & o & l2 & -> & _ & Hf & _).
  apply first_export_split in Hf. destruct Hf as (pre & m & post & Em & Hm & Hp).
  assert (P1 : process_ok e maps (l1 ++ [o])) by (apply (process_app e maps (l1 ++ [o]) l2); rewrite <- app_assoc; exact P).
  assert (HW : forall m', In m' (pre ++ m :: post) -> lib_wf m') by (intros m' Hm'; apply (maps_after_wf e maps (l1 ++ [o]) P1); rewrite Em; exact Hm').
  destruct (export_meaning e m n (HW m (in_elt _ _ _)) Ha) as [[_ X]|(V & es & r & W & R & X)]; [congruence|].
  destruct r as [i|]; [|congruence]. rewrite Hm in X. unfold symbol_address in X.
  destruct (nth_error (l_syms m es) (Z.to_nat i)) as [sym|] eqn:Esym; [|discriminate].
  exists l1, o, l2, pre, m, post, es, i, sym. split; [auto|]. split; [auto|]. split; [auto|]. split; [auto|]. split; [auto|]. split; [auto|].
  destruct (0 <? st_size sym) eqn:Ez; [|discriminate]. apply Z.ltb_lt in Ez. split; [auto|]. injection X as X. split; [exact X|].
  intros m' Hm'. destruct (export_meaning e m' n) as [[V' _]|(V' & es' & r' & W' & R' & X')]; [apply HW; apply in_or_app; auto|auto|auto|].
  right. exists es', r'. split; [auto|]. split; [auto|]. destruct r'; [|auto]. rewrite <- X'. apply Hp. auto.
Qed.
Print Assumptions C39_link_order_law.

(** C39: [first_export] used above is the first library in link order that exports the name, and what
    exporting means (plain names, e.g. ASCII ones; the per-library part is C39_library_lookup) *)
Theorem C39_link_order : forall e maps mem ops, process_ok e maps ops -> fresh e ops ->
  exists st rs, run e (init_state maps mem) ops = Ok (st, rs) /\
  forall n s x a, plain n -> stack e maps ops n = s ++ [x] -> gotcha_get_wrappee st (en_handle x) = Ok (Ptr a) ->
  exists l1 o l2 pre m post es i sym, ops = l1 ++ o :: l2 /\ maps_after maps (l1 ++ [o]) = pre ++ m :: post /\
    e_vdso e m = false /\ wf_lookup m es /\ symbol_result m es n (Some i) /\
    nth_error (l_syms m es) (Z.to_nat i) = Some sym /\ 0 < st_size sym /\ a = (st_value sym + lm_addr m) mod 2 ^ 64 /\
    forall m', In m' pre -> e_vdso e m' = true \/
      exists es' r', wf_lookup m' es' /\ symbol_result m' es' n r' /\
        match r' with Some i' => symbol_address m' es' i' = None | None => True end.
Proof.
  intros e maps mem ops P F. destruct (C39_link_order_law e maps mem ops P F) as (st & rs & E & H). exists st, rs. split; [exact E|].
  intros n s x a [Hb Hp] Hs Hw. specialize (H n s x a Hb Hs Hw). unfold found_result in H. rewrite Hp in H. exact H.
Qed.
Print Assumptions C39_link_order.
