(** Tools and the calls that set priorities (C83). *)
From Verif Require Import Base HashModel HashProofs ElfModel ToolModel CoreModel SpecCore SpecRun SpecTools CoreMaps CoreHist CoreEnv CoreApi ToolsProofs
  PropsElf Demo PropsCoreEx PropsSyncEx.
From Coq Require String.
Import String.StringSyntax.
Open Scope string_scope.
Open Scope list_scope.
Open Scope Z_scope.

(** Two runs do the same: they fault in the same way, or in neither does anything fault, the calls that do not concern priorities report the same,
    and everything but the registered tools is the same afterwards. *)
Definition alike (ops ops' : list op) (o o' : outcome (state * list res)) : Prop :=
  match o, o' with
  | Ok (st, rs), Ok (st', rs') => other_results ops rs = other_results ops' rs' /\ same_effects st st'
  | Fault k, Fault k' => k = k'
  | _, _ => False
  end.

(** C83: A tool is no more than its place in the order of priorities at the moment something is wrapped.  Two histories with the same wrappings,
    filters and loads do the same, whichever tools they use and however, whenever and how often they set or ask for priorities,
    if the tools that have wrapped something are in the same order whenever something is wrapped. *)
Theorem C83_order_of_tools : forall e maps mem ops ops' ps, 48 <= e_ps e -> paired ops ops' ps ->
  alike ops ops' (run e (init_state maps mem) ops) (run e (init_state maps mem) ops').
Proof.
  intros e maps mem ops ops' ps PS H. pose proof (pair_run e maps mem ops ops' ps PS H) as X. unfold alike.
  destruct (run e (init_state maps mem) ops) as [[st rs]|], (run e (init_state maps mem) ops') as [[st' rs']|]; cbn [orel] in X; auto.
  destruct X as ([R _ _ _ _] & O & _). split; [exact O|]. eapply RS_effects; exact R.
Qed.
Print Assumptions C83_order_of_tools.

(** What the process can observe of this: *)
Theorem C83_observed : forall e maps mem ops ops' ps st rs, 48 <= e_ps e -> paired ops ops' ps -> run e (init_state maps mem) ops = Ok (st, rs) ->
  exists st' rs', run e (init_state maps mem) ops' = Ok (st', rs') /\ other_results ops' rs' = other_results ops rs /\
  (forall x, p_mem (s_p st') x = p_mem (s_p st) x) /\ p_log (s_p st') = p_log (s_p st) /\
  (forall n, outermost st' n = outermost st n) /\ (forall h, gotcha_get_wrappee st' h = gotcha_get_wrappee st h) /\
  (forall w h n, dlsym_wrapper e w st' h n = dlsym_wrapper e w st h n) /\
  internal_main_target e st' = internal_main_target e st /\ internal_libc_start_main e st' = internal_libc_start_main e st.
Proof.
  intros e maps mem ops ops' ps st rs PS H E. pose proof (C83_order_of_tools e maps mem ops ops' ps PS H) as X. rewrite E in X. unfold alike in X.
  destruct (run e (init_state maps mem) ops') as [[st' rs']|]; [|contradiction]. destruct X as [O [A B C D T1 T2 T3 T4 T5 T6]]. exists st', rs'. split; [reflexivity|]. split; [auto|].
  assert (W : forall h, gotcha_get_wrappee st' h = gotcha_get_wrappee st h) by (intros h; unfold gotcha_get_wrappee; rewrite T3, T4; reflexivity).
  assert (M : forall n, outermost st' n = outermost st n) by (intros n; unfold outermost; rewrite A, T3, T5; reflexivity).
  assert (DL : forall w h n, dlsym_wrapper e w st' h n = dlsym_wrapper e w st h n) by (intros w h n; unfold dlsym_wrapper; rewrite ?W, ?D, ?T3, ?T4, ?T5; reflexivity).
  repeat split; auto; try (rewrite D; reflexivity); unfold internal_main_target, internal_libc_start_main; rewrite ?W, ?D, ?B; reflexivity.
Qed.
Print Assumptions C83_observed.

(** Between two wrappings only the priorities in force in the end count, not the calls that brought them about. *)
Theorem C83_only_the_last : forall e maps mem l1 q q' l2, 48 <= e_ps e -> existsb is_api l1 = true -> forallb is_prio q = true -> forallb is_prio q' = true ->
  (forall t, last_set (l1 ++ q) t = last_set (l1 ++ q') t) ->
  alike ((l1 ++ q) ++ l2) ((l1 ++ q') ++ l2) (run e (init_state maps mem) ((l1 ++ q) ++ l2)) (run e (init_state maps mem) ((l1 ++ q') ++ l2)).
Proof.
  intros e maps mem l1 q q' l2 PS A Q Q' E. destruct (paired_refl l1) as (ps & H & T). destruct (paired_tail l2 _ _ ps (paired_prio q q' l1 ps H A Q Q') T E) as (ps' & X & _).
  eapply C83_order_of_tools; eassumption.
Qed.
Print Assumptions C83_only_the_last.

(** As long as no priority is set it does not matter which tools call gotcha_wrap, nor how many there are. *)
Theorem C83_no_priorities : forall e maps mem ops ops', 48 <= e_ps e ->
  Forall2 (fun o o' => match o, o' with OWrap u _, OWrap u' _ => u = u' | OSetPriority _ _, _ => False | _, _ => o = o' end) ops ops' ->
  alike ops ops' (run e (init_state maps mem) ops) (run e (init_state maps mem) ops').
Proof.
  intros e maps mem ops ops' PS F. destruct (paired_anyone ops ops' F [] [] _ pa_nil) as (ps & X); try reflexivity. cbn [app] in X. eapply C83_order_of_tools; eassumption.
Qed.
Print Assumptions C83_no_priorities.

(** Two tools in one history, three in the other, with other priorities, set at other times and more than once. *)
Definition n_c83 : cstr := of_string "third".
Definition hist83 : list op := [OWrap [mkUB f_name 11 1] (Some n_a); OSetPriority n_b 5; OWrap [mkUB f_name 21 3] (Some n_b); OWrap [mkUB f_name 31 4] (Some n_a)].
Definition hist83' : list op := [OWrap [mkUB f_name 11 1] (Some n_b); OSetPriority n_a 9; OSetPriority n_c83 (-1); OGetPriority n_a; OSetPriority n_a 2;
  OWrap [mkUB f_name 21 3] (Some n_a); OWrap [mkUB f_name 31 4] (Some n_c83)].
Lemma hist83_paired : exists ps, paired hist83 hist83' ps.
Proof.
  eexists. unfold hist83. change [?a; ?b; ?c; ?d] with (((([] ++ [a]) ++ [b]) ++ [c]) ++ [d]). unfold hist83'.
  change [OWrap [mkUB f_name 11 1] (Some n_b); OSetPriority n_a 9; OSetPriority n_c83 (-1); OGetPriority n_a; OSetPriority n_a 2; OWrap [mkUB f_name 21 3] (Some n_a); OWrap [mkUB f_name 31 4] (Some n_c83)]
    with ((((((([] ++ [OWrap [mkUB f_name 11 1] (Some n_b)]) ++ [OSetPriority n_a 9]) ++ [OSetPriority n_c83 (-1)]) ++ [OGetPriority n_a]) ++ [OSetPriority n_a 2]) ++ [OWrap [mkUB f_name 21 3] (Some n_a)]) ++ [OWrap [mkUB f_name 31 4] (Some n_c83)]).
  apply pa_wrap; [apply pa_wrap; [apply pa_right; [apply pa_right; [apply pa_right; [apply pa_both; [apply pa_wrap; [apply pa_nil|]|..]|..]|..]|..]|]|]; try reflexivity;
    intros x x' y y' X Y; cbn [In] in X, Y; repeat (destruct X as [X|X]; [injection X as <- <-|]); try contradiction; repeat (destruct Y as [Y|Y]; [injection Y as <- <-|]); try contradiction; vm_compute; split; intros H; try exact H; discriminate H.
Qed.
Example C83_ex : (exists ps, paired hist83 hist83' ps) /\ 48 <= e_ps demo_env /\
  outermost (st_of (demo_run hist83)) f_name = Ok (Some 21) /\ outermost (st_of (demo_run hist83')) f_name = Ok (Some 21) /\
  rs_of (demo_run hist83) = [RCode 0; RCode 0; RCode 0; RCode 0] /\ rs_of (demo_run hist83') = [RCode 0; RCode 0; RCode 0; RPrio 0 (Some 9); RCode 0; RCode 0; RCode 0].
Proof. split; [exact hist83_paired|]. vm_compute. repeat split; discriminate. Qed.
(** The order counts: with -2 in place of 5 the first wrapper stays outermost. *)
Example C83_order : outermost (st_of (demo_run [OWrap [mkUB f_name 11 1] (Some n_a); OSetPriority n_b (-2); OWrap [mkUB f_name 21 3] (Some n_b)])) f_name = Ok (Some 11) /\
  outermost (st_of (demo_run [OWrap [mkUB f_name 11 1] (Some n_a); OSetPriority n_b 5; OWrap [mkUB f_name 21 3] (Some n_b)])) f_name = Ok (Some 21).
Proof. vm_compute. split; reflexivity. Qed.
Example C83_last_ex : existsb is_api hist1 = true /\ (forall t, last_set (hist1 ++ [OSetPriority n_a 3; OSetPriority n_a 7]) t = last_set (hist1 ++ [OGetPriority n_b; OSetPriority n_a 7]) t).
Proof. split; [reflexivity|]. intros t. unfold last_set. rewrite !fold_left_app. cbn [fold_left set_last]. destruct (cstr_eqb n_a t); reflexivity. Qed.
Example C83_none_ex : outermost (st_of (demo_run [OWrap [mkUB f_name 11 1] (Some n_a); OWrap [mkUB f_name 21 3] (Some n_b)])) f_name = Ok (Some 11) /\
  outermost (st_of (demo_run [OWrap [mkUB f_name 11 1] None; OWrap [mkUB f_name 21 3] None])) f_name = Ok (Some 11).
Proof. vm_compute. split; reflexivity. Qed.
