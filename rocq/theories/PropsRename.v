(** Names of tools and values of priorities (C78), queries (C80). *)
From Verif Require Import Base ListFacts HashModel HashProofs SpecHash ElfModel SpecElf ToolModel CoreModel SpecCore SpecRun SpecSync SpecRename CoreMaps CoreFacts CoreHist CoreEnv CoreApi CoreApi3 CoreSync3 RenameProofs
  PropsElf Demo PropsCoreEx PropsSyncEx.
From Coq Require String.
Import String.StringSyntax.
Open Scope string_scope.
Open Scope list_scope.
Open Scope Z_scope.

(** C78: Give the tools of a history other names and the priorities other values in the same order.  Then the history runs in the same way: it
    faults in the same way if it does, all calls report the same, apart from the priorities that are read back, and memory, call
    sites, mprotect calls, bindings, wrappees, handle variables and records of libraries are the same. *)
Theorem C78_renamed : forall e maps mem ops r f, renaming r -> rescaling f ->
  match run e (init_state maps mem) ops, run e (init_state maps mem) (map (rename_op r f) ops) with
  | Ok (st, rs), Ok (st', rs') => rs' = map (rename_res f) rs /\ same_but_tools st st'
  | Fault k, Fault k' => k = k'
  | _, _ => False
  end.
Proof.
  intros e maps mem ops r f RN RS. pose proof (r_run r f RN RS e ops (init_state maps mem)) as H. change (rst r f (init_state maps mem)) with (init_state maps mem) in H. rewrite H.
  destruct (run e (init_state maps mem) ops) as [[st rs]|]; cbn [omap fst snd]; [|reflexivity]. split; [reflexivity|]. apply rst_same.
Qed.
Print Assumptions C78_renamed.

(** What the process can observe of this: *)
Theorem C78_observed : forall e maps mem ops r f st rs, renaming r -> rescaling f -> run e (init_state maps mem) ops = Ok (st, rs) ->
  exists st', run e (init_state maps mem) (map (rename_op r f) ops) = Ok (st', map (rename_res f) rs) /\
  (forall x, p_mem (s_p st') x = p_mem (s_p st) x) /\ p_log (s_p st') = p_log (s_p st) /\
  (forall n, outermost st' n = outermost st n) /\ (forall h, gotcha_get_wrappee st' h = gotcha_get_wrappee st h) /\
  (forall w h n, dlsym_wrapper e w st' h n = dlsym_wrapper e w st h n) /\
  internal_main_target e st' = internal_main_target e st /\ internal_libc_start_main e st' = internal_libc_start_main e st.
Proof.
  intros e maps mem ops r f st rs RN RS E. pose proof (r_run r f RN RS e ops (init_state maps mem)) as H. change (rst r f (init_state maps mem)) with (init_state maps mem) in H. rewrite E in H. cbn [omap fst snd] in H.
  exists (rst r f st). split; [exact H|]. repeat split.
Qed.
Print Assumptions C78_observed.

(** hist1 with the names of its tools exchanged and the priority 5 replaced by 1000 *)
Definition exchange (a b : cstr) : cstr -> cstr := fun s => if cstr_eqb s a then b else if cstr_eqb s b then a else s.
Lemma exchange_renaming a b : a <> n_gotcha -> a <> n_unspecified -> b <> n_gotcha -> b <> n_unspecified -> renaming (exchange a b).
Proof.
  intros A1 A2 B1 B2. unfold exchange. constructor.
  - intros s t. unfold cstr_eqb. repeat destruct (cstr_eq_dec _ _); congruence.
  - change (of_string "gotcha") with n_gotcha. rewrite !cstr_eqb_neq by auto. reflexivity.
  - change (of_string "[UNSPECIFIED]") with n_unspecified. rewrite !cstr_eqb_neq by auto. reflexivity.
Qed.
Definition scale (v : Z) : Z := if v <? 0 then v else 200 * v.
Lemma scale_rescaling : rescaling scale.
Proof. constructor; [|reflexivity]. intros v w H. unfold scale. destruct (Z.ltb_spec v 0), (Z.ltb_spec w 0); lia. Qed.
Definition hist1_renamed : list op :=
  [OWrap [mkUB f_name 11 1; mkUB g_name 12 2] (Some n_b); OSetPriority n_a 1000; OWrap [mkUB f_name 21 3] (Some n_a)].
Example C78_ex : renaming (exchange n_a n_b) /\ rescaling scale /\ map (rename_op (exchange n_a n_b) scale) hist1 = hist1_renamed /\
  outermost (st_of (demo_run hist1)) f_name = Ok (Some 21) /\ outermost (st_of (demo_run hist1_renamed)) f_name = Ok (Some 21) /\
  rs_of (demo_run (hist1 ++ [OGetPriority n_b])) = [RCode 1; RCode 0; RCode 0; RPrio 0 (Some 5)] /\
  rs_of (demo_run (hist1_renamed ++ [OGetPriority n_a])) = [RCode 1; RCode 0; RCode 0; RPrio 0 (Some 1000)].
Proof.
  split; [apply exchange_renaming; discriminate|]. split; [exact scale_rescaling|]. vm_compute. repeat split.
Qed.
(** The order, the default and GOTCHA's own name matter: with the priority -2 instead of 5 the outermost wrapper differs, and only the tool [gotcha] is known from the start. *)
Example C78_order : outermost (st_of (demo_run [OWrap [mkUB f_name 11 1] (Some n_a); OSetPriority n_b (-2); OWrap [mkUB f_name 21 3] (Some n_b)])) f_name = Ok (Some 11).
Proof. vm_compute. reflexivity. Qed.
Example C78_own : rs_of (demo_run [OGetPriority n_gotcha]) = [RPrio 0 (Some (-1))] /\ rs_of (demo_run [OGetPriority n_b]) = [RPrio 3 None].
Proof. vm_compute. repeat split. Qed.

(** C80: Asking for a priority once GOTCHA is in use leaves no trace: without the question the state and the results of all other calls are the same. *)
Theorem C80_query : forall e maps mem l1 t l2 st rs, process_ok e maps (l1 ++ [OGetPriority t] ++ l2) -> existsb is_api l1 = true ->
  run e (init_state maps mem) (l1 ++ [OGetPriority t] ++ l2) = Ok (st, rs) ->
  exists r1 c v r2, length r1 = length l1 /\ rs = r1 ++ RPrio c v :: r2 /\ run e (init_state maps mem) (l1 ++ l2) = Ok (st, r1 ++ r2).
Proof.
  intros e maps mem l1 t l2 st rs P A E. pose proof (process_app e maps l1 _ P) as P1. rewrite run_app in E |- *.
  destruct (run e (init_state maps mem) l1) as [[st1 r1]|] eqn:E1; [|discriminate]. cbn [bind] in E |- *.
  assert (L : length r1 = length l1).
  { clear - E1. revert E1. generalize (init_state maps mem). revert st1 r1. induction l1 as [|o l IH]; intros st1 r1 s0 E; cbn [run] in E; [injection E as <- <-; reflexivity|].
    destruct (step e s0 o) as [[s1 x]|]; [|discriminate]. cbn [bind] in E. destruct (run e s1 l) as [[s2 xs]|] eqn:E2; [|discriminate]. cbn [bind] in E. injection E as <- <-. cbn [length]. f_equal. eapply IH, E2. }
  cbn [app run step] in E. unfold gotcha_get_priority, api_init, gotcha_init in E. rewrite (state_init e maps mem l1 st1 r1 P1 E1), A in E. cbn [bind] in E.
  destruct (get_configuration_value (b_tools (s_b st1)) t) as [[c v]|]; [|discriminate]. cbn [bind] in E.
  destruct (run e st1 l2) as [[st2 r2]|]; [|discriminate]. cbn [bind] in E |- *. injection E as <- <-. exists r1, c, v, r2. auto.
Qed.
Print Assumptions C80_query.
Example C80_ex : process_ok demo_env demo_libs (hist1 ++ [OGetPriority n_c] ++ [OWrap [mkUB f_name 31 5] (Some n_c)]) /\ existsb is_api hist1 = true /\
  rs_of (demo_run (hist1 ++ [OGetPriority n_c] ++ [OWrap [mkUB f_name 31 5] (Some n_c)])) = [RCode 1; RCode 0; RCode 0; RPrio 3 None; RCode 0].
Proof. split; [process|]. split; [reflexivity|]. vm_compute. reflexivity. Qed.
(** As the first call it does initialise GOTCHA: dlopen is intercepted afterwards. *)
Example C80_first : outermost (st_of (demo_run [OGetPriority n_c])) n_dlopen = Ok (Some (e_w_dlopen demo_env)) /\ outermost (st_of (demo_run [])) n_dlopen = Ok None.
Proof. vm_compute. auto. Qed.
