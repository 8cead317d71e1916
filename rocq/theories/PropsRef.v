(** C69: gotcha_wrap and gotcha_set_priority take the tool's name as a string; GOTCHA keeps the caller's pointer. *)
From Verif Require Import Base ListFacts HashModel ElfModel ToolModel CoreModel SpecCore SpecRun HashProofs HashTrace ToolProofs CoreMaps CoreRel CoreMicro RefModel SpecRef RefProofs RefLaw
  PropsElf Demo PropsCoreEx.
From Coq Require Import Permutation.
From Coq Require String.
Import String.StringSyntax.
Open Scope string_scope.
Open Scope list_scope.
Open Scope Z_scope.

(** If no buffer is written after it was given as a tool's name, everything is as if GOTCHA had copied the names. *)
Theorem C69_kept_names_partial : forall e maps mem buf ops, names_kept ops ->
  (forall st rs, run e (init_state maps mem) (copied buf ops) = Ok (st, rs) -> exists r, rrun e (rinit maps mem buf) ops = Ok (r, rs) /\ r_st r = st) /\
  (forall f, run e (init_state maps mem) (copied buf ops) = Fault f -> rrun e (rinit maps mem buf) ops = Fault f).
Proof.
  intros e maps mem buf ops K. assert (H := rrun_copied e ops [] (init_state maps mem) buf [] K ltac:(intros b [])). fold (rinit maps mem buf) in H. split.
  - intros st rs E. rewrite E in H. exact H.
  - intros f E. rewrite E in H. exact H.
Qed.
Print Assumptions C69_kept_names_partial.

Lemma infos_names h l : map tinfo h = l -> map t_name h = map (fun x : cstr * Z * option nat * option nat => fst (fst (fst x))) l.
Proof. intros <-. rewrite map_map. reflexivity. Qed.
Lemma config_first ts name i t : get_tool ts name = Ok (Some i) -> nth_error (ts_heap ts) i = Some t -> t_parent t = None -> get_configuration_value ts name = Ok (GOTCHA_SUCCESS, Some (t_prio t)).
Proof.
  intros G H N. unfold get_configuration_value. rewrite G. cbn [bind config_loop]. rewrite (deref_Ok _ _ _ H). cbn [bind]. destruct (Z.eqb_spec (t_prio t) UNSET_PRIORITY) as [E|E]; cbn [negb]; [|reflexivity].
  rewrite N. destruct (length (ts_heap ts)); cbn [config_loop bind]; unfold default_priority; rewrite E; reflexivity.
Qed.
Lemma config_none ts name : get_tool ts name = Ok None -> get_configuration_value ts name = Ok (GOTCHA_INVALID_TOOL, None).
Proof. intros G. unfold get_configuration_value. rewrite G. reflexivity. Qed.
Lemma config_none_inv ts name v : get_configuration_value ts name = Ok (GOTCHA_INVALID_TOOL, v) -> get_tool ts name = Ok None.
Proof. unfold get_configuration_value. intros E. iba E as o. destruct o as [i|]; [|reflexivity]. ib E. discriminate. Qed.
Lemma api_init_again e st : s_init st = true -> api_init e st = Ok st.
Proof. intros I. unfold api_init, gotcha_init. rewrite I. reflexivity. Qed.

(** Otherwise the tool changes its name with the buffer, in every history: if no tool is called [r_buf r b] or
    [r_buf r b1], and the first name, given in buffer b to gotcha_set_priority, is then overwritten with the second one,
    the priority is that of the second name, for which nobody set it, and the first name is unknown. *)
Theorem C69_overwritten_law : forall e maps mem buf l r rs r1 b b1 b2 v, 48 <= e_ps e ->
  rrun e (rinit maps mem buf) l = Ok (r, rs) -> b1 <> b -> b2 <> b ->
  r_buf r b2 = r_buf r b -> r_buf r b1 <> r_buf r b -> r_buf r b <> of_string "gotcha" ->
  rrun e r [RGetPriority b; RGetPriority b1] = Ok (r1, [RPrio GOTCHA_INVALID_TOOL None; RPrio GOTCHA_INVALID_TOOL None]) ->
  exists r2, rrun e r [RSetPriority b v; RWrite b (r_buf r b1); RGetPriority b1; RGetPriority b2] =
    Ok (r2, [RCode GOTCHA_SUCCESS; RPrio GOTCHA_SUCCESS (Some v); RPrio GOTCHA_INVALID_TOOL None]).
Proof.
  intros e maps mem buf l r rs r1 b b1 b2 v Hps E Nb1 Nb2 Eb2 Nt Ng EG. pose proof (rrun_inv e Hps l _ _ _ (rinit_inv maps mem buf) E) as RI.
  destruct r as [st bufs of]. cbn [r_buf] in *. set (t := bufs b) in *. set (s := bufs b1) in *.
  (* before: both names are unknown *)
  cbn [rrun rstep op_of r_st r_buf r_of named_by step] in EG. fold t in EG. unfold gotcha_get_priority in EG at 1.
  destruct (api_init e st) as [st0|] eqn:EI; cbn [bind] in EG; [|discriminate EG]. destruct (get_configuration_value (b_tools (s_b st0)) t) as [[c1 v1]|] eqn:C1; cbn [bind] in EG; [|discriminate EG].
  destruct RI as (W & L & N). cbn [r_st r_of r_buf] in *. destruct (init_tw e 3 st st0 Hps EI W) as [I0 W0].
  cbn [rstep op_of r_st r_buf r_of named_by step] in EG. fold s in EG. unfold gotcha_get_priority in EG. rewrite (api_init_again e st0 I0) in EG. cbn [bind] in EG.
  destruct (get_configuration_value (b_tools (s_b st0)) s) as [[c2 v2]|] eqn:C2; cbn [bind app] in EG; [|discriminate EG]. injection EG as _ -> -> -> ->.
  apply config_none_inv in C1, C2.
  assert (Tn := proj1 (get_tool_none _ t W0) C1). assert (Sn := proj1 (get_tool_none _ s W0) C2).
  (* the new tool *)
  destruct (set_prio_new (e_ps e) (b_tools (s_b st0)) t v Hps W0 C1) as (ts1 & SP & W1 & I1).
  cbn [rrun]. assert (RS : rstep e (mkR st bufs of) (RSetPriority b v) = Ok (mkR (set_b (set_btools ts1 (s_b st0)) st0) bufs
      (of ++ new_of (Some b) bufs (skipn (length of) (ts_heap ts1))), [RCode GOTCHA_SUCCESS])).
  { cbn [rstep op_of r_st r_buf r_of named_by step]. fold t. unfold gotcha_set_priority. rewrite EI. cbn [bind]. rewrite SP. reflexivity. }
  rewrite RS. cbn [bind]. set (of1 := of ++ new_of (Some b) bufs (skipn (length of) (ts_heap ts1))) in *.
  pose proof (rstep_inv e (mkR st bufs of) _ _ _ Hps (conj W (conj L N)) RS) as (_ & L1 & N1). cbn [r_st r_of r_buf s_b set_b b_tools set_btools] in L1, N1.
  set (h0 := ts_heap (b_tools (s_b st0))) in *. set (n := length h0).
  assert (Nm1 : map t_name (ts_heap ts1) = map t_name h0 ++ [t]) by (rewrite (infos_names _ _ I1), map_app, map_map; reflexivity).
  assert (Ln : length (ts_heap ts1) = S n) by (rewrite <- (map_length t_name), Nm1, app_length, map_length; cbn; unfold n; lia).
  destruct (nth_error_lt_Some (ts_heap ts1) n) as [tn Htn]; [lia|].
  assert (Itn : tinfo tn = (t, v, None, None)).
  { apply (map_nth_error tinfo) in Htn. rewrite I1, nth_error_app2 in Htn by (rewrite map_length; unfold n; lia). rewrite map_length in Htn. unfold n in Htn. rewrite Nat.sub_diag in Htn. cbn [nth_error] in Htn. congruence. }
  unfold tinfo in Itn. injection Itn as Etn Epn _ Eparn.
  assert (Lof : (length of <= n)%nat).
  { assert (K : keeps (ts_heap (b_tools (s_b st))) h0).
    { assert (S0 : step e st (OGetPriority t) = Ok (st0, RPrio GOTCHA_INVALID_TOOL None)) by (cbn [step]; unfold gotcha_get_priority; rewrite EI; cbn [bind]; rewrite (config_none _ _ C1); reflexivity). apply (step_keeps _ _ _ _ _ S0). }
    destruct K as [K _]. unfold n. lia. }
  assert (On : nth_error of1 n = Some (Some b)).
  { unfold of1, new_of. rewrite nth_error_app2 by exact Lof. rewrite nth_error_map.
    assert (Hs : nth_error (skipn (length of) (ts_heap ts1)) (n - length of) = Some tn).
    { rewrite <- (firstn_skipn (length of) (ts_heap ts1)) in Htn. rewrite nth_error_app2 in Htn by (rewrite firstn_length; lia). rewrite firstn_length, Nat.min_l in Htn by lia. exact Htn. }
    rewrite Hs. cbn [option_map]. rewrite Etn. fold t. rewrite cstr_eqb_refl. assert (Eg : cstr_eqb t n_gotcha = false) by (apply cstr_eqb_neq; exact Ng). rewrite Eg. reflexivity. }
  (* the buffer is overwritten *)
  cbn [rstep r_st r_buf r_of s_b set_b b_tools set_btools]. cbn [bind].
  set (ts2 := mkTS (rename b s of1 (ts_heap ts1)) (ts_head ts1)).
  assert (W2 : TW ts2) by (apply rename_tw; exact W1).
  assert (Old : forall i x, (i < n)%nat -> nth_error (ts_heap ts2) i = Some x -> In (t_name x) (map t_name h0)).
  { intros i x Li Hx. unfold ts2 in Hx. cbn [ts_heap] in Hx. rewrite rename_nth in Hx.
    assert (H1 : forall y, nth_error (ts_heap ts1) i = Some y -> In (t_name y) (map t_name h0)).
    { intros y Hy. apply (map_nth_error t_name) in Hy. rewrite Nm1, nth_error_app1 in Hy by (rewrite map_length; exact Li). eapply nth_error_In; eauto. }
    destruct (nth_error of1 i) as [[b'|]|] eqn:Eo; [|apply H1, Hx..]. destruct (Nat.eqb_spec b' b) as [->|Nb']; [|apply H1, Hx].
    exfalso. destruct (nth_error_lt_Some (ts_heap ts1) i) as [y Hy]; [lia|]. apply Tn. unfold t. rewrite <- (N1 i b y Eo Hy). apply H1, Hy. }
  assert (Hn2 : nth_error (ts_heap ts2) n = Some (set_tname s tn)) by (unfold ts2; cbn [ts_heap]; rewrite rename_nth, On, Nat.eqb_refl, Htn; reflexivity).
  assert (L2 : length (ts_heap ts2) = S n) by (unfold ts2; cbn [ts_heap]; rewrite rename_length; exact Ln).
  assert (G1 : get_tool ts2 s = Ok (Some n)).
  { apply (get_tool_only ts2 s n (set_tname s tn) W2 Hn2 eq_refl). intros j y Hy Ey. destruct (le_lt_dec n j) as [Lj|Lj].
    - apply nth_error_Some_lt in Hy. lia.
    - exfalso. apply Sn. rewrite <- Ey. apply (Old j y Lj Hy). }
  assert (G2 : get_tool ts2 t = Ok None).
  { apply (get_tool_none ts2 t W2). intros I. apply in_map_iff in I. destruct I as (y & Ey & Hy). apply In_nth_error in Hy. destruct Hy as [j Hy]. destruct (le_lt_dec n j) as [Lj|Lj].
    - assert (j = n) by (apply nth_error_Some_lt in Hy; lia). subst j. rewrite Hn2 in Hy. injection Hy as <-. cbn in Ey. apply Nt. exact Ey.
    - apply Tn. rewrite <- Ey. apply (Old j y Lj Hy). }
  set (st2 := set_b _ _). assert (I2 : s_init st2 = true) by exact I0.
  assert (T2 : b_tools (s_b st2) = ts2) by reflexivity.
  assert (B1 : (if Nat.eqb b1 b then s else bufs b1) = s) by (destruct (Nat.eqb_spec b1 b); [contradiction|reflexivity]).
  assert (B2 : (if Nat.eqb b2 b then s else bufs b2) = t) by (destruct (Nat.eqb_spec b2 b); [contradiction|exact Eb2]).
  cbn [rstep op_of r_st r_buf r_of named_by step]. rewrite B1. unfold gotcha_get_priority at 1. rewrite (api_init_again e st2 I2). cbn [bind]. rewrite T2.
  rewrite (config_first ts2 s n _ G1 Hn2 Eparn). cbn [bind rstep op_of r_st r_buf r_of named_by step]. rewrite B2. unfold gotcha_get_priority. rewrite (api_init_again e st2 I2). cbn [bind]. rewrite T2, (config_none ts2 t G2).
  cbn [bind app set_tname t_prio]. rewrite Epn. eexists. reflexivity.
Qed.
Print Assumptions C69_overwritten_law.

(** Cases meeting the hypotheses: names in buffers, one of them written before it is given, two tools wrapping f. *)
Definition demo_buf : nat -> cstr := fun b => match b with 0%nat => n_a | 1%nat => n_b | 2%nat => n_a | _ => of_string "c" end.
Definition ref_rs (o : outcome (rstate * list res)) : list res := match o with Ok (_, l) => l | Fault _ => [] end.
Definition ref_of (o : outcome (rstate * list res)) : rstate := match o with Ok (r, _) => r | Fault _ => rinit [] (fun _ => 0) demo_buf end.
Definition kept69 : list rop := [RGetPriority 0; RWrite 3 n_b; RSetPriority 3 10; RWrap [mkUB f_name 21 3] (Some 1%nat); RSetPriority 0 5; RWrap [mkUB f_name 11 1] (Some 0%nat); RGetPriority 1; RGetPriority 2].
Example C69_kept_ex : names_kept kept69 /\ is_ok (run demo_env (init_state demo_libs demo_mem) (copied demo_buf kept69)) = true /\
  ref_rs (rrun demo_env (rinit demo_libs demo_mem demo_buf) kept69) =
    [RPrio GOTCHA_INVALID_TOOL None; RCode GOTCHA_SUCCESS; RCode GOTCHA_SUCCESS; RCode GOTCHA_SUCCESS; RCode GOTCHA_SUCCESS; RPrio GOTCHA_SUCCESS (Some 10); RPrio GOTCHA_SUCCESS (Some 5)].
Proof.
  split; [|split; vm_compute; reflexivity].
  intros l1 b s l2 E o Ho G. unfold kept69 in E. destruct l1 as [|x l1]; [discriminate E|]. injection E as <- E.
  destruct l1 as [|y l1]; [destruct Ho as [<-|[]]; destruct G as [[u G]|[v G]]; discriminate G|]. injection E as <- E.
  exfalso. repeat (destruct l1 as [|? l1]; [discriminate E|injection E as _ E]).
  destruct l1; discriminate E.
Qed.

(** a tool "c" has wrapped f; "a" and "b" are unknown *)
Definition before69 : list rop := [RWrap [mkUB f_name 21 3] (Some 3%nat)].
Definition r69 : rstate := ref_of (rrun demo_env (rinit demo_libs demo_mem demo_buf) before69).
Lemma ref_run o l : (match o with Ok _ => true | Fault _ => false end) = true -> ref_rs o = l -> o = Ok (ref_of o, l).
Proof. destruct o as [[r k]|]; [intros _ <-; reflexivity|discriminate]. Qed.
Lemma core_run o l : is_ok o = true -> rs_of o = l -> o = Ok (st_of o, l).
Proof. intros H <-. apply run_of, H. Qed.
Example C69_overwritten_ex : 48 <= e_ps demo_env /\ rrun demo_env (rinit demo_libs demo_mem demo_buf) before69 = Ok (r69, [RCode GOTCHA_SUCCESS]) /\
  r_buf r69 2 = r_buf r69 0 /\ r_buf r69 1 <> r_buf r69 0 /\ r_buf r69 0 <> of_string "gotcha" /\
  exists r1, rrun demo_env r69 [RGetPriority 0; RGetPriority 1] = Ok (r1, [RPrio GOTCHA_INVALID_TOOL None; RPrio GOTCHA_INVALID_TOOL None]).
Proof.
  split; [vm_compute; discriminate|]. split; [|split; [vm_compute; reflexivity|split; [vm_compute; discriminate|split; [vm_compute; discriminate|]]]].
  - apply ref_run; vm_compute; reflexivity.
  - exists (ref_of (rrun demo_env r69 [RGetPriority 0; RGetPriority 1])). apply ref_run; vm_compute; reflexivity.
Qed.

(** So the two disagree: the full claim, without [names_kept], is false. *)
Definition wrong69 : list rop := [RSetPriority 0 10; RWrite 0 n_b; RGetPriority 1; RGetPriority 2].
Theorem C69_refuted : exists e maps mem buf ops st rs r rs', process_ok e maps (copied buf ops) /\
  run e (init_state maps mem) (copied buf ops) = Ok (st, rs) /\ rrun e (rinit maps mem buf) ops = Ok (r, rs') /\ rs <> rs'.
Proof.
  exists demo_env, demo_libs, demo_mem, demo_buf, wrong69.
  exists (st_of (run demo_env (init_state demo_libs demo_mem) (copied demo_buf wrong69))), [RCode GOTCHA_SUCCESS; RPrio GOTCHA_INVALID_TOOL None; RPrio GOTCHA_SUCCESS (Some 10)].
  exists (ref_of (rrun demo_env (rinit demo_libs demo_mem demo_buf) wrong69)), [RCode GOTCHA_SUCCESS; RPrio GOTCHA_SUCCESS (Some 10); RPrio GOTCHA_INVALID_TOOL None].
  split; [process|]. split; [|split].
  - apply core_run; vm_compute; reflexivity.
  - apply ref_run; vm_compute; reflexivity.
  - discriminate.
Qed.
Print Assumptions C69_refuted.
