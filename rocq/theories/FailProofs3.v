(** gotcha_set_priority when memory runs out; whole histories. *)
From Verif Require Import Base ListFacts SpecHash HashTrace HashModel HashProofs ElfModel SpecElf ToolModel CoreModel SpecCore SpecRun ToolProofs CoreMaps CoreRel CoreMicro CoreLib CoreStep
  CoreWrap CoreLoop CoreMain CoreEnv CoreSpec CoreFacts CoreHist CoreApi CoreApi2 CoreApi3 CoreDl FailModel SpecFail FailProofs FailProofs2.

(** ** tools *)
Lemma get_tool_loop_alike h h' n : Forall2 tool_alike h h' -> forall fuel p, get_tool_loop fuel h' p n = get_tool_loop fuel h p n.
Proof.
  intros F. induction fuel as [|fuel IH]; intros [i|]; cbn [get_tool_loop]; try reflexivity. pose proof (alike_deref _ _ i F) as A. destruct (deref h i) as [t|], (deref h' i) as [t'|]; try contradiction; cbn [bind]; [|congruence].
  destruct A as (-> & _ & -> & _). rewrite IH. reflexivity.
Qed.
Lemma alike_length h h' : Forall2 tool_alike h h' -> length h' = length h.
Proof. induction 1; cbn; congruence. Qed.
Lemma get_tool_alike ts ts' n : ts_alike ts ts' -> get_tool ts' n = get_tool ts n.
Proof. intros (Hd & F). unfold get_tool. rewrite Hd, (alike_length _ _ F). apply get_tool_loop_alike, F. Qed.
Lemma get_tool_loop_prio h n i v : forall fuel p, get_tool_loop fuel (upd h i (set_tprio v)) p n = get_tool_loop fuel h p n.
Proof.
  induction fuel as [|fuel IH]; intros [j|]; cbn [get_tool_loop]; try reflexivity. unfold deref. rewrite nth_error_upd. destruct (Nat.eqb i j); destruct (nth_error h j); cbn [option_map bind set_tprio t_name t_next]; rewrite ?IH; reflexivity.
Qed.
Lemma get_tool_prio ts n i v : get_tool (mkTS (upd (ts_heap ts) i (set_tprio v)) (ts_head ts)) n = get_tool ts n.
Proof. unfold get_tool. cbn [ts_heap ts_head]. rewrite upd_length. apply get_tool_loop_prio. Qed.
Lemma alike_tprio v t t' : tool_alike t t' -> tool_alike (set_tprio v t) (set_tprio v t').
Proof. intros (A & B & C & D & E). repeat split; auto. Qed.
Lemma alike_set_prio ts ts' i v : ts_alike ts ts' -> ts_alike (mkTS (upd (ts_heap ts) i (set_tprio v)) (ts_head ts)) (mkTS (upd (ts_heap ts') i (set_tprio v)) (ts_head ts')).
Proof. intros (Hd & F). split; [exact Hd|]. cbn [ts_heap]. apply alike_upd; [intros; apply alike_tprio; auto|exact F]. Qed.
Lemma tool_equal_alike h h' i j : Forall2 tool_alike h h' -> tool_equal h' i j = tool_equal h i j.
Proof.
  intros F. unfold tool_equal. pose proof (alike_deref _ _ i F) as A. destruct (deref h i) as [t|], (deref h' i) as [t'|]; try contradiction; cbn [bind]; [|congruence]. destruct A as (-> & _).
  pose proof (alike_deref _ _ j F) as A. destruct (deref h j) as [u|], (deref h' j) as [u'|]; try contradiction; cbn [bind]; [|congruence]. destruct A as (-> & _). reflexivity.
Qed.
Lemma remove_walk_alike h h' g : Forall2 tool_alike h h' -> forall fuel c, remove_walk fuel h' c g = remove_walk fuel h c g.
Proof.
  intros F. induction fuel as [|fuel IH]; intros c; cbn [remove_walk]; [reflexivity|]. pose proof (alike_deref _ _ c F) as A. destruct (deref h c) as [t|], (deref h' c) as [t'|]; try contradiction; cbn [bind]; [|congruence].
  destruct A as (_ & _ & -> & _). destruct (t_next t) as [nx|]; [|reflexivity]. rewrite (tool_equal_alike _ _ _ _ F). destruct (tool_equal h nx g); cbn [bind]; [|reflexivity]. rewrite IH. reflexivity.
Qed.
Lemma remove_alike ts ts' g r : ts_alike ts ts' -> remove_tool_from_list ts g = Ok r -> exists r', remove_tool_from_list ts' g = Ok r' /\ ts_alike r r'.
Proof.
  intros (Hd & F) E. unfold remove_tool_from_list in *. rewrite Hd. destruct (ts_head ts) as [hd|] eqn:Eh; [|injection E as <-; exists ts'; split; [reflexivity|split; [congruence|exact F]]].
  rewrite (tool_equal_alike _ _ _ _ F). destruct (tool_equal (ts_heap ts) hd g) as [c|]; cbn [bind] in *; [|discriminate E]. destruct (c =? 0).
  - pose proof (alike_deref _ _ hd F) as A. destruct (deref (ts_heap ts) hd) as [t|]; [|discriminate E]. destruct (deref (ts_heap ts') hd) as [t'|]; [|contradiction]. cbn [bind] in *. destruct A as (_ & _ & -> & _). injection E as <-.
    eexists. split; [reflexivity|]. split; [reflexivity|exact F].
  - rewrite (alike_length _ _ F), (remove_walk_alike _ _ _ F). destruct (remove_walk _ (ts_heap ts) hd g) as [cur|]; cbn [bind] in *; [|discriminate E].
    pose proof (alike_deref _ _ cur F) as A. destruct (deref (ts_heap ts) cur) as [t|]; [|discriminate E]. destruct (deref (ts_heap ts') cur) as [t'|]; [|contradiction]. cbn [bind] in *. destruct A as (_ & _ & -> & _).
    destruct (t_next t) as [nx|]; [|discriminate E]. rewrite (tool_equal_alike _ _ _ _ F). destruct (tool_equal (ts_heap ts) nx g) as [c2|]; cbn [bind] in *; [|discriminate E]. destruct (c2 =? 0).
    + pose proof (alike_deref _ _ g F) as A. destruct (deref (ts_heap ts) g) as [u|]; [|discriminate E]. destruct (deref (ts_heap ts') g) as [u'|]; [|contradiction]. cbn [bind] in *. destruct A as (_ & _ & -> & _). injection E as <-.
      eexists. split; [reflexivity|]. split; [reflexivity|]. cbn [ts_heap]. apply alike_upd; [intros; apply alike_next; auto|exact F].
    + injection E as <-. exists ts'. split; [reflexivity|]. split; [congruence|exact F].
Qed.

Lemma set_priority_a_law ps ts l n v ts1 al : 48 <= ps -> tools_ok ts l -> set_priority_int ps ts n v = Ok ts1 ->
  match set_priority_int_a ps ts n v al with
  | Fault f => f = NullDeref /\ get_tool ts n = Ok None /\ hd true al = false
  | Ok (ts', _) => (get_tool ts n = Ok None -> hd true al = true) /\ ts_alike ts1 ts'
  end.
Proof.
  intros Hps T E. unfold set_priority_int in E. unfold set_priority_int_a. iba E as [ts2 i].
  (* after the tool has been found or created *)
  assert (K : forall ts2' al', ts_alike ts2 ts2' -> (exists j, get_tool ts2 n = Ok (Some j)) ->
    exists ts', ts_alike ts1 ts' /\
     (let ts := mkTS (upd (ts_heap ts2') i (set_tprio v)) (ts_head ts2') in
      ado ' (ts, j) <- get_or_create_tool_a ps ts n; match j with None => alift (Fault NullDeref) | Some j => ado ts <- alift (remove_tool_from_list ts j); alift (reorder_tool ts j) end) al' = Ok (ts', al')).
  { intros ts2' al' A (j & Ej). cbv zeta. unfold get_or_create_tool in E. rewrite get_tool_prio, Ej in E. cbn [bind] in E. iba E as ts3.
    destruct (remove_alike _ _ _ _ (alike_set_prio _ _ i v A) B0) as (ts3' & R1 & A3). destruct (reorder_alike _ _ _ _ A3 E) as (ts4 & R2 & A4). exists ts4. split; [exact A4|].
    unfold get_or_create_tool_a. rewrite get_tool_prio, (get_tool_alike _ _ _ A), Ej. unfold abind, alift, aret. cbn [bind]. rewrite R1. cbn [bind]. rewrite R2. reflexivity. }
  unfold get_or_create_tool in B. pose proof (get_tool_spec ts l n T) as GS. destruct (get_tool ts n) as [[i0|]|] eqn:G; cbn [bind] in B; [| |discriminate B].
  - injection B as <- <-. rewrite (abind_ok _ _ _ (ts, Some i0) al) by (unfold get_or_create_tool_a, abind, alift; rewrite G; reflexivity). cbn beta iota. destruct (K ts al (ts_alike_refl _) (ex_intro _ _ G)) as (ts' & A & X). cbv zeta in X. rewrite X. split; [discriminate|exact A].
  - destruct (create_tool_law _ _ _ _ _ al B) as [(r & -> & X)|(Hh & ts' & A & X)].
    + rewrite (abind_ok _ _ _ (ts, None) r) by (unfold get_or_create_tool_a, abind, alift; rewrite G; exact X). cbn. auto.
    + rewrite (abind_ok _ _ _ (ts', Some i) (tl (tl al))) by (unfold get_or_create_tool_a, abind, alift; rewrite G; exact X). cbn beta iota.
      assert (J : exists j, get_tool ts2 n = Ok (Some j)).
      { destruct (create_tool_spec ps ts l n Hps T GS) as (ts2' & l' & C1 & C2 & C3). assert (ts2' = ts2) by congruence. subst. pose proof (get_tool_spec ts2 l' n C2) as G2. destruct (get_tool ts2 n) as [[j|]|]; [eauto| |contradiction].
        exfalso. apply G2. assert (M : map t_name (ts_heap ts2) = map t_name (ts_heap ts) ++ [n]); [|rewrite M; apply in_or_app; right; left; reflexivity].
        transitivity (map (fun x => fst (fst (fst x))) (map tinfo (ts_heap ts2))); [rewrite map_map; reflexivity|]. rewrite C3, map_app, map_map. reflexivity. }
      destruct (K ts' (tl (tl al)) A J) as (ts'' & A2 & X2). cbv zeta in X2. rewrite X2. auto.
Qed.

(** ** reached states *)
Lemma used_api ops : existsb is_api ops = true -> used ops n_gotcha = true.
Proof.
  intros H. apply existsb_exists in H. destruct H as (o & I & H). unfold used. apply existsb_exists. exists o. split; [exact I|]. destruct o; try discriminate H; cbn [uses]; rewrite cstr_eqb_refl, ?orb_true_r; reflexivity.
Qed.
Lemma known_tool e maps mem ops st rs t : process_ok e maps ops -> existsb is_api ops = true -> run e (init_state maps mem) ops = Ok (st, rs) ->
  if used ops t then exists i, get_tool (b_tools (s_b st)) t = Ok (Some i) else get_tool (b_tools (s_b st)) t = Ok None.
Proof.
  intros P A E. assert (P2 : process_ok e maps (ops ++ [OGetPriority t])).
  { destruct P as [P1 P2 P3]. constructor; auto. intros o m Ho Hm. apply in_app_or in Ho. destruct Ho as [Ho|[<-|[]]]; [|destruct Hm]. eapply P3; eauto. }
  destruct (run_any e maps mem _ P2) as (st2 & E2 & _). rewrite get_result in E2. destruct (run_any e maps mem _ P) as (st0 & E0 & _). rewrite E in E0. injection E0 as <- ->.
  assert (U : used (ops ++ [OGetPriority t]) t = used ops t).
  { unfold used. rewrite existsb_app. cbn [existsb uses]. rewrite orb_false_r. destruct (cstr_eqb n_gotcha t) eqn:C; [|apply orb_false_r]. apply cstr_eqb_ok in C. subst t. fold (used ops n_gotcha). rewrite (used_api _ A). reflexivity. }
  rewrite U in E2. rewrite run_app, E in E2. cbn [bind] in E2. rewrite run_one in E2. cbn [step] in E2. unfold gotcha_get_priority, api_init, gotcha_init in E2. rewrite (state_init e maps mem ops st _ P E), A in E2. cbn [bind] in E2.
  unfold get_configuration_value in E2. destruct (get_tool (b_tools (s_b st)) t) as [[i|]|]; cbn [bind] in E2; [| |discriminate E2].
  - destruct (config_loop _ _ _ _) as [v|]; cbn [bind] in E2; [|discriminate E2]. injection E2 as _ E2. apply app_inv_head in E2. destruct (used ops t); [eauto|discriminate E2].
  - injection E2 as _ E2. apply app_inv_head in E2. destruct (used ops t); [discriminate E2|reflexivity].
Qed.
Lemma main_known e maps mem ops st rs : process_ok e maps ops -> run e (init_state maps mem) ops = Ok (st, rs) -> main_bound ops -> s_main st = true.
Proof.
  intros P E M. destruct (run_any e maps mem ops P) as (st0 & E0 & R). rewrite E in E0. injection E0 as <- _. apply (main_flag_iff ins_c e (exports e) maps) in M.
  destruct R as [R|[ch S]]; [rewrite (pr_am _ _ _ _ _ R) in M; discriminate M|rewrite (sr_main _ _ _ _ _ _ _ _ S); exact M].
Qed.
Lemma tools_known e maps mem ops st rs : process_ok e maps ops -> run e (init_state maps mem) ops = Ok (st, rs) -> existsb is_api ops = true -> exists l, tools_ok (b_tools (s_b st)) l.
Proof.
  intros P E A. pose proof (state_init e maps mem ops st rs P E) as Hi. destruct (run_any e maps mem ops P) as (st0 & E0 & R). rewrite E in E0. injection E0 as <- _.
  destruct R as [R|[ch S]]; [rewrite (pr_i _ _ _ _ _ R) in Hi; congruence|]. apply (br_tools _ _ _ _ _ (sr_b _ _ _ _ _ _ _ _ S)).
Qed.
Lemma dlopen_known e maps mem ops st rs : process_ok e maps ops -> run e (init_state maps mem) ops = Ok (st, rs) -> existsb is_api ops = true -> dlopen_wrapped st = true.
Proof.
  intros P E A. pose proof (state_init e maps mem ops st rs P E) as Hi. destruct (run_any e maps mem ops P) as (st0 & E0 & R). rewrite E in E0. injection E0 as <- _.
  pose proof (fn_lookup e False st _ n_dlopen R ltac:(congruence)) as L. unfold dlopen_wrapped. destruct (a_stack (fst (arun ins_c (exports e) e (a0 maps) ops)) n_dlopen) as [|x r] eqn:S.
  - exfalso. apply (stack_empty e (exports e) ins_c ins_c_ne maps ops n_dlopen) in S. apply S. unfold wrapped.
    destruct (api_installs e ops A (mkUB n_dlopen (e_w_dlopen e) (e_h_dlopen e))) as (x & Hx & _); [left; reflexivity|]. intros H. cbn [ub_name] in Hx. rewrite H in Hx. destruct Hx.
  - destruct L as (i & ib & -> & _). reflexivity.
Qed.

(** ** enough memory *)
Lemma step_agrees e st o : (o = OFinish -> s_init st = true -> dlopen_wrapped st = true) -> agrees (step_a e st o) (step e st o).
Proof.
  intros H. destruct o as [ubs tool|t v|t|f|libs mem| |keep mem]; cbn [step_a step].
  - apply agrees_bind; [apply wrap_n_agrees|]. intros [? ?] _. apply agrees_ret.
  - apply agrees_bind; [apply set_priority_agrees|]. intros [? ?] _. apply agrees_ret.
  - unfold gotcha_get_priority. rewrite bind_assoc. apply agrees_bind; [apply init_agrees, wrap_n_agrees|]. intros st1 _. rewrite bind_assoc. apply agrees_bind; [apply agrees_lift|]. intros [c v] _. apply agrees_ret.
  - apply agrees_lift.
  - apply agrees_lift.
  - destruct (s_init st) eqn:Ei; [|apply agrees_ret]. rewrite H by reflexivity. cbn [andb]. apply agrees_bind; [apply refines_agrees, finish_refines|]. intros ? _. apply agrees_ret.
  - apply agrees_lift.
Qed.
Lemma run_agrees e maps mem : forall more ops st rs, process_ok e maps (ops ++ more) -> run e (init_state maps mem) ops = Ok (st, rs) -> agrees (run_a e st more) (run e st more).
Proof.
  induction more as [|o more IH]; intros ops st rs P E; cbn [run_a run]; [apply agrees_ret|]. apply agrees_bind.
  - apply step_agrees. intros -> Hi. apply process_app in P. eapply dlopen_known; [exact P|exact E|]. rewrite <- (state_init _ _ _ _ _ _ P E). exact Hi.
  - intros [st1 x] Es. apply agrees_bind; [|intros [? ?] _; apply agrees_ret]. apply (IH (ops ++ [o]) st1 (rs ++ [x])); [rewrite <- app_assoc; exact P|]. rewrite run_app, E. cbn [bind]. rewrite run_one, Es. reflexivity.
Qed.
