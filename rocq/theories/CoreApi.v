(** Statements about whole histories of API calls, used by PropsCore. *)
From Verif Require Import Base ListFacts SpecHash HashTrace HashModel HashProofs ElfModel SpecElf ToolModel CoreModel SpecCore SpecRun
  ToolProofs CoreMaps CoreRel CoreLib CoreStep CoreWrap CoreLoop CoreMain CoreEnv CoreSpec CoreFacts CoreHist.
From Coq Require Import Permutation Sorted.

Lemma place_ne m x s : place m x s <> [].
Proof. destruct s as [|y r]; cbn; [discriminate|]. destruct (prio_of m (en_tool y) <? prio_of m (en_tool x)); discriminate. Qed.
Lemma ins_c_ne m x s : ins_c m x s <> [].
Proof.
  unfold ins_c. destruct s as [|y r]; [discriminate|]. destruct (prio_of m (en_tool y) <? prio_of m (en_tool x)); [discriminate|].
  intros H. assert (Hy : In y (ins_walk m x y r)) by (apply ins_walk_incl; left; auto). rewrite H in Hy. destruct Hy.
Qed.

(** *** priorities *)
Lemma tools_last ins e ex maps ops t : prio_of (a_tools (fst (arun ins ex e (a0 maps) ops))) t = last_set ops t.
Proof.
  unfold prio_of. rewrite run_tools by (intros H; discriminate). cbn [a0 a_tools aget find].
  destruct (used ops t) eqn:E; [reflexivity|]. unfold last_set. revert E. unfold used.
  induction ops as [|o r IH]; cbn [existsb fold_left]; [auto|]. intros E. apply orb_false_iff in E. destruct E as [E1 E2].
  assert (E3 : set_last t (-1) o = -1); [|rewrite E3; auto]. destruct o; cbn in *; auto. apply orb_false_iff in E1. destruct E1 as [-> _]. auto.
Qed.

(** *** C01 *)
Definition trip (p : cstr * entry) : ubind := mkUB (fst p) (en_wrapper (snd p)) (en_handle (snd p)).
Lemma trip_bound t ubs : map trip (map (bound t) ubs) = ubs.
Proof. induction ubs as [|[n w h] r IH]; cbn; [auto|]. f_equal. auto. Qed.
Definition is_main (u : ubind) : bool := cstr_eqb (ub_name u) n_main.
Lemma call_installs_perm e t ubs : forall m, Permutation (map trip (call_installs e m t ubs))
  ((if existsb is_main ubs && negb m then libc_binds e ++ main_binds e else []) ++ ubs).
Proof.
  induction ubs as [|u r IH]; intros m; cbn [call_installs existsb]; [reflexivity|]. rewrite map_app. cbn [map]. rewrite IH.
  unfold is_main at 2. replace (trip (bound t u)) with u by (destruct u; reflexivity).
  destruct (cstr_eqb (ub_name u) n_main) eqn:E; cbn [orb andb].
  - rewrite orb_true_r, andb_false_r. destruct m; cbn [negb]; [reflexivity|]. rewrite trip_bound. reflexivity.
  - cbn [map app]. rewrite orb_false_r. apply Permutation_middle.
Qed.
Definition own (e : env) (i m : bool) (ops : list op) : list ubind :=
  (if existsb is_api ops && negb i then dl_binds e else []) ++
  (if existsb is_main (user_binds ops) && negb m then libc_binds e ++ main_binds e else []).
Lemma installs_perm e ops : forall i m, Permutation (map trip (installs e i m ops)) (own e i m ops ++ user_binds ops).
Proof.
  unfold own. induction ops as [|o r IH]; intros i m; [reflexivity|].
  destruct o as [ubs tool|t v|t|f|libs mem| |keep mem]; cbn [installs existsb is_api orb]; rewrite ?map_app, ?IH; try (unfold user_binds; cbn [flat_map op_binds app]; reflexivity);
    unfold user_binds; cbn [flat_map op_binds app]; fold (user_binds r).
  - rewrite call_installs_perm, existsb_app. cbn [negb]. rewrite andb_false_r. cbn [app andb]. fold is_main.
    assert (E : map trip (if i then [] else map (bound n_gotcha) (dl_binds e)) = if negb i then dl_binds e else []) by (destruct i; reflexivity). rewrite E. rewrite <- !app_assoc. apply Permutation_app_head.
    change (existsb (fun u => cstr_eqb (ub_name u) n_main) ubs) with (existsb is_main ubs).
    destruct (existsb is_main ubs) eqn:E1; destruct m; cbn [orb andb negb app]; rewrite ?andb_false_r, ?andb_true_r; cbn [app]; try reflexivity.
    rewrite !app_assoc. apply Permutation_app_tail. apply Permutation_app_comm.
  - cbn [negb]. rewrite andb_false_r. cbn [app]. cbn [andb]. assert (E : map trip (if i then [] else map (bound n_gotcha) (dl_binds e)) = if negb i then dl_binds e else []) by (destruct i; reflexivity). rewrite E, app_assoc. reflexivity.
  - cbn [negb]. rewrite andb_false_r. cbn [app]. cbn [andb]. assert (E : map trip (if i then [] else map (bound n_gotcha) (dl_binds e)) = if negb i then dl_binds e else []) by (destruct i; reflexivity). rewrite E, app_assoc. reflexivity.
Qed.

Lemma own_handles e i m ops : env_ok e -> NoDup (map ub_handle (own e i m ops)) /\ NoDup (map ub_wrapper (own e i m ops)) /\
  (forall u, In u (own e i m ops) -> In (ub_handle u) (internal_handles e) /\ In (ub_wrapper u) (internal_wrappers e)).
Proof.
  intros [_ H W]. unfold own, internal_handles, internal_wrappers in *.
  assert (D : forall (A : Type) (a b c d : A), NoDup [a; b; c; d] -> NoDup [a; b] /\ NoDup [c; d]).
  { intros A a b c d N. change [a; b; c; d] with ([a; b] ++ [c; d]) in N. split; [eapply NoDup_app_remove_r|eapply NoDup_app_remove_l]; eauto. }
  destruct (D _ _ _ _ _ H), (D _ _ _ _ _ W).
  destruct (existsb is_api ops && negb i), (existsb is_main (user_binds ops) && negb m); cbn; (split; [auto using NoDup_nil|split; [auto using NoDup_nil|]]); intros u Hu;
    repeat (destruct Hu as [<-|Hu]; [cbn; auto 10|]); destruct Hu.
Qed.

Lemma NoDup_map_impl {A B C} (f : A -> B) (g : A -> C) l : (forall x y, In x l -> In y l -> g x = g y -> f x = f y) -> NoDup (map f l) -> NoDup (map g l).
Proof.
  induction l as [|x r IH]; intros H N; cbn in *; [constructor|]. inversion N; subst. constructor.
  - intros Hx. apply in_map_iff in Hx. destruct Hx as (y & E & Hy). apply H2. apply in_map_iff. exists y. split; [|auto]. apply H; auto.
  - apply IH; auto.
Qed.

Lemma installs_nodup e ops : env_ok e -> fresh e ops ->
  NoDup (map (fun p => en_handle (snd p)) (installs e false false ops)) /\
  NoDup (map (fun p => (fst p, en_wrapper (snd p))) (installs e false false ops)).
Proof.
  intros EO [A B C]. destruct (own_handles e false false ops EO) as (H1 & H2 & H3). pose proof (installs_perm e ops false false) as P.
  assert (P1 := Permutation_map ub_handle P). assert (P2 := Permutation_map (fun u => (ub_name u, ub_wrapper u)) P).
  rewrite map_map in P1, P2. cbn [trip ub_handle ub_name ub_wrapper] in P1, P2. split.
  - eapply Permutation_NoDup; [apply Permutation_sym; exact P1|]. rewrite map_app. apply NoDup_app_intro; auto.
    intros x Hx Hy. apply in_map_iff in Hx, Hy. destruct Hx as (u & <- & Hu), Hy as (v & E & Hv). apply H3 in Hu. apply C in Hv. rewrite E in Hv. tauto.
  - eapply Permutation_NoDup; [apply Permutation_sym; exact P2|]. rewrite map_app. apply NoDup_app_intro; auto.
    + eapply NoDup_map_impl; [|exact H2]. intros x y _ _ E. congruence.
    + intros x Hx Hy. apply in_map_iff in Hx, Hy. destruct Hx as (u & <- & Hu), Hy as (v & E & Hv). apply H3 in Hu. apply C in Hv. injection E as _ E. rewrite E in Hv. tauto.
Qed.

Lemma sel_nodup {B} (f : cstr * entry -> B) (g : entry -> B) n l : (forall p, In p l -> fst p = n -> g (snd p) = f p) -> NoDup (map f l) -> NoDup (map g (sel n l)).
Proof.
  intros H N. unfold sel. rewrite map_map. induction l as [|p r IH]; cbn; [constructor|]. inversion N; subst.
  destruct (cstr_eqb (fst p) n) eqn:E; [|apply IH; auto; intros; apply H; [right|]; auto]. cbn. constructor.
  - intros Hx. apply in_map_iff in Hx. destruct Hx as (q & E2 & Hq). apply filter_In in Hq. destruct Hq as [Hq Eq]. apply cstr_eqb_ok in E, Eq. apply H2. apply in_map_iff. exists q. split; [|auto].
    rewrite <- (H q), <- (H p); auto; [left|right]; auto.
  - apply IH; auto. intros; apply H; [right|]; auto.
Qed.

Lemma stack_nodup e maps ops n : env_ok e -> fresh e ops -> NoDup (map en_wrapper (stack e maps ops n)) /\ NoDup (map en_handle (stack e maps ops n)).
Proof.
  intros EO F. destruct (installs_nodup e ops EO F) as [A B]. pose proof (stacks_installed e (exports e) maps ops n) as P.
  unfold stack, history. split.
  - eapply Permutation_NoDup; [apply Permutation_sym, Permutation_map; exact P|]. unfold installed.
    assert (N : NoDup (map (fun x => (n, en_wrapper x)) (sel n (installs e false false ops)))).
    { eapply sel_nodup; [|exact B]. intros p Hp E. cbn. congruence. }
    eapply NoDup_map_impl; [|exact N]. intros. cbn. congruence.
  - eapply Permutation_NoDup; [apply Permutation_sym, Permutation_map; exact P|]. unfold installed. eapply sel_nodup; [|exact A]. auto.
Qed.

Lemma abinds_user_app ins ex e t l2 : forall l1 a, fst (abinds_user ins ex e a t (l1 ++ l2)) = fst (abinds_user ins ex e (fst (abinds_user ins ex e a t l1)) t l2).
Proof.
  induction l1 as [|u r IH]; intros a; cbn [app abinds_user]; [reflexivity|]. destruct (abind ins ex (amain ins ex e a (ub_name u)) t u) as [a1 f1].
  specialize (IH a1). destruct (abinds_user ins ex e a1 t (r ++ l2)). destruct (abinds_user ins ex e a1 t r). cbn [fst] in *. auto.
Qed.

Lemma history_wrap e maps ops ubs tool : history e maps (ops ++ [OWrap ubs tool]) =
  fst (abinds_user place (exports e) e (ause (ainit place (exports e) e (history e maps ops)) (tool_name tool)) (tool_name tool) ubs).
Proof.
  unfold history. rewrite arun_app. cbn [fst arun astep]. unfold awrap. fold (tool_name tool).
  destruct (abinds_user place (exports e) e _ _ ubs); reflexivity.
Qed.

(** main has been wrapped *)
Lemma main_flag ins e ex ops : forall a, a_main (fst (arun ins ex e a ops)) = a_main a || existsb (fun u => cstr_eqb (ub_name u) n_main) (user_binds ops).
Proof.
  assert (HU : forall t ubs a, a_main (fst (abinds_user ins ex e a t ubs)) = a_main a || existsb (fun u => cstr_eqb (ub_name u) n_main) ubs).
  { intros t. induction ubs as [|u r IH]; intros a; cbn [abinds_user existsb]; [cbn; rewrite orb_false_r; auto|].
    destruct (frame_amain e ex ins a (ub_name u)) as (_ & E1 & _). destruct (frame_abind ex ins (amain ins ex e a (ub_name u)) t u) as (_ & E2 & _).
    destruct (abind ins ex (amain ins ex e a (ub_name u)) t u) as [a1 f1]. cbn [fst] in E2. specialize (IH a1). destruct (abinds_user ins ex e a1 t r). cbn [fst] in *.
    rewrite IH, E2, E1, orb_assoc. reflexivity. }
  assert (HI : forall a, a_main (ainit ins ex e a) = a_main a).
  { intros a. destruct (hist_init e ex ins (fun _ (_ : list (cstr * entry)) => True)) with (a := a) (I := @nil (cstr * entry)) as (_ & _ & H); auto. }
  induction ops as [|o r IH]; intros a; [cbn; rewrite orb_false_r; auto|]. cbn [arun].
  assert (E : a_main (fst (astep ins ex e a o)) = a_main a || existsb (fun u => cstr_eqb (ub_name u) n_main) (op_binds o)).
  { destruct o as [ubs tool|t v|t|f|libs mem| |keep mem]; cbn [astep fst op_binds existsb]; rewrite ?orb_false_r; try apply HI; auto; [|destruct (a_init a); auto].
    unfold awrap. specialize (HU (match tool with Some t => t | None => n_unspecified end) ubs (ause (ainit ins ex e a) (match tool with Some t => t | None => n_unspecified end))).
    destruct (abinds_user ins ex e _ _ ubs). cbn [fst] in *. rewrite HU. cbn [ause a_main]. rewrite HI. reflexivity. }
  destruct (astep ins ex e a o) as [a1 x]. cbn [fst] in E. specialize (IH a1). destruct (arun ins ex e a1 r). cbn [fst] in *. rewrite IH, E.
  unfold user_binds. cbn [flat_map]. rewrite existsb_app, orb_assoc. reflexivity.
Qed.

Lemma main_flag_iff ins e ex maps ops : a_main (fst (arun ins ex e (a0 maps) ops)) = true <-> main_bound ops.
Proof.
  rewrite main_flag. cbn [a0 a_main orb]. rewrite existsb_exists. unfold main_bound. rewrite in_map_iff. split.
  - intros (u & A & B). exists u. apply cstr_eqb_ok in B. auto.
  - intros (u & A & B). exists u. rewrite A, cstr_eqb_refl. auto.
Qed.

Lemma new_wrapper e maps ops l u tool : ub_name u <> n_main \/ main_bound (ops ++ [OWrap l tool]) ->
  let before := stack e maps (ops ++ [OWrap l tool]) in
  let after := stack e maps (ops ++ [OWrap (l ++ [u]) tool]) in
  let x := mkE (tool_name tool) (ub_wrapper u) (ub_handle u) in
  (forall n, n <> ub_name u -> after n = before n) /\
  exists l1 l2, before (ub_name u) = l1 ++ l2 /\ after (ub_name u) = l1 ++ x :: l2 /\
    (forall y, In y l1 -> last_set ops (tool_name tool) <= last_set ops (en_tool y)) /\
    match l2 with [] => True | y :: _ => last_set ops (en_tool y) < last_set ops (tool_name tool) end.
Proof.
  intros Hm before after x. unfold before, after, stack. rewrite (history_wrap e maps ops (l ++ [u])), abinds_user_app, <- (history_wrap e maps ops l).
  assert (E : amain place (exports e) e (history e maps (ops ++ [OWrap l tool])) (ub_name u) = history e maps (ops ++ [OWrap l tool])).
  { unfold amain. destruct (cstr_dec (ub_name u) n_main) as [En|En]; [|rewrite (cstr_eqb_neq _ _ En); auto].
    destruct Hm as [Hm|Hm]; [contradiction|]. apply (main_flag_iff place e (exports e) maps) in Hm. fold (history e maps (ops ++ [OWrap l tool])) in Hm. rewrite Hm, andb_false_r. auto. }
  assert (P : forall t, prio_of (a_tools (history e maps (ops ++ [OWrap l tool]))) t = last_set ops t).
  { intros t. unfold history. rewrite tools_last. unfold last_set. rewrite fold_left_app. reflexivity. }
  cbn [abinds_user]. rewrite E. set (a := history e maps (ops ++ [OWrap l tool])) in *.
  pose proof (place_abind (exports e) a (tool_name tool) u) as HS. destruct (abind place (exports e) a (tool_name tool) u) as [a1 f1]. cbn [fst] in *. rewrite HS. unfold cupd. split.
  - intros n Hn. rewrite (cstr_eqb_neq _ _ Hn). auto.
  - rewrite cstr_eqb_refl. destruct (place_split (a_tools a) x (a_stack a (ub_name u))) as (l1 & l2 & A & B & C & D). exists l1, l2. split; [auto|]. split; [auto|].
    rewrite <- !P. split.
    + intros y Hy. rewrite <- P. apply C. auto.
    + destruct l2 as [|y l2]; [auto|]. rewrite <- P. auto.
Qed.

(** *** C02 *)
Lemma stack_sorted e maps ops n : priorities_first ops ->
  StronglySorted (outside_by (last_set ops) (installed e ops n)) (stack e maps ops n).
Proof.
  intros H. eapply SS_impl; [|apply (stacks_sorted e (exports e) maps ops n H)]. intros x y _ _ [A|[A B]]; rewrite !tools_last in A; [left|right]; auto.
Qed.

(** *** continuing a run *)
Lemma run_app e l2 : forall l1 st, run e st (l1 ++ l2) =
  (do ' (st1, x1) <- run e st l1; do ' (st2, x2) <- run e st1 l2; Ok (st2, x1 ++ x2)).
Proof.
  induction l1 as [|o r IH]; intros st; cbn [app run].
  - cbn [bind]. destruct (run e st l2) as [[st2 x2]|]; reflexivity.
  - destruct (step e st o) as [[st1 x]|]; cbn [bind]; [|reflexivity]. rewrite IH. destruct (run e st1 r) as [[st2 x2]|]; cbn [bind]; [|reflexivity].
    destruct (run e st2 l2) as [[st3 x3]|]; reflexivity.
Qed.
Lemma run_one e st o : run e st [o] = (do ' (st1, x) <- step e st o; Ok (st1, [x])).
Proof. cbn [run]. destruct (step e st o) as [[st1 x]|]; reflexivity. Qed.

Lemma run_bext e F : env_ok e -> forall ops st a, rel1 e F st a -> (F -> fresh_ops ins_c (exports e) e a ops) -> (forall o, In o ops -> lib_op e (exports e) relocs o) ->
  exists st', run e st ops = Ok (st', snd (arun ins_c (exports e) e a ops)) /\ rel1 e F st' (fst (arun ins_c (exports e) e a ops)) /\ bext (s_b st) (s_b st').
Proof.
  intros EO. induction ops as [|o r IH]; intros st a R HF HL; cbn [run arun].
  - exists st. split; [auto|]. split; [auto|apply bext_refl].
  - destruct (step_spec e (exports e) relocs EO F st a o R) as (st1 & E1 & R1 & B1 & _); [intros f; apply HF; auto|apply HL; left; auto|].
    rewrite E1. cbn [bind].
    destruct (IH st1 _ R1) as (st2 & E2 & R2 & B2); [intros f; apply HF; auto|intros; apply HL; right; auto|].
    rewrite E2. cbn [bind]. exists st2. destruct (astep ins_c (exports e) e a o) as [a1 x]. cbn [fst snd] in *. destruct (arun ins_c (exports e) e a1 r). cbn [fst snd] in *.
    split; [auto|]. split; [auto|]. eapply bext_trans; eauto.
Qed.

(** the state reached by the first part of a history and the step after it *)
Lemma step_any e maps mem ops o st rs : process_ok e maps (ops ++ [o]) -> run e (init_state maps mem) ops = Ok (st, rs) ->
  let a := fst (arun ins_c (exports e) e (a0 maps) ops) in
  rel1 e False st a /\
  exists st', step e st o = Ok (st', snd (astep ins_c (exports e) e a o)) /\ rel1 e False st' (fst (astep ins_c (exports e) e a o)) /\
    match o with OFilter f => s_p st' = mkPS (p_maps (s_p st)) (p_mem (s_p st)) (p_log (s_p st)) f
               | OLoad _ m | OUnload _ m => p_mem (s_p st') = m /\ p_filter (s_p st') = p_filter (s_p st) /\ p_log (s_p st') = p_log (s_p st)
               | _ => memf relocs (fst (astep ins_c (exports e) e a o)) (s_p st) (s_p st') end.
Proof.
  intros P E a. destruct (run_any e maps mem ops (process_app _ _ _ _ P)) as (st0 & E0 & R). rewrite E in E0. injection E0 as <- _. split; [exact R|].
  destruct (step_spec e (exports e) relocs (po_env _ _ _ P) False st a o R) as (st' & E1 & R1 & _ & M); [intros []|eapply process_ops; [exact P|apply in_or_app; right; left; auto]|].
  eauto.
Qed.

Lemma step_hist e maps mem ops o st rs : process_ok e maps (ops ++ [o]) -> fresh e (ops ++ [o]) -> run e (init_state maps mem) ops = Ok (st, rs) ->
  rel1 e True st (history e maps ops) /\
  exists st', step e st o = Ok (st', snd (astep place (exports e) e (history e maps ops) o)) /\ rel1 e True st' (history e maps (ops ++ [o])).
Proof.
  intros P F E. destruct (run_hist e maps mem ops (process_app _ _ _ _ P) (fresh_app _ _ _ F)) as (st0 & E0 & R). rewrite E in E0. injection E0 as <- _. split; [exact R|].
  destruct (run_hist e maps mem (ops ++ [o]) P F) as (st2 & E2 & R2). rewrite run_app, E in E2. cbn [bind] in E2. rewrite run_one in E2.
  destruct (step e st o) as [[st' x]|] eqn:Es; [|discriminate]. cbn [bind] in E2. injection E2 as <- E2. exists st'. split; [|auto].
  rewrite arun_app in E2. cbn [snd arun] in E2. fold (history e maps ops) in E2.
  destruct (astep place (exports e) e (history e maps ops) o) as [a1 y] eqn:Ea. cbn [snd] in *. apply app_inj_tail in E2. destruct E2 as [_ ->]. reflexivity.
Qed.

(** *** C04 *)
Lemma set_priority_frame e maps mem ops t v st rs : process_ok e maps ops -> run e (init_state maps mem) ops = Ok (st, rs) -> s_init st = true ->
  exists st', step e st (OSetPriority t v) = Ok (st', RCode GOTCHA_SUCCESS) /\ s_p st' = s_p st /\ s_l st' = s_l st /\
    (forall h, gotcha_get_wrappee st' h = gotcha_get_wrappee st h) /\ (forall n, outermost st' n = outermost st n) /\
    b_ib (s_b st') = b_ib (s_b st) /\ b_tables (s_b st') = b_tables (s_b st).
Proof.
  intros P E Hi. destruct (run_any e maps mem ops P) as (st0 & E0 & R). rewrite E in E0. injection E0 as <- _.
  destruct R as [R|[ch R]]; [rewrite (pr_i _ _ _ _ _ R) in Hi; discriminate|].
  cbn [step]. unfold gotcha_set_priority, api_init, gotcha_init. rewrite Hi. cbn [bind].
  destruct (br_tools _ _ _ _ _ (sr_b _ _ _ _ _ _ _ _ R)) as [l TO].
  destruct (set_priority_spec (e_ps e) _ l t v (eo_ps _ (po_env _ _ _ P)) TO) as (ts & l' & E2 & _). rewrite E2. cbn [bind].
  eexists. split; [reflexivity|]. cbn. split; [auto|]. split; [auto|]. split; [auto|]. split; [|auto]. intros n. unfold outermost. cbn. reflexivity.
Qed.

(** *** C06, C18 *)
Lemma step_memory e maps mem ops o st rs : process_ok e maps (ops ++ [o]) -> gotcha_op o -> run e (init_state maps mem) ops = Ok (st, rs) ->
  exists st' r, step e st o = Ok (st', r) /\ p_maps (s_p st') = p_maps (s_p st) /\ p_filter (s_p st') = p_filter (s_p st) /\
   forall x, p_mem (s_p st') x = p_mem (s_p st) x \/
    exists m n w, accepted (p_filter (s_p st)) (p_maps (s_p st)) m /\ slot relocs m n x /\
                  In w (installed e (ops ++ [o]) n) /\ p_mem (s_p st') x = en_wrapper w.
Proof.
  intros P G E. destruct (step_any e maps mem ops o st rs P E) as (_ & st' & E1 & _ & M). exists st', (snd (astep ins_c (exports e) e (fst (arun ins_c (exports e) e (a0 maps) ops)) o)).
  split; [exact E1|]. assert (M' : memf relocs (fst (astep ins_c (exports e) e (fst (arun ins_c (exports e) e (a0 maps) ops)) o)) (s_p st) (s_p st')) by (destruct o; cbn in G; try contradiction; exact M).
  destruct M' as (F1 & M1 & H & _). split; [auto|]. split; [auto|]. intros x. destruct (H x) as [Hx|(m & n & A & B & C)]; [auto|]. right.
  apply in_map_iff in C. destruct C as (w & C1 & C2). exists m, n, w. split; [auto|]. split; [auto|]. split; [|auto].
  apply (stack_from e (exports e) ins_c maps (ops ++ [o]) n w ins_c_in). rewrite arun_app. cbn [fst arun]. destruct (astep ins_c (exports e) e _ o). exact C2.
Qed.

(** the same for the stores performed, also those which leave the slot as it was *)
Lemma step_stores e maps mem ops o st rs : process_ok e maps (ops ++ [o]) -> run e (init_state maps mem) ops = Ok (st, rs) ->
  exists st' r evs, step e st o = Ok (st', r) /\ p_log (s_p st') = p_log (s_p st) ++ evs /\
   forall x v, In (PStore x v) evs ->
    exists m n w, accepted (p_filter (s_p st)) (p_maps (s_p st)) m /\ slot relocs m n x /\
                  In w (installed e (ops ++ [o]) n) /\ v = en_wrapper w.
Proof.
  intros P E. destruct (step_any e maps mem ops o st rs P E) as (_ & st' & E1 & _ & M). exists st', (snd (astep ins_c (exports e) e (fst (arun ins_c (exports e) e (a0 maps) ops)) o)).
  assert (N : p_log (s_p st') = p_log (s_p st) -> exists evs, step e st o = Ok (st', snd (astep ins_c (exports e) e (fst (arun ins_c (exports e) e (a0 maps) ops)) o)) /\
     p_log (s_p st') = p_log (s_p st) ++ evs /\ forall x v, In (PStore x v) evs ->
    exists m n w, accepted (p_filter (s_p st)) (p_maps (s_p st)) m /\ slot relocs m n x /\ In w (installed e (ops ++ [o]) n) /\ v = en_wrapper w).
  { intros Hl. exists []. rewrite app_nil_r. split; [exact E1|]. split; [exact Hl|]. intros x v []. }
  assert (Y : memf relocs (fst (astep ins_c (exports e) e (fst (arun ins_c (exports e) e (a0 maps) ops)) o)) (s_p st) (s_p st') ->
     exists evs, step e st o = Ok (st', snd (astep ins_c (exports e) e (fst (arun ins_c (exports e) e (a0 maps) ops)) o)) /\
     p_log (s_p st') = p_log (s_p st) ++ evs /\ forall x v, In (PStore x v) evs ->
    exists m n w, accepted (p_filter (s_p st)) (p_maps (s_p st)) m /\ slot relocs m n x /\ In w (installed e (ops ++ [o]) n) /\ v = en_wrapper w).
  { intros (_ & _ & _ & evs & L & W). exists evs. split; [exact E1|]. split; [exact L|]. intros x v H. destruct (W _ _ H) as (m & n & A & B & C).
    apply in_map_iff in C. destruct C as (w & C1 & C2). exists m, n, w. split; [auto|]. split; [auto|]. split; [|auto].
    apply (stack_from e (exports e) ins_c maps (ops ++ [o]) n w ins_c_in). rewrite arun_app. cbn [fst arun]. destruct (astep ins_c (exports e) e _ o). exact C2. }
  destruct o; try (apply Y; exact M); apply N; [rewrite M; reflexivity|apply M|apply M].
Qed.

(** *** C09 *)
Definition minv (a : astate) : Prop := a_main a = true -> a_stack a n_main <> [].

Lemma amain_stack ins ex e a n : (forall m x s, ins m x s <> []) -> minv a ->
  minv (amain ins ex e a n) /\ (n = n_main -> a_stack (amain ins ex e a n) n_main <> []) /\ (n <> n_main -> amain ins ex e a n = a).
Proof.
  intros Hi M. unfold amain. destruct (cstr_dec n n_main) as [->|En].
  - rewrite cstr_eqb_refl. cbn [andb]. destruct (a_main a) eqn:Em; cbn [negb]; [split; [auto|]; split; [intros _; apply M; auto|congruence]|].
    match goal with |- context [abinds ins ex ?b n_gotcha (main_binds e)] => set (c := b) end.
    assert (Hs : a_stack (fst (abinds ins ex c n_gotcha (main_binds e))) n_main <> []).
    { cbn [abinds main_binds]. pose proof (abind_stack_gen ex ins c n_gotcha (mkUB n_main (e_w_main e) (e_h_main e))) as S.
      destruct (abind ins ex c n_gotcha (mkUB n_main (e_w_main e) (e_h_main e))) as [a1 f1]. cbn [fst] in *. rewrite S. unfold cupd. cbn [ub_name]. rewrite cstr_eqb_refl. apply Hi. }
    split; [intros _; exact Hs|]. split; [auto|congruence].
  - rewrite (cstr_eqb_neq _ _ En). cbn [andb]. split; [auto|]. split; [contradiction|auto].
Qed.

Lemma abind_grows ins ex a t u n : (forall m x s, ins m x s <> []) -> a_stack a n <> [] -> a_stack (fst (abind ins ex a t u)) n <> [].
Proof. intros Hi H. rewrite abind_stack_gen. unfold cupd. destruct (cstr_eqb n (ub_name u)); auto. Qed.

Lemma user_flag ins ex e t : (forall m x s, ins m x s <> []) -> forall ubs a, minv a ->
  (snd (abinds_user ins ex e a t ubs) = true <->
   exists l1 u l2, ubs = l1 ++ u :: l2 /\ ub_name u <> n_main /\ a_stack (fst (abinds_user ins ex e a t l1)) (ub_name u) = [] /\ first_export ex (a_maps a) (ub_name u) = None).
Proof.
  intros Hi. induction ubs as [|u r IH]; intros a M; cbn [abinds_user].
  - split; [discriminate|]. intros ([|] & ? & ? & ? & _); discriminate.
  - destruct (amain_stack ins ex e a (ub_name u) Hi M) as (M1 & A1 & A2). destruct (frame_amain e ex ins a (ub_name u)) as (_ & _ & EM).
    set (b := amain ins ex e a (ub_name u)) in *. destruct (frame_abind ex ins b t u) as (_ & FM & _ & FMp).
    assert (M2 : minv (fst (abind ins ex b t u))). { intros H. rewrite FM in H. apply abind_grows; auto. }
    assert (HF : snd (abind ins ex b t u) = true <-> a_stack b (ub_name u) = [] /\ first_export ex (a_maps b) (ub_name u) = None).
    { unfold abind. destruct (a_stack b (ub_name u)); cbn; [destruct (first_export ex (a_maps b) (ub_name u))|]; split; intros; try discriminate; try tauto; destruct H; discriminate. }
    specialize (IH (fst (abind ins ex b t u)) M2). rewrite FMp in IH.
    assert (Hl : forall l1, fst (abinds_user ins ex e a t (u :: l1)) = fst (abinds_user ins ex e (fst (abind ins ex b t u)) t l1)).
    { intros l1. cbn [abinds_user]. fold b. destruct (abind ins ex b t u) as [a1 f1]. cbn [fst]. destruct (abinds_user ins ex e a1 t l1). reflexivity. }
    assert (Hs : snd (let (a1, f1) := abind ins ex b t u in let (a2, f2) := abinds_user ins ex e a1 t r in (a2, f1 || f2)) =
       snd (abind ins ex b t u) || snd (abinds_user ins ex e (fst (abind ins ex b t u)) t r)).
    { destruct (abind ins ex b t u) as [a1 f1]. cbn [fst snd]. destruct (abinds_user ins ex e a1 t r). reflexivity. }
    rewrite Hs, orb_true_iff, HF, IH, EM. split.
    + intros [[A B]|(l1 & v & l2 & -> & A & B & C)].
      * exists [], u, r. split; [auto|]. assert (Hn : ub_name u <> n_main) by (intros En; apply (A1 En); rewrite <- En; auto). split; [auto|]. cbn [abinds_user fst]. split; [rewrite <- (A2 Hn); auto|auto].
      * exists (u :: l1), v, l2. split; [auto|]. split; [auto|]. rewrite Hl. auto.
    + intros ([|v l1] & w & l2 & E & A & B & C); cbn [app] in E.
      * injection E as <- <-. left. cbn [abinds_user fst] in B. split; [rewrite (A2 A); auto|auto].
      * injection E as <- ->. right. exists l1, w, l2. rewrite Hl in B. auto.
Qed.

Lemma run_minv ins ex e : (forall m x s, ins m x s <> []) -> forall maps ops, minv (fst (arun ins ex e (a0 maps) ops)).
Proof.
  intros Hi maps ops H. apply main_flag_iff in H. intros S. apply stack_empty in S; [|auto]. apply S. clear S. unfold main_bound in H. apply in_map_iff in H. destruct H as (u & En & Hu).
  unfold wrapped, installed. assert (Hin : In u (map trip (installs e false false ops))).
  { eapply Permutation_in; [apply Permutation_sym, installs_perm|]. apply in_or_app. auto. }
  apply in_map_iff in Hin. destruct Hin as (p & Ep & Hp). intros S. assert (Hx : In (snd p) (sel n_main (installs e false false ops))).
  { apply in_sel. destruct p as [k x]. cbn in *. subst u. cbn in En. subst k. auto. }
  rewrite S in Hx. destruct Hx.
Qed.

Lemma wrap_code e maps mem ops ubs tool st rs : process_ok e maps ops -> run e (init_state maps mem) ops = Ok (st, rs) ->
  exists st' c, gotcha_wrap e st ubs tool = Ok (st', c) /\ (c = GOTCHA_SUCCESS \/ c = GOTCHA_FUNCTION_NOT_FOUND) /\
   (c = GOTCHA_FUNCTION_NOT_FOUND <->
    exists l1 u l2, ubs = l1 ++ u :: l2 /\ ub_name u <> n_main /\ ~ wrapped e (ops ++ [OWrap l1 tool]) (ub_name u) /\
      first_export (exports e) (maps_after maps ops) (ub_name u) = None).
Proof.
  intros P E. assert (P' : process_ok e maps (ops ++ [OWrap ubs tool])).
  { destruct P as [A B C]. constructor; auto. intros o m Ho Hm. apply in_app_or in Ho. destruct Ho as [Ho|[<-|[]]]; [eauto|destruct Hm]. }
  destruct (step_any e maps mem ops _ st rs P' E) as (_ & st' & E1 & _). set (a := fst (arun ins_c (exports e) e (a0 maps) ops)) in *.
  cbn [step] in E1. destruct (gotcha_wrap e st ubs tool) as [[st2 c]|] eqn:Ew; [|discriminate]. cbn [bind] in E1. exists st2, c. split; [auto|].
  cbn [astep] in E1. unfold awrap in E1. fold (tool_name tool) in E1. set (b := ause (ainit ins_c (exports e) e a) (tool_name tool)) in *.
  assert (Mb : minv b).
  { intros H. assert (Hb : a_main b = a_main a). { destruct (hist_init e (exports e) ins_c (fun _ (_ : list (cstr * entry)) => True)) with (a := a) (I := @nil (cstr * entry)) as (_ & _ & X); auto. }
    pose proof (looked_init e (exports e) ins_c ins_c_ne a) as (_ & L & _). apply L. apply (run_minv ins_c (exports e) e ins_c_ne). fold a. congruence. }
  assert (Eb : a_maps b = maps_after maps ops). { unfold b. cbn [ause a_maps]. rewrite init_maps. unfold a. rewrite run_maps. reflexivity. }
  pose proof (user_flag ins_c (exports e) e (tool_name tool) ins_c_ne ubs b Mb) as UF. rewrite Eb in UF.
  assert (Hl : forall l1 n, a_stack (fst (abinds_user ins_c (exports e) e b (tool_name tool) l1)) n = [] <-> ~ wrapped e (ops ++ [OWrap l1 tool]) n).
  { intros l1 n. rewrite <- (stack_empty e (exports e) ins_c ins_c_ne maps). rewrite arun_app. cbn [fst arun astep]. unfold awrap. fold (tool_name tool) a b.
    destruct (abinds_user ins_c (exports e) e b (tool_name tool) l1). reflexivity. }
  destruct (abinds_user ins_c (exports e) e b (tool_name tool) ubs) as [a' f]. cbn [fst snd] in *. injection E1 as _ ->. split; [destruct f; auto|].
  assert (EF : (if f then GOTCHA_FUNCTION_NOT_FOUND else GOTCHA_SUCCESS) = GOTCHA_FUNCTION_NOT_FOUND <-> f = true) by (destruct f; split; intros; auto; discriminate).
  rewrite EF, UF. split; intros (l1 & u & l2 & A & B & C & D); exists l1, u, l2; (split; [auto|]; split; [auto|]; split; [apply Hl; auto|auto]).
Qed.
