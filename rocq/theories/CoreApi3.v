(** Further facts about histories: initialisation, the first wrapping of main, entering main. *)
From Verif Require Import Base ListFacts SpecHash HashTrace HashModel HashProofs ElfModel SpecElf ElfProofs ToolModel CoreModel SpecCore SpecRun
  ToolProofs CoreMaps CoreRel CoreLib CoreStep CoreWrap CoreLoop CoreMain CoreEnv CoreSpec CoreFacts CoreHist CoreApi CoreApi2.
From Coq Require Import Permutation Sorted.

(** *** initialised *)
Lemma ainit_true ins ex e a : a_init (ainit ins ex e a) = true.
Proof.
  unfold ainit. destruct (a_init a) eqn:E; [auto|].
  match goal with |- context [abinds _ _ ?x ?t ?u] => destruct (frame_abinds ex ins t u x) as (A & _) end. rewrite A. reflexivity.
Qed.
Lemma user_init ins ex e t ubs : forall a, a_init (fst (abinds_user ins ex e a t ubs)) = a_init a.
Proof.
  induction ubs as [|u r IH]; intros a; cbn [abinds_user]; [auto|].
  pose proof (frame_amain e ex ins a (ub_name u)) as (F1 & _). pose proof (frame_abind ex ins (amain ins ex e a (ub_name u)) t u) as (F3 & _).
  destruct (abind ins ex (amain ins ex e a (ub_name u)) t u) as [a1 f1]. cbn [fst] in *. specialize (IH a1). destruct (abinds_user ins ex e a1 t r) as [a2 f2]. cbn [fst] in *. congruence.
Qed.
Lemma step_init ins ex e a o : a_init (fst (astep ins ex e a o)) = a_init a || is_api o.
Proof.
  destruct o as [ubs tool|t v|t|f|libs mem| |keep mem]; cbn [astep is_api fst a_init]; rewrite ?orb_false_r, ?orb_true_r; auto using ainit_true.
  - unfold awrap. match goal with |- context [abinds_user _ _ _ ?x ?t ?u] => pose proof (user_init ins ex e t u x) as H; destruct (abinds_user ins ex e x t u) end. cbn [fst] in *.
    rewrite H. apply ainit_true.
  - destruct (a_init a) eqn:E; auto.
Qed.
Lemma run_init ins ex e ops : forall a, a_init (fst (arun ins ex e a ops)) = a_init a || existsb is_api ops.
Proof.
  induction ops as [|o r IH]; intros a; cbn [arun existsb]; [rewrite orb_false_r; auto|].
  pose proof (step_init ins ex e a o) as H. destruct (astep ins ex e a o) as [a1 x]. cbn [fst] in *. specialize (IH a1). destruct (arun ins ex e a1 r). cbn [fst] in *. rewrite IH, H, orb_assoc. auto.
Qed.

Lemma state_init e maps mem ops st rs : process_ok e maps ops -> run e (init_state maps mem) ops = Ok (st, rs) -> s_init st = existsb is_api ops.
Proof.
  intros P E. destruct (run_any e maps mem ops P) as (st0 & E0 & R). rewrite E in E0. injection E0 as <- _.
  assert (H := run_init ins_c (exports e) e ops (a0 maps)). cbn [a0 a_init orb] in H. rewrite <- H.
  destruct R as [R|[ch S]]; [rewrite (pr_i _ _ _ _ _ R); symmetry; apply (pr_ai _ _ _ _ _ R)|]. rewrite (sr_init _ _ _ _ _ _ _ _ S). symmetry. apply (sr_ainit _ _ _ _ _ _ _ _ S).
Qed.

Lemma set_priority_frame' e maps mem ops t v st rs : process_ok e maps ops -> run e (init_state maps mem) ops = Ok (st, rs) -> existsb is_api ops = true ->
  exists st', step e st (OSetPriority t v) = Ok (st', RCode GOTCHA_SUCCESS) /\ s_p st' = s_p st /\ s_l st' = s_l st /\
    (forall h, gotcha_get_wrappee st' h = gotcha_get_wrappee st h) /\ (forall n, outermost st' n = outermost st n) /\
    b_ib (s_b st') = b_ib (s_b st) /\ b_tables (s_b st') = b_tables (s_b st).
Proof. intros P E H. apply (set_priority_frame e maps mem ops t v st rs P E). rewrite (state_init e maps mem ops st rs P E). auto. Qed.

(** *** main *)
Definition own_main (e : env) : entry := mkE n_gotcha (e_w_main e) (e_h_main e).

Lemma own_main_in_stack e maps ops : main_bound ops -> In (own_main e) (stack e maps ops n_main).
Proof.
  intros H. apply (Permutation_in _ (Permutation_sym (stacks_installed e (exports e) maps ops n_main))). unfold installed. apply in_sel.
  enough (G : forall ops i, main_bound ops -> In (n_main, own_main e) (installs e i false ops)) by auto. clear. induction ops as [|o r IH]; intros i H; [destruct H|].
  unfold main_bound, user_binds in H. cbn [flat_map map] in H. rewrite map_app in H. apply in_app_or in H.
  assert (HC : forall t ubs, In n_main (map ub_name ubs) -> In (n_main, own_main e) (call_installs e false t ubs)).
  { intros t. induction ubs as [|u ubs IHu]; [intros []|]; intros [Hu|Hu]; cbn [call_installs].
    - rewrite Hu, cstr_eqb_refl. cbn. auto.
    - destruct (cstr_eqb (ub_name u) n_main) eqn:E; [cbn; auto|]. cbn. right. apply IHu. auto. }
  destruct o as [ubs tool|t v|t|f|libs mem| |keep mem]; cbn [installs op_binds map] in *.
  - apply in_or_app. right. apply in_or_app. destruct (existsb (fun u => cstr_eqb (ub_name u) n_main) ubs) eqn:E.
    + left. apply HC. apply existsb_exists in E. destruct E as (u & E1 & E2). apply cstr_eqb_ok in E2. apply in_map_iff. exists u. auto.
    + right. apply IH. destruct H as [H|H]; [|exact H]. exfalso. apply in_map_iff in H. destruct H as (u & E1 & E2).
      assert (X : existsb (fun u => cstr_eqb (ub_name u) n_main) ubs = true) by (apply existsb_exists; exists u; split; [auto|]; rewrite E1; apply cstr_eqb_refl). congruence.
  - destruct H as [[]|H]. apply in_or_app. right. apply IH. auto.
  - destruct H as [[]|H]. apply in_or_app. right. apply IH. auto.
  - destruct H as [[]|H]. apply IH. auto.
  - destruct H as [[]|H]. apply IH. auto.
  - destruct H as [[]|H]. apply IH. auto.
  - destruct H as [[]|H]. apply IH. auto.
Qed.

(** what comes after an entry in a chain *)
Lemma wired_next st l1 x l2 o : wired st (l1 ++ x :: l2) o ->
  gotcha_get_wrappee st (en_handle x) = Ok (match l2 with y :: _ => Ptr (en_wrapper y) | [] => match o with Some a => Ptr a | None => Uninit end end) /\ wired st l2 o.
Proof. induction l1 as [|y l1 IH]; intros W; [destruct W as [W1 W2]; split; [rewrite W1; destruct l2; reflexivity|exact W2]|]. apply IH. apply W. Qed.
(** which wrappers of main are entered: those inside GOTCHA's own one *)
Lemma main_entry e maps mem ops : process_ok e maps ops -> fresh e ops -> main_bound ops ->
  exists st rs l1 l2 x l3 l4, run e (init_state maps mem) ops = Ok (st, rs) /\
    stack e maps ops n_main = l1 ++ own_main e :: l2 /\
    stack e maps ops n_libc_start_main = l3 ++ x :: l4 /\ en_wrapper x = e_w_libc e /\ en_handle x = e_h_libc e /\
    let next := match l2 with y :: _ => Ptr (en_wrapper y) | [] => match original e maps ops n_main with Some a => Ptr a | None => Uninit end end in
    internal_main_target e st = Ok next /\
    internal_libc_start_main e st = Ok (match l4 with y :: _ => Ptr (en_wrapper y) | [] => match original e maps ops n_libc_start_main with Some a => Ptr a | None => Uninit end end, next) /\
    wired st l2 (original e maps ops n_main) /\ wired st l4 (original e maps ops n_libc_start_main).
Proof.
  intros P F M. destruct (run_hist e maps mem ops P F) as (st & E & R). pose proof (own_main_in_stack e maps ops M) as Hin.
  apply in_split in Hin. destruct Hin as (l1 & l2 & Hs). pose proof (rel_wired e st _ n_main R) as W. fold (stack e maps ops n_main) (original e maps ops n_main) in W. rewrite Hs in W.
  destruct (wired_next _ _ _ _ _ W) as [W1 W2].
  assert (Hl : exists x, In x (stack e maps ops n_libc_start_main) /\ en_wrapper x = e_w_libc e /\ en_handle x = e_h_libc e).
  { assert (Hu : In (mkUB n_libc_start_main (e_w_libc e) (e_h_libc e)) (map trip (installs e false false ops))).
    { eapply Permutation_in; [apply Permutation_sym, installs_perm|]. apply in_or_app. left. unfold own. apply in_or_app. right.
      unfold main_bound in M. cbn [negb andb]. assert (X : existsb is_main (user_binds ops) = true).
      { apply in_map_iff in M. destruct M as (u & M1 & M2). apply existsb_exists. exists u. split; [auto|]. unfold is_main. rewrite M1. apply cstr_eqb_refl. }
      rewrite X. left. auto. }
    apply in_map_iff in Hu. destruct Hu as ([n x] & E1 & E2). injection E1 as -> Ew Eh.
    assert (Hi : In x (installed e ops n_libc_start_main)) by (unfold installed; apply in_sel; auto).
    apply (Permutation_in _ (Permutation_sym (stacks_installed e (exports e) maps ops n_libc_start_main))) in Hi. eauto. }
  destruct Hl as (x & Hx & Xw & Xh). apply in_split in Hx. destruct Hx as (l3 & l4 & Hc). pose proof (rel_wired e st _ n_libc_start_main R) as V. fold (stack e maps ops n_libc_start_main) (original e maps ops n_libc_start_main) in V. rewrite Hc in V.
  destruct (wired_next _ _ _ _ _ V) as [V1 V2]. rewrite Xh in V1. cbn [own_main en_handle] in W1.
  exists st, (snd (arun place (exports e) e (a0 maps) ops)), l1, l2, x, l3, l4. split; [exact E|]. split; [exact Hs|]. split; [exact Hc|]. split; [exact Xw|]. split; [exact Xh|]. split; [exact W1|]. split; [|auto].
  unfold internal_libc_start_main. rewrite V1. cbn [bind]. rewrite W1. cbn [bind]. reflexivity.
Qed.

(** the first entry of main in the order of installation is GOTCHA's own one *)
Lemma own_main_first e ops : installed e ops n_main = [] \/ exists l, installed e ops n_main = own_main e :: l.
Proof.
  unfold installed. enough (G : forall ops i, sel n_main (installs e i false ops) = [] \/ exists l, sel n_main (installs e i false ops) = own_main e :: l) by auto.
  assert (Hd : forall i : bool, sel n_main (if i then [] else map (bound n_gotcha) (dl_binds e)) = []) by (intros []; reflexivity).
  assert (HC : forall t ubs, (existsb (fun u => cstr_eqb (ub_name u) n_main) ubs = false /\ sel n_main (call_installs e false t ubs) = []) \/
                exists l, sel n_main (call_installs e false t ubs) = own_main e :: l).
  { intros t. induction ubs as [|u r IH]; cbn [call_installs existsb]; [left; auto|]. destruct (cstr_eqb (ub_name u) n_main) eqn:E; cbn [andb orb negb].
    - right. rewrite sel_app. eexists. reflexivity.
    - cbn [app]. change (bound t u :: ?x) with ([bound t u] ++ x). rewrite sel_app, sel_bound, E. cbn [app]. auto. }
  clear ops. induction ops as [|o r IH]; intros i; [left; auto|].
  destruct o as [ubs tool|t v|t|f|libs mem| |keep mem]; cbn [installs]; rewrite ?sel_app, ?Hd; cbn [app orb]; auto.
  destruct (HC (tool_name tool) ubs) as [[-> ->]|[l ->]]; [cbn [app]; auto|right; eexists; reflexivity].
Qed.

Lemma main_head e maps ops : (forall t v, In (OSetPriority t v) ops -> t <> n_gotcha /\ v <= -1) -> main_bound ops ->
  exists l2, stack e maps ops n_main = own_main e :: l2.
Proof.
  intros HP M. unfold stack, history.
  pose (P := fun (a : astate) (I : list (cstr * entry)) => (forall t, prio_of (a_tools a) t <= -1) /\ prio_of (a_tools a) n_gotcha = -1 /\
     (forall l, sel n_main I = own_main e :: l -> exists l2, a_stack a n_main = own_main e :: l2) /\ (sel n_main I = [] -> a_stack a n_main = [])).
  assert (U : forall m t n, prio_of (use_tool m t) n = prio_of m n).
  { intros m t n. unfold prio_of. rewrite aget_use. destruct (aget cstr_eqb m n) eqn:E; [auto|]. destruct (cstr_eqb t n); auto. }
  assert (H : P (fst (arun place (exports e) e (a0 maps) ops)) ([] ++ installs e (a_init (a0 maps)) (a_main (a0 maps)) ops)).
  { apply hist_run; unfold P in *.
    - intros a I t u (A & B & C & D). destruct (frame_abind (exports e) place a t u) as (_ & _ & Et & _). rewrite Et, place_abind, sel_app, sel_bound. unfold cupd. split; [auto|]. split; [auto|].
      destruct (cstr_dec (ub_name u) n_main) as [En|En].
      + rewrite En, cstr_eqb_refl. destruct (sel n_main I) as [|y I'] eqn:EI.
        * rewrite (D eq_refl). cbn [app place]. split; [|discriminate]. intros l Hl. exists []. f_equal. congruence.
        * split; [|discriminate]. intros l Hl. assert (y = own_main e) as -> by (cbn in Hl; congruence). destruct (C I' eq_refl) as [l2 Hl2]. rewrite Hl2. cbn [place en_tool own_main].
          specialize (A t). destruct (Z.ltb_spec (prio_of (a_tools a) n_gotcha) (prio_of (a_tools a) t)); [lia|]. eauto.
      + rewrite (cstr_eqb_neq (ub_name u)) by auto. rewrite (cstr_eqb_neq n_main) by auto. rewrite app_nil_r. auto.
    - intros a I t (A & B & C & D). cbn [ause a_tools a_stack]. rewrite U. split; [intros; rewrite U; auto|auto].
    - intros a I i m H. exact H.
    - intros a I o maps' H. exact H.
    - cbn. split; [intros; lia|]. split; [reflexivity|]. split; [discriminate|auto].
    - intros l1 o l2 Ho I (A & B & C & D). destruct o as [ubs tool|t v|t|f|libs mem| |keep mem]; auto. cbn [a_tools a_stack].
      destruct (HP t v) as [Ht Hv]; [rewrite Ho; apply in_elt|]. split; [|split; [|auto]].
      + intros n. destruct (cstr_dec n t) as [->|Hn].
        * unfold prio_of. rewrite aget_set, cstr_eqb_refl. destruct (aget cstr_eqb _ t); cbn; lia.
        * rewrite prio_set_other by auto. rewrite U. auto.
      + rewrite prio_set_other by auto. rewrite U. auto. }
  destruct H as (_ & _ & C & D). cbn [a0 a_init a_main app] in *. fold (installed e ops n_main) in C, D.
  destruct (own_main_first e ops) as [H|[l H]]; [|eapply C; eauto].
  pose proof (own_main_in_stack e maps ops M) as Hin. unfold stack, history in Hin. rewrite (D H) in Hin. destruct Hin.
Qed.

(** the first wrapping of main *)
Lemma first_main e maps ops l u tool : ub_name u = n_main -> ~ main_bound (ops ++ [OWrap l tool]) ->
  let x := mkE (tool_name tool) (ub_wrapper u) (ub_handle u) in
  stack e maps (ops ++ [OWrap l tool]) n_main = [] /\
  stack e maps (ops ++ [OWrap (l ++ [u]) tool]) n_main =
    if last_set ops n_gotcha <? last_set ops (tool_name tool) then [x; own_main e] else [own_main e; x].
Proof.
  intros Hu Hm x. assert (S0 : stack e maps (ops ++ [OWrap l tool]) n_main = []).
  { apply (stack_empty e (exports e) place place_ne maps). intros W. apply W. destruct (own_main_first e (ops ++ [OWrap l tool])) as [H|[r H]]; [auto|].
    exfalso. apply Hm. assert (Hin : In (own_main e) (installed e (ops ++ [OWrap l tool]) n_main)) by (rewrite H; left; auto).
    unfold installed in Hin. apply in_sel in Hin. apply (in_map trip) in Hin. apply (Permutation_in _ (installs_perm e _ _ _)) in Hin.
    apply in_app_or in Hin. unfold main_bound. destruct Hin as [Hin|Hin]; [|apply (in_map ub_name) in Hin; exact Hin].
    unfold own in Hin. cbn [negb] in Hin. rewrite !andb_true_r in Hin. destruct (existsb is_main (user_binds (ops ++ [OWrap l tool]))) eqn:Eu.
    - apply existsb_exists in Eu. destruct Eu as (y & Y1 & Y2). apply cstr_eqb_ok in Y2. rewrite <- Y2. apply in_map. exact Y1.
    - exfalso. rewrite app_nil_r in Hin. destruct (existsb is_api (ops ++ [OWrap l tool])); [|destruct Hin].
      destruct Hin as [Hin|[Hin|[]]]; discriminate Hin. }
  split; [exact S0|]. unfold stack in *. rewrite (history_wrap e maps ops (l ++ [u])), abinds_user_app, <- (history_wrap e maps ops l).
  assert (P : forall t, prio_of (a_tools (history e maps (ops ++ [OWrap l tool]))) t = last_set ops t).
  { intros t. unfold history. rewrite tools_last. unfold last_set. rewrite fold_left_app. reflexivity. }
  assert (Em : a_main (history e maps (ops ++ [OWrap l tool])) = false).
  { destruct (a_main (history e maps (ops ++ [OWrap l tool]))) eqn:Em; [|auto]. exfalso. apply Hm. apply (main_flag_iff place e (exports e) maps). exact Em. }
  set (a := history e maps (ops ++ [OWrap l tool])) in *. cbn [abinds_user].
  assert (U : forall m t n, prio_of (use_tool m t) n = prio_of m n).
  { intros m t n. unfold prio_of. rewrite aget_use. destruct (aget cstr_eqb m n) eqn:E; [auto|]. destruct (cstr_eqb t n); auto. }
  assert (A1 : a_stack (amain place (exports e) e a (ub_name u)) n_main = [own_main e] /\ forall t, prio_of (a_tools (amain place (exports e) e a (ub_name u))) t = last_set ops t).
  { unfold amain. rewrite Hu, cstr_eqb_refl, Em. cbn [andb negb].
    match goal with |- context [abinds place _ (ause ?y n_gotcha) n_gotcha (main_binds e)] => set (b := y) end.
    assert (Sb : a_stack b n_main = [] /\ forall t, prio_of (a_tools b) t = last_set ops t).
    { unfold b. split.
      - unfold libc_binds. cbn [abinds]. match goal with |- context [abind place (exports e) ?y n_gotcha ?v] => pose proof (place_abind (exports e) y n_gotcha v) as HS; destruct (abind place (exports e) y n_gotcha v) end.
        cbn [fst] in *. rewrite HS. unfold cupd. cbn [ub_name]. rewrite cstr_eqb_neq by discriminate. exact S0.
      - intros t. match goal with |- context [abinds place (exports e) ?y n_gotcha ?v] => pose proof (frame_abinds (exports e) place n_gotcha v y) as (_ & _ & Ht & _) end.
        rewrite Ht. cbn [ause a_tools]. rewrite U. apply P. }
    destruct Sb as [Sb Pb]. split.
    - unfold main_binds. cbn [abinds]. match goal with |- context [abind place (exports e) ?y n_gotcha ?v] => pose proof (place_abind (exports e) y n_gotcha v) as HS; destruct (abind place (exports e) y n_gotcha v) end.
      cbn [fst] in *. rewrite HS. unfold cupd. cbn [ub_name ause a_stack]. rewrite cstr_eqb_refl, Sb. reflexivity.
    - intros t. match goal with |- context [abinds place (exports e) ?y n_gotcha ?v] => pose proof (frame_abinds (exports e) place n_gotcha v y) as (_ & _ & Ht & _) end.
      rewrite Ht. cbn [ause a_tools]. rewrite U. apply Pb. }
  destruct A1 as [A1 P1]. set (b := amain place (exports e) e a (ub_name u)) in *.
  pose proof (place_abind (exports e) b (tool_name tool) u) as HS. destruct (abind place (exports e) b (tool_name tool) u) as [a1 f1]. cbn [fst] in *. rewrite HS, Hu. unfold cupd.
  rewrite cstr_eqb_refl, A1. cbn [place]. rewrite !P1. fold x. cbn [en_tool own_main x]. destruct (last_set ops n_gotcha <? last_set ops (tool_name tool)); reflexivity.
Qed.
