(** C66: where GOTCHA's own wrappers (of dlopen, dlsym, main, __libc_start_main) lie in the stacks.  docs/api.rst: "The
    lowest layer is the system call followed by GOTCHA layer and finally other tools based on priority." *)
From Verif Require Import Base ListFacts SpecHash HashTrace HashModel HashProofs ElfModel SpecElf ElfProofs ToolModel CoreModel SpecCore SpecRun
  PropsElf Demo PropsCore PropsCoreEx.
From Coq Require Import Permutation Sorted.

Lemma last_set_none t : forall ops v, (forall t' x, In (OSetPriority t' x) ops -> t' <> t) -> fold_left (set_last t) ops v = v.
Proof.
  induction ops as [|o ops IH]; intros v H; [reflexivity|]. cbn [fold_left]. rewrite IH by (intros t' x I; apply (H t' x); right; exact I).
  destruct o as [|t' x| | | | |]; try reflexivity. cbn [set_last]. unfold cstr_eqb. destruct (cstr_eq_dec t' t) as [E|E]; [|reflexivity]. exfalso. apply (H t' x); [left; reflexivity|exact E].
Qed.
Lemma own_priority ops : priorities_first ops -> last_set ops n_gotcha = -1.
Proof. intros H. apply last_set_none. intros t v I. apply in_split in I. destruct I as (l1 & l2 & E). apply (H l1 t v l2 E). Qed.
Lemma sorted_split {A} (R : A -> A -> Prop) : forall l1 x l2, StronglySorted R (l1 ++ x :: l2) -> (forall y, In y l1 -> R y x) /\ (forall y, In y l2 -> R x y).
Proof.
  induction l1 as [|a l1 IH]; intros x l2 H; cbn in H; apply StronglySorted_inv in H; destruct H as [H F]; rewrite Forall_forall in F.
  - split; [intros y []|exact F].
  - destruct (IH x l2 H) as [I1 I2]. split; [|exact I2]. intros y [<-|I]; [apply F, in_elt|auto].
Qed.

(** The law: if priorities are set first, a tool's wrapper lies outside GOTCHA's own one, installed before it, exactly if
    the tool's priority is above -1. *)
Theorem C66_layer_law : forall e maps mem ops n own, process_ok e maps ops -> fresh e ops -> priorities_first ops ->
  hd_error (installed e ops n) = Some own -> en_tool own = n_gotcha ->
  exists st rs s1 s2, run e (init_state maps mem) ops = Ok (st, rs) /\ wired st (s1 ++ own :: s2) (original e maps ops n) /\
    outermost st n = Ok (option_map en_wrapper (hd_error (s1 ++ own :: s2))) /\ Permutation (s1 ++ own :: s2) (installed e ops n) /\
    (forall x, In x s1 -> -1 < last_set ops (en_tool x)) /\ (forall x, In x s2 -> last_set ops (en_tool x) <= -1).
Proof.
  intros e maps mem ops n own P F H Ho T. destruct (C01_stack_order e maps mem ops P F) as (st & rs & E & HS).
  destruct (HS n) as (O & W & Pm & _ & ND). clear HS.
  assert (SO : StronglySorted (outside_by (last_set ops) (installed e ops n)) (stack e maps ops n)).
  { destruct (C02_higher_priority_outside e maps mem ops P F H) as (st' & rs' & E' & HS). rewrite E in E'. injection E' as <- <-.
    apply CoreApi.stack_sorted. exact H. }
  set (s := stack e maps ops n) in *. set (inst := installed e ops n) in *.
  assert (I : In own s). { apply (Permutation_in own (Permutation_sym Pm)). destruct inst; [discriminate|]. injection Ho as ->. left. reflexivity. }
  apply in_split in I. destruct I as (s1 & s2 & Es). exists st, rs, s1, s2. rewrite Es in O, W, Pm, SO, ND. split; [exact E|]. split; [exact W|]. split; [exact O|]. split; [exact Pm|].
  destruct (sorted_split _ _ _ _ SO) as [S1 S2]. pose proof (own_priority ops H) as PO. split; intros x I.
  - destruct (S1 x I) as [L|[_ B]]; [rewrite T, PO in L; exact L|]. exfalso.
    assert (NI : NoDup (map en_handle inst)) by (eapply Permutation_NoDup; [apply Permutation_map; exact Pm|exact ND]).
    destruct B as (l1 & l2 & l3 & B). rewrite B in Ho, NI. destruct l1 as [|y l1].
    + cbn in Ho. injection Ho as ->. cbn [app map] in NI. inversion NI as [|? ? N _]. apply N. apply in_map. apply in_elt.
    + cbn in Ho. injection Ho as ->. cbn [app map] in NI. inversion NI as [|? ? N _]. apply N. apply in_map. apply in_or_app. right. right. apply in_elt.
  - destruct (S2 x I) as [L|[L _]]; rewrite T, PO in L; lia.
Qed.
Print Assumptions C66_layer_law.

(** The documented rule holds for tools with priorities above -1: GOTCHA's own wrapper is the innermost, it calls the
    original function itself. *)
Theorem C66_innermost_partial : forall e maps mem ops n own, process_ok e maps ops -> fresh e ops -> priorities_first ops ->
  hd_error (installed e ops n) = Some own -> en_tool own = n_gotcha ->
  (forall x, In x (installed e ops n) -> x <> own -> -1 < last_set ops (en_tool x)) ->
  exists st rs s, run e (init_state maps mem) ops = Ok (st, rs) /\ Permutation (s ++ [own]) (installed e ops n) /\
    outermost st n = Ok (option_map en_wrapper (hd_error (s ++ [own]))) /\ wired st (s ++ [own]) (original e maps ops n) /\
    gotcha_get_wrappee st (en_handle own) = Ok (match original e maps ops n with Some a => Ptr a | None => Uninit end).
Proof.
  intros e maps mem ops n own P F H Ho T HP. destruct (C66_layer_law e maps mem ops n own P F H Ho T) as (st & rs & s1 & s2 & E & W & O & Pm & _ & B).
  destruct (C01_stack_order e maps mem ops P F) as (st' & rs' & E' & HS). destruct (HS n) as (_ & _ & Pm' & _ & ND). clear HS.
  assert (NDi : NoDup (map en_handle (s1 ++ own :: s2))).
  { eapply Permutation_NoDup; [|exact ND]. apply Permutation_map. eapply Permutation_trans; [exact Pm'|apply Permutation_sym; exact Pm]. }
  assert (s2 = []) as ->.
  { destruct s2 as [|x s2]; [reflexivity|]. exfalso. assert (I : In x (x :: s2)) by (left; reflexivity). pose proof (B x I).
    assert (-1 < last_set ops (en_tool x)); [|lia]. apply HP.
    - apply (Permutation_in x Pm). apply in_or_app. right. right. exact I.
    - intros ->. rewrite map_app in NDi. apply NoDup_remove in NDi. destruct NDi as [_ NDi]. apply NDi. apply in_or_app. right. left. reflexivity. }
  exists st, rs, s1. split; [exact E|]. split; [exact Pm|]. split; [exact O|]. split; [exact W|].
  clear - W. induction s1 as [|y l IH]; cbn in W; [apply W|apply IH, W].
Qed.
Print Assumptions C66_innermost_partial.

(** the hypotheses are met by dlopen: GOTCHA's own wrapper comes first, whatever the history *)
Lemma installs_own e m ops : existsb is_api ops = true -> exists r, installs e false m ops = map (bound n_gotcha) (dl_binds e) ++ r.
Proof.
  revert m. induction ops as [|o ops IH]; intros m H; [discriminate|]. destruct o; cbn [existsb is_api orb] in H; cbn [installs]; eauto.
Qed.
Theorem C66_dlopen_first : forall e ops, existsb is_api ops = true ->
  hd_error (installed e ops n_dlopen) = Some (mkE n_gotcha (e_w_dlopen e) (e_h_dlopen e)) /\
  hd_error (installed e ops n_dlsym) = Some (mkE n_gotcha (e_w_dlsym e) (e_h_dlsym e)).
Proof. intros e ops H. unfold installed. destruct (installs_own e false ops H) as [r ->]. split; reflexivity. Qed.
Print Assumptions C66_dlopen_first.

(** "a" has the default priority, "b" priority 0; both wrap dlopen *)
Definition hist_layer : list op := [OSetPriority n_b 0; OWrap [mkUB n_dlopen 41 7] (Some n_a); OWrap [mkUB n_dlopen 42 8] (Some n_b)].
Definition hist_layer1 : list op := [OSetPriority n_b 0; OWrap [mkUB n_dlopen 42 8] (Some n_b)].
Example hist_layer_ok : process_ok demo_env demo_libs hist_layer /\ fresh demo_env hist_layer /\ priorities_first hist_layer /\
  hd_error (installed demo_env hist_layer n_dlopen) = Some (mkE n_gotcha 801 901) /\
  stack demo_env demo_libs hist_layer n_dlopen = [mkE n_b 42 8; mkE n_gotcha 801 901; mkE n_a 41 7].
Proof.
  split; [process|]. split; [apply freshb_ok; vm_compute; reflexivity|]. split; [|vm_compute; auto].
  intros l1 t v l2 E. destruct l1 as [|o1 [|o2 [|o3 [|o4 l1]]]]; try discriminate. injection E as <- <- _. split; [discriminate|]. intros ubs tool [].
Qed.
Example hist_layer1_ok : process_ok demo_env demo_libs hist_layer1 /\ fresh demo_env hist_layer1 /\ priorities_first hist_layer1 /\
  (forall x, In x (installed demo_env hist_layer1 n_dlopen) -> x <> mkE n_gotcha 801 901 -> -1 < last_set hist_layer1 (en_tool x)) /\
  stack demo_env demo_libs hist_layer1 n_dlopen = [mkE n_b 42 8; mkE n_gotcha 801 901].
Proof.
  split; [process|]. split; [apply freshb_ok; vm_compute; reflexivity|]. split; [|split; [|vm_compute; auto]].
  - intros l1 t v l2 E. destruct l1 as [|o1 [|o2 [|o3 l1]]]; try discriminate. injection E as <- <- _. split; [discriminate|]. intros ubs tool [].
  - intros x I N. vm_compute in I. destruct I as [<-|[<-|[]]]; [elim N; reflexivity|vm_compute; reflexivity].
Qed.

(** The documented rule is false for a tool of default priority: its wrapper of dlopen is called by GOTCHA's own one. *)
Theorem C66_innermost_refuted : exists e maps mem ops st rs x own, process_ok e maps ops /\ fresh e ops /\ priorities_first ops /\
  run e (init_state maps mem) ops = Ok (st, rs) /\ In x (installed e ops n_dlopen) /\ In own (installed e ops n_dlopen) /\
  own = mkE n_gotcha (e_w_dlopen e) (e_h_dlopen e) /\ en_tool x <> n_gotcha /\
  outermost st n_dlopen = Ok (Some (en_wrapper own)) /\ gotcha_get_wrappee st (en_handle own) = Ok (Ptr (en_wrapper x)).
Proof.
  exists demo_env, demo_libs, demo_mem, [OWrap [mkUB n_dlopen 41 7] (Some n_a)], (st_of (demo_run [OWrap [mkUB n_dlopen 41 7] (Some n_a)])),
    (rs_of (demo_run [OWrap [mkUB n_dlopen 41 7] (Some n_a)])), (mkE n_a 41 7), (mkE n_gotcha 801 901).
  split; [process|]. split; [apply freshb_ok; vm_compute; reflexivity|]. split.
  { intros l1 t v l2 E. destruct l1 as [|o1 [|o2 l1]]; discriminate. }
  split; [refine (run_of (demo_run [OWrap [mkUB n_dlopen 41 7] (Some n_a)]) _); vm_compute; reflexivity|].
  split; [vm_compute; auto|]. split; [vm_compute; auto|]. split; [reflexivity|]. split; [discriminate|]. vm_compute. auto.
Qed.
Print Assumptions C66_innermost_refuted.
