(** What the code does where C20-C23 and C57 fail: a library whose record carries the current generation is left
    alone until the next gotcha_wrap, and gotcha_wrap sets the generation of a library although it rewrites the
    slots of its own functions only. *)
From Verif Require Import Base ListFacts HashModel HashProofs ElfModel SpecElf ToolModel CoreModel SpecCore SpecRun SpecSync CoreRel CoreEnv CoreHist CoreFacts CoreApi CoreApi2 CoreLib CoreLoop CoreMain CoreSync CoreSync2 CoreSync3 CoreStall PropsElf Demo PropsCoreEx PropsSyncEx.
From Coq Require String.
Import String.StringSyntax.
Open Scope string_scope.
Open Scope list_scope.
Open Scope Z_scope.

(** C20: Until the next gotcha_wrap a library that counts as up to date goes on doing so, whatever is loaded, unloaded
    (also the library itself) or filtered, and nothing is stored into its slots: all stores are into slots of
    other libraries.  So its memory is what the loader leaves there. *)
Theorem C20_stall_law : forall e maps mem ops more m st rs st' rs',
  forallb (fun o => negb (is_wrap o)) more = true -> process_ok e maps (ops ++ more) -> calm maps (ops ++ more) ->
  run e (init_state maps mem) ops = Ok (st, rs) -> In m (seen maps ops) -> current st m ->
  run e (init_state maps mem) (ops ++ more) = Ok (st', rs') ->
  current st' m /\
  (forall x, slot_alone maps ops more m x -> p_mem (s_p st') x = left_by more x (p_mem (s_p st) x)) /\
  exists evs, p_log (s_p st') = p_log (s_p st) ++ evs /\
    forall x v, In (PStore x v) evs -> exists l1 o l2 m' n, more = l1 ++ o :: l2 /\ In m' (maps_after maps (ops ++ l1)) /\ key_of m' <> key_of m /\ slot relocs m' n x.
Proof. intros e maps mem ops more m st rs st' rs' W P T E Hm Hc. exact (stall_hist e (po_env _ _ _ P) maps mem ops st rs m E Hm Hc more st' rs' W P T). Qed.
Print Assumptions C20_stall_law.

(** C21 fails for every library that was up to date and is loaded again with its link_map (address and name) where
    it was, before the next gotcha_wrap: no slot is redirected, whatever is wrapped. *)
Theorem C21_reload_law : forall e maps mem ops mid libs mem' m m' n x st rs st' rs',
  let more := mid ++ [OLoad libs mem'; OFinish] in
  forallb (fun o => negb (is_wrap o)) mid = true -> process_ok e maps (ops ++ more) -> calm maps (ops ++ more) ->
  run e (init_state maps mem) ops = Ok (st, rs) -> In m (seen maps ops) -> current st m ->
  run e (init_state maps mem) (ops ++ more) = Ok (st', rs') ->
  In m' libs -> key_of m' = key_of m -> slot relocs m' n x -> slot_alone maps ops more m x ->
  p_mem (s_p st') x = mem' x.
Proof.
  intros e maps mem ops mid libs mem' m m' n x st rs st' rs' more W P T E Hm Hc E' _ _ _ Hx.
  assert (W' : forallb (fun o => negb (is_wrap o)) more = true) by (unfold more; rewrite forallb_app, W; reflexivity).
  destruct (C20_stall_law e maps mem ops more m st rs st' rs' W' P T E Hm Hc E') as (_ & H & _). rewrite (H x Hx). unfold left_by, more. rewrite fold_left_app. reflexivity.
Qed.
Print Assumptions C21_reload_law.

(** C57 (and C22, C23): after a gotcha_wrap that wraps some function for the first time, every library accepted then
    counts as up to date, but its slots for functions not wrapped by this call are what they were, wrapped or not,
    and stay so until the next gotcha_wrap, whatever dlopens and filter changes come. *)
Theorem C57_filter_law : forall e maps mem ops ubs tool u more st rs m st' rs',
  In u ubs -> ~ wrapped e ops (ub_name u) -> ~ own_first ops (ub_name u) \/ ub_name u = n_main ->
  forallb (fun o => negb (is_wrap o)) more = true ->
  process_ok e maps (ops ++ OWrap ubs tool :: more) -> calm maps (ops ++ OWrap ubs tool :: more) ->
  run e (init_state maps mem) ops = Ok (st, rs) -> run e (init_state maps mem) (ops ++ OWrap ubs tool :: more) = Ok (st', rs') ->
  accepted (p_filter (s_p st)) (p_maps (s_p st)) m ->
  current st' m /\
  forall n x, slot relocs m n x -> ~ In n (map ub_name ubs) -> ~ own_first ops n -> slot_alone maps (ops ++ [OWrap ubs tool]) more m x ->
    p_mem (s_p st') x = left_by more x (p_mem (s_p st) x).
Proof.
  intros e maps mem ops ubs tool u more st rs m st' rs' Hu Hn Ho W P T E E' Ha.
  change (OWrap ubs tool :: more) with ([OWrap ubs tool] ++ more) in P, T, E'. rewrite app_assoc in P, T, E'.
  pose proof (process_app _ _ _ _ P) as P0. pose proof (calm_app _ _ _ T) as T0.
  destruct (wrap_marks e (po_env _ _ _ P) maps mem ops ubs tool st rs u Hu Hn) as (st1 & r & Es & M1 & K1); auto.
  { intros Hapi. destruct Ho as [Ho|Ho].
    - split; intros Q; apply Ho; right; right; auto.
    - rewrite Ho. split; discriminate. }
  assert (E1 : exists rs1, run e (init_state maps mem) (ops ++ [OWrap ubs tool]) = Ok (st1, rs1)) by (rewrite run_app, E; cbn [bind]; rewrite run_one, Es; cbn [bind]; eauto).
  destruct E1 as (rs1 & E1). destruct (reach e maps mem ops st rs (process_app _ _ _ _ P0) E) as (_ & EM & _).
  assert (Hm : In m (seen maps (ops ++ [OWrap ubs tool]))) by (apply seen_mono, maps_seen; rewrite <- EM; exact (accepted_in _ _ _ Ha)).
  destruct (C20_stall_law e maps mem _ more m st1 rs1 st' rs' W P T E1 Hm (M1 m Ha) E') as (C & H & _). split; [exact C|].
  intros n x Hs D1 D2 Hx. rewrite (H x Hx). rewrite (K1 m n x); auto. exact (accepted_in _ _ _ Ha).
Qed.
Print Assumptions C57_filter_law.

(** C22 and C23 fail for every function wrapped before a library was loaded, if the next gotcha_wrap (by a constructor
    during dlopen: C22; by anyone after a load GOTCHA does not see: C23) wraps some function for the first time: when
    the dlopen, or later ones, return, the library's slots for that function are as the loader left them. *)
Theorem C22_constructor_law : forall e maps mem before libs mem' ubs tool u more m n x st rs st' rs',
  let ops := before ++ [OLoad libs mem'] in
  In u ubs -> ~ wrapped e ops (ub_name u) -> ~ own_first ops (ub_name u) \/ ub_name u = n_main ->
  forallb (fun o => negb (is_wrap o)) more = true ->
  process_ok e maps (ops ++ OWrap ubs tool :: more) -> calm maps (ops ++ OWrap ubs tool :: more) ->
  run e (init_state maps mem) ops = Ok (st, rs) -> run e (init_state maps mem) (ops ++ OWrap ubs tool :: more) = Ok (st', rs') ->
  In m libs -> accepted (p_filter (s_p st)) (p_maps (s_p st)) m -> slot relocs m n x ->
  ~ In n (map ub_name ubs) -> ~ own_first ops n -> slot_alone maps (ops ++ [OWrap ubs tool]) more m x ->
  p_mem (s_p st') x = left_by more x (mem' x).
Proof.
  intros e maps mem before libs mem' ubs tool u more m n x st rs st' rs' ops Hu Hn Ho W P T E E' _ Ha Hs D1 D2 Hx.
  destruct (C57_filter_law e maps mem ops ubs tool u more st rs m st' rs' Hu Hn Ho W P T E E' Ha) as (_ & H). rewrite (H n x Hs D1 D2 Hx).
  destruct (run_snoc e maps mem before (OLoad libs mem') st rs E) as (st0 & rs0 & r & _ & Es). cbn [step] in Es. injection Es as <- _. reflexivity.
Qed.
Print Assumptions C22_constructor_law.

(** *** Examples *)
Definition aparts (l : list lmap) : bool := forallb (fun m => forallb (fun m' => negb (link_map_hash (key_of m) =? link_map_hash (key_of m')) || lkey_eqb (key_of m) (key_of m')) l) l.
Lemma aparts_ok l : aparts l = true -> apart l.
Proof.
  intros H m m' A B E. unfold aparts in H. rewrite forallb_forall in H. specialize (H _ A). rewrite forallb_forall in H. specialize (H _ B).
  rewrite E, Z.eqb_refl in H. cbn in H. apply lkey_eqb_ok. exact H.
Qed.
Definition once (l : list lmap) : bool := nodupb (map lm_ptr l).
Definition calmb (maps : list lmap) (ops : list op) : bool :=
  aparts (seen maps ops) && forallb (fun k => once (maps_after maps (firstn k ops)) && apartb (maps_after maps (firstn k ops))) (seq 0 (Datatypes.S (length ops))) &&
  (Z.of_nat (wraps ops) + 4 <? two32).
Lemma calmb_ok maps ops : calmb maps ops = true -> calm maps ops.
Proof.
  unfold calmb. intros H. apply andb_prop in H. destruct H as [H H3]. apply andb_prop in H. destruct H as [H1 H2]. rewrite forallb_forall in H2.
  assert (H4 : forall l1 l2, ops = l1 ++ l2 -> once (maps_after maps l1) && apartb (maps_after maps l1) = true).
  { intros l1 l2 E. specialize (H2 (length l1)). subst ops. rewrite firstn_app, firstn_all, Nat.sub_diag, firstn_O, app_nil_r in H2. apply H2. apply in_seq. rewrite app_length. lia. }
  constructor.
  - apply aparts_ok. auto.
  - intros l1 l2 E. specialize (H4 l1 l2 E). apply andb_prop in H4. destruct H4 as [H4 _]. apply nodupb_ok in H4. apply (NoDup_map_inv fst). rewrite map_map. exact H4.
  - intros l1 l2 E. specialize (H4 l1 l2 E). apply andb_prop in H4. apply apartb_ok. apply H4.
  - apply Z.ltb_lt in H3. auto.
Qed.
Definition alone_at (maps : list lmap) (m : lmap) (x : Z) : bool := forallb (fun m' => lkey_eqb (key_of m') (key_of m) || forallb (fun p => negb (fst p =? x)) (slots_of [m'])) maps.
Definition slot_aloneb (maps : list lmap) (ops more : list op) (m : lmap) (x : Z) : bool :=
  forallb (fun k => alone_at (maps_after maps (ops ++ firstn k more)) m x) (seq 0 (Datatypes.S (length more))).
Lemma slot_aloneb_ok maps ops more m x : slot_aloneb maps ops more m x = true -> slot_alone maps ops more m x.
Proof.
  intros H l1 l2 m' n E Hm Hs. unfold slot_aloneb in H. rewrite forallb_forall in H. specialize (H (length l1)). subst more.
  rewrite firstn_app, firstn_all, Nat.sub_diag, firstn_O, app_nil_r in H. assert (Q : In (length l1) (seq 0 (Datatypes.S (length (l1 ++ l2))))) by (apply in_seq; rewrite app_length; lia).
  specialize (H Q). unfold alone_at in H. rewrite forallb_forall in H. specialize (H _ Hm). apply orb_prop in H. destruct H as [H|H]; [apply lkey_eqb_ok; auto|].
  exfalso. rewrite forallb_forall in H. specialize (H _ (slots_list _ _ _ Hs)). cbn in H. rewrite Z.eqb_refl in H. discriminate.
Qed.

(** C21: libe.so is loaded by dlopen, redirected, unloaded, and loaded again with its link_map where it was but mapped elsewhere *)
Definition lib_e3 : lmap := placed demo_lib 3 (of_string "libe.so") 196608.
Definition hist_l0 : list op := hist1 ++ [OLoad [lib_e] mem_e; OFinish].
Definition more_l : list op := [OUnload keep_d mem_u] ++ [OLoad [lib_e3] mem_e2; OFinish].
Example C21_law_ex : process_ok demo_env demo_libs (hist_l0 ++ more_l) /\ calm demo_libs (hist_l0 ++ more_l) /\ In lib_e (seen demo_libs hist_l0) /\
  current (st_of (demo_run hist_l0)) lib_e /\ key_of lib_e3 = key_of lib_e /\ slot relocs lib_e3 f_name 196648 /\ slot_alone demo_libs hist_l0 more_l lib_e 196648 /\
  lib_e3 <> lib_e /\ wrapped demo_env hist1 f_name.
Proof.
  split; [process|]. split; [apply calmb_ok; vm_compute; reflexivity|]. split; [vm_compute; auto|].
  split; [exists 1%nat; eexists; split; [vm_compute; reflexivity|]; split; vm_compute; reflexivity|]. split; [reflexivity|]. split; [is_slot 40|].
  split; [apply slot_aloneb_ok; vm_compute; reflexivity|]. split; [discriminate|]. vm_compute. discriminate.
Qed.
Example C21_law_run : p_mem (s_p (st_of (demo_run hist_l0))) 131112 = 21 /\ p_mem (s_p (st_of (demo_run (hist_l0 ++ more_l)))) 196648 = 66048 /\
  outermost (st_of (demo_run (hist_l0 ++ more_l))) f_name = Ok (Some 21).
Proof. vm_compute. auto. Qed.
(** C22, C23, C57: f and g are wrapped; libe.so is loaded; its constructor wraps h, which nobody has wrapped so far *)
Definition h_name : cstr := of_string "h".
Definition hist_l1 : list op := hist1 ++ [OLoad [lib_e] mem_e].
Example C22_law_ex : let ubs := [mkUB h_name 51 7] in let more := [OFinish; OFilter FAlways; OFinish] in
  ~ wrapped demo_env hist_l1 h_name /\ ~ own_first hist_l1 h_name /\ process_ok demo_env demo_libs (hist_l1 ++ OWrap ubs (Some n_b) :: more) /\ calm demo_libs (hist_l1 ++ OWrap ubs (Some n_b) :: more) /\
  accepted (p_filter (s_p (st_of (demo_run hist_l1)))) (p_maps (s_p (st_of (demo_run hist_l1)))) lib_e /\ slot relocs lib_e f_name 131112 /\
  slot_alone demo_libs (hist_l1 ++ [OWrap ubs (Some n_b)]) more lib_e 131112 /\
  p_mem (s_p (st_of (demo_run (hist_l1 ++ OWrap ubs (Some n_b) :: more)))) 131112 = mem_e 131112 /\ mem_e 131112 <> 21 /\
  outermost (st_of (demo_run (hist_l1 ++ OWrap ubs (Some n_b) :: more))) f_name = Ok (Some 21).
Proof.
  cbv zeta. split; [vm_compute; congruence|]. split; [intros [H|[H|[H _]]]; discriminate H|]. split; [process|]. split; [apply calmb_ok; vm_compute; reflexivity|].
  split; [apply accepted_always; vm_compute; auto|]. split; [is_slot 40|]. split; [apply slot_aloneb_ok; vm_compute; reflexivity|].
  split; [vm_compute; reflexivity|]. split; [vm_compute; discriminate|]. vm_compute. reflexivity.
Qed.
