(** Libraries that count as up to date: nothing is stored into them until the next gotcha_wrap, whatever is loaded,
    unloaded or filtered meanwhile; and a gotcha_wrap that wraps a function for the first time makes every accepted
    library count as up to date. *)
From Verif Require Import Base ListFacts HashModel HashProofs SpecHash HashTrace ElfModel SpecElf ToolModel CoreModel SpecCore SpecRun SpecSync
  ToolProofs CoreMaps CoreRel CoreLib CoreStep CoreWrap CoreLoop CoreMain CoreEnv CoreSpec CoreFacts CoreHist CoreApi CoreApi2 CoreSync CoreSync2 CoreSync3 CoreApi3 CoreMicro CoreProt CoreTogether.
From Coq Require Import Permutation Sorted.

Lemma update_log_slots e ibs t m rest l p l' p' : update_library_got e ibs t m rest (l, p) = Ok (l', p') ->
  exists evs, p_log p' = p_log p ++ evs /\ p_mem p' = replay (p_mem p) evs /\ forall x v, In (PStore x v) evs -> exists n, slot relocs m n x.
Proof.
  assert (N : exists evs, p_log p = p_log p ++ evs /\ p_mem p = replay (p_mem p) evs /\ forall x v, In (PStore x v) evs -> exists n, slot relocs m n x).
  { exists []. rewrite app_nil_r. cbn. split; [auto|]. split; [auto|]. intros x v []. }
  unfold update_library_got. intros E. iba E as [l1 i]. ib E. destruct (negb a); [injection E as <- <-; auto|]. ib E. destruct (_ =? _); [injection E as <- <-; auto|].
  iba E as [heap log1]. ib E. iba E as [mem log2]. injection E as <- <-. cbn [p_log p_mem].
  assert (L1 : exists calls, log1 = p_log p ++ map PProtect calls).
  { destruct (lb_writable a0); [injection B2 as _ <-; exists []; rewrite app_nil_r; auto|]. iba B2 as calls. injection B2 as _ <-. eauto. }
  destruct L1 as (calls & ->). assert (L2 : exists evs, log2 = (p_log p ++ map PProtect calls) ++ evs /\ mem = replay (p_mem p) evs /\ forall x v, In (PStore x v) evs -> exists n, slot relocs m n x).
  { destruct a1 as [rs|]; [|injection B4 as <- <-; exists []; rewrite app_nil_r; cbn; split; [auto|]; split; [auto|]; intros x v []].
    destruct (ulb_slots _ _ _ _ _ _ _ _ B4) as (evs & A & B' & _ & H). exists evs. split; [auto|]. split; [auto|]. intros x v Hx. destruct (H _ _ Hx) as (off & n & H1 & H2).
    exists n, off. split; [|auto]. unfold relocs. rewrite B3. auto. }
  destruct L2 as (evs & -> & -> & H). exists (map PProtect calls ++ evs). rewrite app_assoc, replay_app, replay_protects. split; [auto|]. split; [auto|].
  intros x v Hx. apply in_app_or in Hx. destruct Hx as [Hx|Hx]; [|eauto]. apply in_map_iff in Hx. destruct Hx as (c & Q & _). discriminate Q.
Qed.

Section Stall.
Context (e : env) (EO : env_ok e).
Notation ex := (exports e).
Notation rl := relocs.
Notation ainit := (ainit ins_c ex e).
Notation srel := (srel e ex rl False).
Notation lgood := (lgood rl).
Notation A maps ops := (fst (arun ins_c ex e (a0 maps) ops)).

(** the stores of [evs] are into loaded libraries other than [m] *)
Definition elsewhere (maps : list lmap) (m : lmap) (evs : list pevent) : Prop :=
  forall x v, In (PStore x v) evs -> exists m' n, In m' maps /\ key_of m' <> key_of m /\ slot rl m' n x.

Section All.
Context (all : list lmap) (HND : apart all).
Context (HL : forall m, In m all -> lib_ok e ex rl m).

Lemma gots_stall ibs t m : In m all -> forall maps l f p l' p', (forall m, In m maps -> In m all) -> linv all l f -> 0 <= l_gen l -> genof l f m = l_gen l ->
  update_gots e ibs t maps (l, p) = Ok (l', p') ->
  exists f' evs, linv all l' f' /\ l_gen l' = l_gen l /\ genof l' f' m = l_gen l' /\
    p_log p' = p_log p ++ evs /\ p_mem p' = replay (p_mem p) evs /\ elsewhere maps m evs.
Proof.
  intros Hm. induction maps as [|y r IH]; intros l f p l' p' Hin L Hg Hc E; cbn [update_gots] in E.
  { injection E as <- <-. exists f, []. rewrite app_nil_r. split; [auto|]. split; [auto|]. split; [auto|]. split; [auto|]. split; [auto|]. intros x v []. }
  destruct (update_library_got e ibs t y r (l, p)) as [[l1 p1]|] eqn:E1; [|discriminate]. cbn [bind] in E.
  assert (H1 : exists f1 evs, linv all l1 f1 /\ l_gen l1 = l_gen l /\ genof l1 f1 m = l_gen l1 /\ p_log p1 = p_log p ++ evs /\ p_mem p1 = replay (p_mem p) evs /\ elsewhere (y :: r) m evs).
  { destruct (lkey_eqb (key_of y) (key_of m)) eqn:Ek.
    - apply lkey_eqb_ok in Ek.
      destruct (got_frozen e all HND HL ibs t y r l f p (Hin y (or_introl eq_refl)) L Hg) as (l2 & f2 & E2 & L2 & G2 & GO).
      { intros _. unfold genof in *. rewrite Ek. auto. }
      rewrite E1 in E2. injection E2 as <- ->. exists f2, []. rewrite app_nil_r, GO, G2. split; [auto|]. split; [auto|]. split; [auto|]. split; [auto|]. split; [auto|]. intros x v [].
    - assert (Dk : key_of m <> key_of y). { intros Q. rewrite (proj2 (lkey_eqb_ok _ _) (eq_sym Q)) in Ek. discriminate. }
      destruct (got_freezes e all HND ibs t y r l f p l1 p1 (Hin y (or_introl eq_refl)) L Hg E1) as (f1 & L1 & G1 & _ & GO & _).
      destruct (update_log_slots _ _ _ _ _ _ _ _ _ E1) as (evs & B1 & B2 & B3). exists f1, evs. rewrite (GO m Hm Dk), G1. split; [auto|]. split; [auto|]. split; [auto|]. split; [auto|]. split; [auto|].
      intros x v Hx. destruct (B3 x v Hx) as (n & Hn). exists y, n. split; [left; auto|]. auto. }
  destruct H1 as (f1 & e1 & L1 & G1 & C1 & A1 & B1 & D1).
  destruct (IH l1 f1 p1 l' p') as (f2 & e2 & L2 & G2 & C2 & A2 & B2 & D2); auto; [intros; apply Hin; right; auto|lia|].
  exists f2, (e1 ++ e2). split; [auto|]. split; [congruence|]. split; [auto|]. split; [rewrite A2, A1, app_assoc; auto|]. split; [rewrite B2, B1, replay_app; auto|].
  intros x v Hx. apply in_app_or in Hx. destruct Hx as [Hx|Hx]; [apply (D1 x v Hx)|]. destruct (D2 x v Hx) as (m' & n & Q1 & Q2). exists m', n. split; [right; auto|auto].
Qed.

Lemma finish_stall st a ch f m st' : In m all -> srel st a ch [] -> lgood all st f -> genof (s_l st) f m = l_gen (s_l st) -> dlopen_finish e st = Ok st' ->
  exists f' evs, linv all (s_l st') f' /\ l_gen (s_l st') = l_gen (s_l st) /\ genof (s_l st') f' m = l_gen (s_l st') /\
    p_log (s_p st') = p_log (s_p st) ++ evs /\ p_mem (s_p st') = replay (p_mem (s_p st)) evs /\ elsewhere (p_maps (s_p st)) m evs.
Proof.
  intros Hm S Y Hc E. unfold dlopen_finish in E. destruct (resolve_loop e ex rl False st a ch S) as (st1 & E1 & S1 & P1 & T1 & _). rewrite E1 in E. cbn [bind] in E.
  destruct Y as [Y1 Y2 Y3 Y4 Y5]. destruct (tracks_exact all HND _ _ _ T1 Y2 f Y1 Y5) as (f1 & L1 & G1 & GO1).
  unfold update_all_library_gots in E. destruct (update_gots e _ _ _ _) as [[l' p']|] eqn:EG; [|discriminate]. cbn [bind] in E. injection E as <-. cbn [s_l s_p set_p set_l].
  rewrite P1 in EG. destruct (gots_stall _ _ m Hm _ _ f1 _ _ _ Y2 L1 ltac:(lia) ltac:(rewrite GO1, G1; auto) EG) as (f2 & evs & L2 & G2 & C2 & A2 & B2 & D2).
  exists f2, evs. split; [auto|]. split; [congruence|]. auto.
Qed.
End All.

Lemma current_key st m m' : key_of m = key_of m' -> current st m -> current st m'.
Proof. unfold current, get_library. intros ->. auto. Qed.

(** one operation other than gotcha_wrap *)
Lemma stall_step maps mem ops o st rs m st' r : is_wrap o = false -> process_ok e maps (ops ++ [o]) -> calm maps (ops ++ [o]) -> run e (init_state maps mem) ops = Ok (st, rs) ->
  In m (seen maps ops) -> current st m -> step e st o = Ok (st', r) ->
  current st' m /\ exists evs, p_log (s_p st') = p_log (s_p st) ++ evs /\ (gotcha_op o -> p_mem (s_p st') = replay (p_mem (s_p st)) evs) /\ elsewhere (maps_after maps ops) m evs.
Proof.
  intros Hw P T E Hm Hc Es. pose proof (process_app _ _ _ _ P) as P0. pose proof (calm_app _ _ _ T) as T0.
  destruct (hist_good e EO maps mem ops st rs P0 T0 E) as [IP|(ch & f & S & Y & G)].
  { exfalso. destruct Hc as (i & lb & H & _). unfold get_library in H. rewrite (pr_l _ _ _ _ _ IP) in H. cbn [l_table] in H. destruct (zero_lookup (key_of m)) as [x Hx]. congruence. }
  destruct (reach e maps mem ops st rs P0 E) as (R0 & M0 & F0 & O0).
  assert (SA : s_l st' = s_l st -> p_log (s_p st') = p_log (s_p st) -> (gotcha_op o -> p_mem (s_p st') = p_mem (s_p st)) ->
    current st' m /\ exists evs, p_log (s_p st') = p_log (s_p st) ++ evs /\ (gotcha_op o -> p_mem (s_p st') = replay (p_mem (s_p st)) evs) /\ elsewhere (maps_after maps ops) m evs).
  { intros H1 H2 H3. split; [apply (current_same _ _ m H1); auto|]. exists []. rewrite app_nil_r. split; [auto|]. split; [auto|]. intros x v []. }
  destruct (is_api o) eqn:Ho.
  - assert (Hone : main_alone ops o) by (destruct o; try discriminate; exact I).
    destruct (api_step e EO maps mem ops o st rs Ho Hone P T E) as (st1 & r1 & E1 & _ & H). rewrite Es in E1. injection E1 as <- _.
    destruct (H (sr_init _ _ _ _ _ _ _ _ S) Hw) as [H1 H2]. apply SA; congruence.
  - destruct o as [| | |fl|libs mm| |keep mm]; try discriminate; cbn [step] in Es.
    + injection Es as <- _. apply SA; reflexivity || (intros []).
    + injection Es as <- _. apply SA; reflexivity || (intros []).
    + rewrite (sr_init _ _ _ _ _ _ _ _ S) in Es. ib Es. injection Es as <- _.
      assert (Hg : genof (s_l st) f m = l_gen (s_l st)) by (apply (current_gen (seen maps ops) (cm_libs _ _ T0) st f m Y Hm); [lia|auto]).
      destruct (finish_stall (seen maps ops) (cm_libs _ _ T0) (seen_ok e _ _ P0) st (A maps ops) ch f m a Hm S Y Hg B) as (f' & evs & L' & G' & C' & A' & B' & D').
      rewrite M0 in D'. split; [|exists evs; auto].
      unfold current, get_library. rewrite (kmap_lookup _ _ _ (lcmp_ok _ (cm_libs _ _ T0)) _ lkey_eqb_ok _ _ _ (li_map _ _ _ L') (lkeys_of _ m Hm)).
      unfold genof in C'. destruct (f' (key_of m)) as [i|] eqn:Ei; [|lia]. destruct (li_rec _ _ _ L' _ _ Ei) as (lb & El & _). rewrite El in C'. eauto.
    + injection Es as <- _. apply SA; reflexivity || (intros []).
Qed.

Lemma left_snoc l o x v : left_by (l ++ [o]) x v = match o with OLoad _ mm | OUnload _ mm => mm x | _ => left_by l x v end.
Proof. unfold left_by. rewrite fold_left_app. reflexivity. Qed.
Lemma replay_none x : forall evs mem, (forall v, ~ In (PStore x v) evs) -> replay mem evs x = mem x.
Proof.
  intros evs mem H. destruct (replay_change evs mem x) as [Q|Q]; [auto|]. exfalso. exact (H _ Q).
Qed.

Lemma stall_hist maps mem ops st rs m : run e (init_state maps mem) ops = Ok (st, rs) -> In m (seen maps ops) -> current st m ->
  forall more st' rs', forallb (fun o => negb (is_wrap o)) more = true -> process_ok e maps (ops ++ more) -> calm maps (ops ++ more) ->
  run e (init_state maps mem) (ops ++ more) = Ok (st', rs') ->
  current st' m /\ (forall x, slot_alone maps ops more m x -> p_mem (s_p st') x = left_by more x (p_mem (s_p st) x)) /\
  exists evs, p_log (s_p st') = p_log (s_p st) ++ evs /\
    forall x v, In (PStore x v) evs -> exists l1 o l2 m' n, more = l1 ++ o :: l2 /\ In m' (maps_after maps (ops ++ l1)) /\ key_of m' <> key_of m /\ slot rl m' n x.
Proof.
  intros E0 Hm Hc. induction more as [|o l IH] using rev_ind; intros st' rs' Hw P T E.
  { rewrite app_nil_r in E. rewrite E0 in E. injection E as <- <-. split; [auto|]. split; [auto|]. exists []. rewrite app_nil_r. split; [auto|]. intros x v []. }
  rewrite app_assoc in P, T, E. rewrite forallb_app in Hw. apply andb_prop in Hw. destruct Hw as [Hw Ho]. cbn in Ho. rewrite andb_true_r in Ho. apply negb_true_iff in Ho.
  destruct (run_snoc e _ _ _ _ _ _ E) as (st1 & rs1 & r & E1 & Es). pose proof (process_app _ _ _ _ P) as P0. pose proof (calm_app _ _ _ T) as T0.
  destruct (IH st1 rs1 Hw P0 T0 E1) as (C1 & M1 & evs1 & A1 & B1).
  assert (Hm1 : In m (seen maps (ops ++ l))) by (apply seen_mono; auto).
  destruct (stall_step maps mem (ops ++ l) o st1 rs1 m st' r Ho P T E1 Hm1 C1 Es) as (C2 & evs2 & A2 & M2 & D2).
  split; [auto|]. split.
  - intros x Hx. rewrite left_snoc.
    assert (Hx1 : slot_alone maps ops l m x) by (intros l1 l2 m' n El; apply (Hx l1 (l2 ++ [o])); rewrite El, app_assoc; auto).
    assert (HN : forall v, ~ In (PStore x v) evs2).
    { intros v Hv. destruct (D2 x v Hv) as (m' & n & H1 & H2 & H3). apply H2. apply (Hx l [o] m' n eq_refl H1 H3). }
    destruct o as [ubs tool|t v|t|fl|libs mm| |keep mm]; cbn [step] in Es; try discriminate.
    + rewrite (M2 I), (replay_none x evs2 _ HN). exact (M1 x Hx1).
    + rewrite (M2 I), (replay_none x evs2 _ HN). exact (M1 x Hx1).
    + injection Es as <- _. exact (M1 x Hx1).
    + injection Es as <- _. reflexivity.
    + rewrite (M2 I), (replay_none x evs2 _ HN). exact (M1 x Hx1).
    + injection Es as <- _. reflexivity.
  - exists (evs1 ++ evs2). split; [rewrite A2, A1, app_assoc; auto|]. intros x v Hv. apply in_app_or in Hv. destruct Hv as [Hv|Hv].
    + destruct (B1 x v Hv) as (l1 & o' & l2 & m' & n & El & H1). exists l1, o', (l2 ++ [o]), m', n. split; [rewrite El, <- app_assoc; auto|auto].
    + destruct (D2 x v Hv) as (m' & n & H1 & H2 & H3). exists l, o, [], m', n. auto.
Qed.

(** a gotcha_wrap that wraps a function for the first time *)
Lemma wrap_marks maps mem ops ubs tool st rs u : In u ubs -> ~ wrapped e ops (ub_name u) -> (existsb is_api ops = false -> ub_name u <> n_dlopen /\ ub_name u <> n_dlsym) ->
  process_ok e maps (ops ++ [OWrap ubs tool]) -> calm maps (ops ++ [OWrap ubs tool]) -> run e (init_state maps mem) ops = Ok (st, rs) ->
  exists st' r, step e st (OWrap ubs tool) = Ok (st', r) /\
    (forall m, accepted (p_filter (s_p st)) (p_maps (s_p st)) m -> current st' m) /\
    (forall m n x, In m (p_maps (s_p st)) -> slot rl m n x -> ~ In n (map ub_name ubs) -> ~ own_first ops n -> p_mem (s_p st') x = p_mem (s_p st) x).
Proof.
  intros Hu Hun Hdl P T E. pose proof (process_app _ _ _ _ P) as P0. pose proof (calm_app _ _ _ T) as T0. pose proof (hist_good e EO maps mem ops st rs P0 T0 E) as G.
  destruct (reach e maps mem ops st rs P0 E) as (R0 & M0 & F0 & O0). unfold own_first. rewrite (reached_init e maps mem ops st rs P0 E) in *.
  assert (H2 : forall m, In m (p_maps (s_p st)) -> In m (seen maps ops)) by (rewrite M0; apply maps_seen).
  assert (H3 : NoDup (map key_of (p_maps (s_p st)))) by (rewrite M0; apply (calm_now _ _ T0)).
  assert (H4 : slots_fun rl (p_maps (s_p st))) by (rewrite M0; apply (cm_slots _ _ T ops [OWrap ubs tool] eq_refl)).
  assert (Es : a_stack (A maps ops) (ub_name u) = []) by (apply (stack_empty e ex ins_c ins_c_ne maps); auto).
  pose proof (cm_gen _ _ T0) as Hw. pose proof (cm_libs _ _ T0) as ND. pose proof (seen_ok e maps ops P0) as HL. set (all := seen maps ops) in *. set (a := A maps ops) in *.
  cut (exists st' c f', gotcha_wrap e st ubs tool = Ok (st', c) /\ lgood all st' f' /\ frozen st' f' /\ 1 <= l_gen (s_l st') /\
    p_maps (s_p st') = p_maps (s_p st) /\ p_filter (s_p st') = p_filter (s_p st) /\
    (forall m n x, In m (p_maps (s_p st)) -> slot rl m n x -> ~ In n (map ub_name ubs) -> ~ (n = n_main \/ n = n_libc_start_main \/ (s_init st = false /\ (n = n_dlopen \/ n = n_dlsym))) -> p_mem (s_p st') x = p_mem (s_p st) x)).
  { intros (st' & c & f' & A1 & A2 & A3 & A4 & A5 & A6 & A7). cbn [step]. rewrite A1. cbn [bind]. eexists _, _. split; [reflexivity|]. split; [|auto].
    intros m Ha. apply (current_gen all ND st' f' m A2); [apply H2; exact (accepted_in _ _ _ Ha)|auto|]. apply A3. rewrite A5, A6. auto. }
  unfold gotcha_wrap. cbn [wrap_n]. unfold wrap_body at 1.
  assert (HI : exists st1 ch f, gotcha_init e (wrap_n e 2) st = Ok st1 /\ srel st1 (ainit a) ch [] /\ lgood all st1 f /\ 1 <= l_gen (s_l st1) <= bound_of a (Z.of_nat (wraps ops)) /\
     kept (if s_init st then [] else [n_dlopen; n_dlsym]) st st1).
  { destruct G as [Q|(ch & f & S & Y & G)].
    - destruct (init_kept e EO all ND HL (wrap_n e 1) st a Q H2 H3 H4) as (st1 & ch & f & A1 & A2 & A3 & A4 & A5). exists st1, ch, f. rewrite (pr_i _ _ _ _ _ Q). spl; auto; unfold bound_of; try destruct (a_main a); lia.
    - exists st, ch, f. unfold gotcha_init. rewrite (sr_init _ _ _ _ _ _ _ _ S). unfold SpecCore.ainit. rewrite (sr_ainit _ _ _ _ _ _ _ _ S).
      spl; auto; try lia; apply kept_same; auto. }
  destruct HI as (st1 & ch & f & E1 & S1 & Y1 & G1 & K1). cbn [wrap_n] in *. rewrite E1. cbn [bind]. unfold bound_of in G1. destruct K1 as (KM & KF & K1).
  assert (Eu : a_stack (ainit a) (ub_name u) = []).
  { unfold SpecCore.ainit. destruct (a_init a) eqn:Ei; [auto|]. rewrite stack_other; [exact Es|].
    assert (Q : s_init st = false). { destruct G as [Q|(ch' & f' & S & _)]; [apply (pr_i _ _ _ _ _ Q)|]. rewrite (sr_ainit _ _ _ _ _ _ _ _ S) in Ei. discriminate. }
    destruct (Hdl Q) as [D1 D2]. intros v [<-|[<-|[]]]; apply not_eq_sym; assumption. }
  destruct (a_main a) eqn:Em; [|destruct (in_dec (list_eq_dec Z.eq_dec) n_main (map ub_name ubs)) as [Hin|Hnin]].
  - destruct (wrap_tool_kept e EO all ND HL (wrap_body e (wrap_n e 1)) st1 (ainit a) ch [] ubs tool f S1) as (st2 & ch2 & c & f2 & E2 & S2 & Y2 & _ & G2 & (KM2 & KF2 & K2) & Z2); auto; [right; rewrite ainit_main; auto|lia|].
    cbn [wrap_n] in E2. exists st2, c, f2. split; [exact E2|]. split; [auto|]. split; [apply Z2; eauto|]. split; [lia|]. split; [congruence|]. split; [congruence|].
    intros m n x H Hs D D'. rewrite (K2 m n x); auto; [|congruence]. apply (K1 m n x); auto. destruct (s_init st); [intros []|]. intros [Q|[Q|[]]]; apply D'; right; right; auto.
  - destruct (main_unwrapped e maps ops) as [_ Es'].
    { intros Hb. apply (main_flag_iff ins_c e ex maps) in Hb. unfold a in Em. congruence. }
    destruct (wrap_together e EO all ND HL (wrap_n e 1) st1 (ainit a) ch [] ubs tool f S1 Y1) as (st2 & c & f2 & E2 & (KM2 & KF2 & K2) & Y2 & Z2); auto.
    { unfold slack. rewrite ainit_main, Em. lia. }
    { rewrite ainit_main. auto. }
    { apply ainit_main_stack. auto. }
    cbn [wrap_n] in E2. 
    destruct (wrap_any_good e ex rl EO all ND HL (wrap_n e 1) st1 (ainit a) ch [] ubs tool f S1 Y1) as (st3 & ch3 & c3 & f3 & E3 & _ & _ & _ & G3).
    { unfold slack. rewrite ainit_main, Em. lia. }
    cbn [wrap_n] in E3. rewrite E2 in E3. injection E3 as <- _.
    exists st2, c, f2. split; [exact E2|]. split; [auto|]. split; [auto|]. split.
    { unfold slack in G3. rewrite (ainit_main e a), Em in G3. match type of G3 with context [if ?b then _ else _] => destruct b end; lia. }
    split; [congruence|]. split; [congruence|].
    intros m n x H Hs D D'. rewrite (K2 m n x); auto; [| congruence|].
    + apply (K1 m n x); auto. destruct (s_init st); [intros []|]. intros [Q|[Q|[]]]; apply D'; right; right; auto.
    + intros [Q|[Q|[]]]; apply D'; auto.
  - destruct (wrap_tool_kept e EO all ND HL (wrap_body e (wrap_n e 1)) st1 (ainit a) ch [] ubs tool f S1) as (st2 & ch2 & c & f2 & E2 & S2 & Y2 & _ & G2 & (KM2 & KF2 & K2) & Z2); auto; [left; intros v Hv Q; apply Hnin; rewrite <- Q; apply in_map; auto|lia|].
    cbn [wrap_n] in E2. exists st2, c, f2. split; [exact E2|]. split; [auto|]. split; [apply Z2; eauto|]. split; [lia|]. split; [congruence|]. split; [congruence|].
    intros m n x H Hs D D'. rewrite (K2 m n x); auto; [|congruence]. apply (K1 m n x); auto. destruct (s_init st); [intros []|]. intros [Q|[Q|[]]]; apply D'; right; right; auto.
Qed.
End Stall.
