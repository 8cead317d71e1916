(** Statements about whole histories, continued: originals, handles, tools, dlsym, filters. *)
From Verif Require Import Base ListFacts SpecHash HashTrace HashModel HashProofs ElfModel SpecElf ElfProofs ToolModel CoreModel SpecCore SpecRun
  ToolProofs CoreMaps CoreRel CoreLib CoreStep CoreWrap CoreLoop CoreMain CoreEnv CoreSpec CoreFacts CoreHist CoreApi.
From Coq Require Import Permutation Sorted.

Lemma process_add e maps ops o : process_ok e maps ops -> op_libs o = [] -> process_ok e maps (ops ++ [o]).
Proof. intros [A B C] H. constructor; auto. intros p m Ho Hm. apply in_app_or in Ho. destruct Ho as [Ho|[<-|[]]]; [eauto|rewrite H in Hm; destruct Hm]. Qed.
Lemma fresh_add e ops o : fresh e ops -> op_binds o = [] -> fresh e (ops ++ [o]).
Proof. intros [A B C] H. constructor; rewrite user_binds_app; unfold user_binds at 2; cbn; rewrite H; cbn; rewrite app_nil_r; auto. Qed.

Lemma history_oinv e maps ops : oinv (history e maps ops).
Proof. apply run_oinv; [apply place_ne|apply a0_oinv]. Qed.

(** *** C08 *)
Lemma finish_resolves e maps mem ops st rs : process_ok e maps ops -> fresh e ops -> run e (init_state maps mem) ops = Ok (st, rs) ->
  exists st', step e st OFinish = Ok (st', RNone) /\
   forall n, outermost st' n = outermost st n /\
     wired st (stack e maps ops n) (original e maps ops n) /\
     wired st' (stack e maps ops n)
      (match original e maps ops n with Some x => Some x | None => first_export (exports e) (maps_after maps ops) n end).
Proof.
  intros P F E. destruct (step_hist e maps mem ops OFinish st rs) as (R & st' & E1 & R1); auto; [apply process_add; auto|apply fresh_add; auto|].
  exists st'. split; [exact E1|]. intros n. rewrite (rel_outermost e True st' _ n R1), (rel_outermost e True st _ n R).
  pose proof (rel_wired e st' _ n R1) as W. pose proof (rel_wired e st _ n R) as W0.
  destruct (step_orig e (exports e) place place_ne (history e maps ops) OFinish (history_oinv e maps ops)) as [_ HO]. specialize (HO n).
  assert (EH : history e maps (ops ++ [OFinish]) = fst (astep place (exports e) e (history e maps ops) OFinish)).
  { unfold history. rewrite arun_app. cbn [fst arun]. reflexivity. }
  rewrite EH in *.
  assert (ES : a_stack (fst (astep place (exports e) e (history e maps ops) OFinish)) n = stack e maps ops n).
  { cbn. unfold stack. destruct (a_init (history e maps ops)); reflexivity. }
  rewrite ES in *. split; [reflexivity|]. split; [exact W0|]. rewrite HO in W. fold (stack e maps ops n) in W. fold (original e maps ops n) in W.
  assert (EM : maps_after (a_maps (history e maps ops)) [OFinish] = maps_after maps ops) by (unfold history; rewrite run_maps; reflexivity). rewrite EM in W.
  destruct (stack e maps ops n); [exact I|]. exact W.
Qed.

(** *** C10 *)
Lemma original_found e maps ops n a : original e maps ops n = Some a <-> found_first e (exports e) maps ops n a.
Proof. apply orig_found. apply place_ne. Qed.
Lemma found_stays e maps ops more n a : found_first e (exports e) maps ops n a -> found_first e (exports e) maps (ops ++ more) n a.
Proof.
  intros H. apply original_found in H. apply original_found. unfold original, history. rewrite arun_app. cbn [fst]. apply orig_stays; auto; [apply place_ne|apply history_oinv].
Qed.
Lemma wired_last st s x o : wired st (s ++ [x]) o -> gotcha_get_wrappee st (en_handle x) = Ok (match o with Some a => Ptr a | None => Uninit end).
Proof. induction s as [|y r IH]; cbn [app wired]; intros [A B]; [exact A|auto]. Qed.
Lemma innermost_wrappee e maps mem ops : process_ok e maps ops -> fresh e ops ->
  exists st rs, run e (init_state maps mem) ops = Ok (st, rs) /\
   forall n s x, stack e maps ops n = s ++ [x] ->
    (forall a, gotcha_get_wrappee st (en_handle x) = Ok (Ptr a) <-> found_first e (exports e) maps ops n a) /\
    (gotcha_get_wrappee st (en_handle x) = Ok Uninit <-> forall a, ~ found_first e (exports e) maps ops n a).
Proof.
  intros P F. destruct (run_hist e maps mem ops P F) as (st & E & R). eexists st, _. split; [exact E|]. intros n s x Es.
  pose proof (rel_wired e st _ n R) as W. fold (stack e maps ops n) (original e maps ops n) in W. rewrite Es in W. apply wired_last in W. rewrite W.
  split.
  - intros a. rewrite <- original_found. destruct (original e maps ops n); split; intros H; congruence.
  - destruct (original e maps ops n) as [b|] eqn:Eo; split; intros H; try discriminate; auto.
    + exfalso. apply (H b). apply original_found. auto.
    + intros a Ha. apply original_found in Ha. congruence.
Qed.

(** *** C39 *)
Lemma first_export_split ex maps n a : first_export ex maps n = Some a <->
  exists pre m post, maps = pre ++ m :: post /\ ex m n = Some a /\ forall m', In m' pre -> ex m' n = None.
Proof.
  induction maps as [|m r IH]; cbn; [split; [discriminate|intros ([|] & ? & ? & ? & _); discriminate]|].
  destruct (ex m n) as [b|] eqn:E.
  - split.
    + intros H. injection H as ->. exists [], m, r. split; [auto|]. split; [auto|]. intros m' [].
    + intros ([|p pre] & m0 & post & H1 & H2 & H3); cbn in H1; injection H1 as <- H1; [congruence|]. rewrite (H3 m) in E by (left; auto). discriminate.
  - rewrite IH. split.
    + intros (pre & m0 & post & -> & H2 & H3). exists (m :: pre), m0, post. split; [auto|]. split; [auto|]. intros m' [<-|H]; auto.
    + intros ([|p pre] & m0 & post & H1 & H2 & H3); cbn in H1; injection H1 as <- H1; [congruence|]. exists pre, m0, post. split; [auto|]. split; [auto|]. intros; apply H3; right; auto.
Qed.

Lemma export_meaning e m n : lib_wf m -> Forall (fun c => 0 <= c <= 255) n ->
  (e_vdso e m = true /\ exports e m n = None) \/
  (e_vdso e m = false /\ exists es r, wf_lookup m es /\ found_result m es n r /\ exports e m n = match r with Some i => symbol_address m es i | None => None end).
Proof.
  intros (_ & es & WL & _) An. unfold exports. destruct (e_vdso e m); [left; split; auto|right]. split; [auto|].
  unfold found_result. destruct (Z.eqb_spec (high_sum n mod 2 ^ 24) 0) as [E|E].
  - destruct (exported_thm m es n WL (conj An E)) as (r & A & B). exists es, r. rewrite B. auto.
  - destruct (exported_high_thm m es n WL An) as (r & A & B); [intros [_ H]; contradiction|]. exists es, r. rewrite B. auto.
Qed.

Lemma maps_after_wf e maps ops : process_ok e maps ops -> forall m, In m (maps_after maps ops) -> lib_wf m.
Proof.
  intros [_ A B]. revert maps A. induction ops as [|o r IH]; intros maps A m; cbn [maps_after]; [auto|].
  assert (B' : forall o0 m, In o0 r -> In m (op_libs o0) -> lib_wf m) by (intros; eapply B; [right; eauto|auto]).
  destruct o as [ubs tool|t v|t|f|libs mem| |keep mem]; try (apply IH; auto; fail).
  - apply IH; auto. intros x Hx. apply in_app_or in Hx. destruct Hx as [Hx|Hx]; [auto|]. eapply B; [left; reflexivity|exact Hx].
  - apply IH; auto. intros x Hx. apply filter_In in Hx. apply A. tauto.
Qed.

(** *** C14 *)
Lemma Forall2_in_r {A B} (R : A -> B -> Prop) l s y : Forall2 R l s -> In y s -> exists x, In x l /\ R x y.
Proof. induction 1 as [|a b l s H F IH]; [intros []|]. intros [<-|Hy]; [exists a; split; [left|]; auto|]. destruct (IH Hy) as (x & A1 & A2). exists x. split; [right|]; auto. Qed.
Lemma entry_denotes st i n x : entry_of (s_b st) i = Some x -> name_of (s_b st) i = Some n -> b_handles (s_b st) (en_handle x) = Some i -> denotes st (en_handle x) i n x.
Proof.
  intros E N H. split; [auto|]. unfold entry_of in E. unfold name_of in N. destruct (nth_error (b_ib (s_b st)) i) as [ib|] eqn:Ei; [|discriminate].
  destruct (nth_error (b_tables (s_b st)) (ib_table ib)) as [bt|] eqn:Eb; [|discriminate]. destruct (nth_error (ts_heap (b_tools (s_b st))) (bt_tool bt)) as [t|] eqn:Et; [|discriminate].
  injection E as <-. injection N as <-. exists ib, bt, t. auto.
Qed.
Lemma rel_denotes e st a n x : rel1 e True st a -> In x (a_stack a n) -> exists i, entry_of (s_b st) i = Some x /\ name_of (s_b st) i = Some n /\ b_handles (s_b st) (en_handle x) = Some i.
Proof.
  intros [P|[ch S]] Hx; [rewrite (pr_as _ _ _ _ _ P) in Hx; destruct Hx|].
  pose proof (sr_b _ _ _ _ _ _ _ _ S) as B. pose proof (sr_w _ _ _ _ _ _ _ _ S I) as W.
  destruct (Forall2_in_r _ _ _ _ (br_stack _ _ _ _ _ B n) Hx) as (i & Hi & Ei). exists i. split; [auto|]. split; [apply (br_name _ _ _ _ _ B); auto|].
  destruct (entry_ib _ _ _ Ei) as (ib & E & _ & Hh). rewrite <- Hh. apply (wr_handles _ _ _ _ W _ _ E).
Qed.
Lemma handles_stable e maps mem ops more : process_ok e maps (ops ++ more) -> fresh e (ops ++ more) ->
  exists st rs st' rs', run e (init_state maps mem) ops = Ok (st, rs) /\ run e st more = Ok (st', rs') /\
   forall n x, In x (installed e ops n) -> exists i, denotes st (en_handle x) i n x /\ denotes st' (en_handle x) i n x.
Proof.
  intros P F. destruct (run_hist e maps mem ops (process_app _ _ _ _ P) (fresh_app _ _ _ F)) as (st & E & R).
  destruct (arun_agree e (po_env _ _ _ P) (exports e) ops (a0 maps)) as (_ & _ & IV); [apply a0_inv|apply (fresh_ops_of e (exports e) maps ops []); eapply fresh_app; eauto|].
  destruct (arun_agree e (po_env _ _ _ P) (exports e) more (history e maps ops)) as (A & B & _); [exact IV|apply (fresh_ops_of e (exports e) maps more ops F)|].
  destruct (run_bext e True (po_env _ _ _ P) more st (history e maps ops) R) as (st' & E' & R' & BX); [intros _; exact B|intros o Ho; eapply process_ops; [exact P|apply in_or_app; auto]|].
  eexists st, _, st', _. split; [exact E|]. split; [exact E'|]. intros n x Hx.
  assert (Hs : In x (a_stack (history e maps ops) n)) by (eapply Permutation_in; [apply Permutation_sym, (stacks_installed e (exports e) maps ops n)|exact Hx]).
  destruct (rel_denotes e st _ n x R Hs) as (i & A1 & A2 & A3). exists i. split; [apply entry_denotes; auto|].
  destruct (BX _ _ _ A1 A2) as [A4 A5]. apply entry_denotes; auto.
  assert (R'' : rel1 e True st' (fst (arun place (exports e) e (history e maps ops) more))) by (rewrite A; exact R').
  assert (Hs' : In x (a_stack (fst (arun place (exports e) e (history e maps ops) more)) n)).
  { pose proof (run_keeps_order e (exports e) more n (history e maps ops)) as SB. clear - SB Hs. induction SB; [auto|destruct Hs; [left; auto|right; auto]|right; auto]. }
  destruct (rel_denotes e st' _ n x R'' Hs') as (j & B1 & B2 & B3). rewrite B3. f_equal.
  assert (Hj : b_handles (s_b st') (en_handle x) = Some i); [|congruence].
  destruct R'' as [PR|[ch S]]; [rewrite (pr_as _ _ _ _ _ PR) in Hs'; destruct Hs'|].
  destruct (entry_ib _ _ _ A4) as (ib & Ei & _ & Hh). rewrite <- Hh. apply (wr_handles _ _ _ _ (sr_w _ _ _ _ _ _ _ _ S I) _ _ Ei).
Qed.

(** *** C26 *)
Lemma lseg_tlist h : forall l p, lseg (tnx h) p l -> exists tl, tlist h p tl /\ map t_name tl = map (tname h) l /\ map t_prio tl = map (tprio h) l /\ Forall2 (fun i t => nth_error h i = Some t) l tl.
Proof.
  induction l as [|i r IH]; intros p H; cbn in H.
  - subst. exists []. split; [constructor|]. auto.
  - destruct H as (-> & q & H1 & H2). destruct (IH _ H2) as (tl & A & B & C & D). unfold tnx in H1. destruct (nth_error h i) as [t|] eqn:E; [|discriminate]. cbn in H1. injection H1 as <-.
    exists (t :: tl). split; [econstructor; eauto|]. unfold tname, tprio. cbn. rewrite E, B, C. split; [auto|]. split; [auto|]. constructor; auto.
Qed.

Lemma prios_in (h : list tool) t : NoDup (map t_name h) -> In t h -> aget cstr_eqb (tool_prios h) (t_name t) = Some (t_prio t).
Proof.
  intros N H. apply (aget_In cstr_eqb cstr_eqb_ok); [rewrite prios_names; auto|]. apply (in_map (fun t => (t_name t, t_prio t))) in H. exact H.
Qed.

Lemma registry e maps mem ops : process_ok e maps ops ->
  exists st rs tl, run e (init_state maps mem) ops = Ok (st, rs) /\ tlist (ts_heap (b_tools (s_b st))) (ts_head (b_tools (s_b st))) tl /\
    NoDup (map t_name tl) /\ (forall t, In t (map t_name tl) <-> used ops t = true) /\
    StronglySorted Z.le (map t_prio tl) /\ (forall t, In t tl -> t_prio t = last_set ops (t_name t)).
Proof.
  intros P. destruct (run_any e maps mem ops P) as (st & E & R).
  pose proof (fun t => run_tools e (exports e) ins_c ops t (a0 maps)) as RT. cbn [a0 a_tools aget find] in RT.
  destruct R as [R|[ch S]].
  - exists st, (snd (arun ins_c (exports e) e (a0 maps) ops)), []. split; [auto|]. rewrite (pr_b _ _ _ _ _ R). cbn.
    split; [constructor|]. split; [constructor|]. split; [|split; [constructor|intros t []]].
    intros t. specialize (RT t). rewrite (pr_at _ _ _ _ _ R) in RT. cbn in RT. destruct (used ops t); split; intros H; try discriminate; try contradiction.
    specialize (RT ltac:(intros X; discriminate)). discriminate.
  - pose proof (sr_b _ _ _ _ _ _ _ _ S) as B. destruct (br_tools _ _ _ _ _ B) as [l TO]. destruct (lseg_tlist _ _ _ (to_list _ _ TO)) as (tl & A1 & A2 & A3 & A4).
    assert (PM : Permutation tl (ts_heap (b_tools (s_b st)))).
    { assert (ND : NoDup l) by (eapply to_nodup; eauto).
      assert (EM : map (fun i => nth_error (ts_heap (b_tools (s_b st))) i) l = map Some tl).
      { clear - A4. induction A4; cbn; [auto|]. rewrite H, IHA4. auto. }
      assert (PP : Permutation (map Some tl) (map Some (ts_heap (b_tools (s_b st))))).
      { rewrite <- EM. rewrite (Permutation_map _ (to_perm _ _ TO)). clear. set (h := ts_heap (b_tools (s_b st))). 
        assert (G : forall (k : list tool) p, map (fun i => nth_error (p ++ k) i) (seq (length p) (length k)) = map Some k).
        { induction k as [|x r IH]; intros p; cbn; [auto|]. f_equal; [rewrite nth_error_app2, Nat.sub_diag by lia; reflexivity|].
          specialize (IH (p ++ [x])). rewrite <- app_assoc, app_length in IH. cbn in IH. rewrite Nat.add_1_r in IH. exact IH. }
        specialize (G h []). cbn [app length] in G. rewrite G. reflexivity. }
      apply Permutation_map_inv in PP. destruct PP as (l3 & E3 & P3). assert (tl = l3) as <-; [|apply Permutation_sym; auto].
      clear - E3. revert l3 E3. induction tl as [|x r IH]; intros [|y q] E3; try discriminate; [auto|]. cbn in E3. injection E3 as <- E3. f_equal. auto. }
    assert (RT' : forall t, aget cstr_eqb (tool_prios (ts_heap (b_tools (s_b st)))) t = if used ops t then Some (last_set ops t) else None).
    { intros t. rewrite (br_prios _ _ _ _ _ B). apply RT. intros X; discriminate. }
    assert (ND : NoDup (map t_name tl)) by (eapply Permutation_NoDup; [apply Permutation_map, Permutation_sym; exact PM|apply (to_names _ _ TO)]).
    exists st, (snd (arun ins_c (exports e) e (a0 maps) ops)), tl. split; [auto|]. split; [auto|]. split; [auto|]. split; [|split].
    + intros t. split.
      * intros H. apply in_map_iff in H. destruct H as (x & <- & Hx). apply (Permutation_in _ PM) in Hx. pose proof (prios_in _ x (to_names _ _ TO) Hx) as H. rewrite RT' in H.
        destruct (used ops (t_name x)); [auto|discriminate].
      * intros H. specialize (RT' t). rewrite H in RT'. unfold aget in RT'. destruct (find _ _) as [[k v]|] eqn:Ef; [|discriminate]. apply find_some in Ef. destruct Ef as [Hin Ek]. cbn in Ek. apply cstr_eqb_ok in Ek. subst k.
        unfold tool_prios in Hin. apply in_map_iff in Hin. destruct Hin as (x & Ex & Hx). injection Ex as <- _. apply in_map. apply (Permutation_in _ (Permutation_sym PM)). auto.
    + rewrite A3. apply (to_sorted _ _ TO).
    + intros t Ht. apply (Permutation_in _ PM) in Ht. pose proof (prios_in _ t (to_names _ _ TO) Ht) as H. rewrite RT' in H. destruct (used ops (t_name t)); [|discriminate]. congruence.
Qed.

(** *** C19 *)
Lemma is_prefix_spec p s : is_prefix p s = true <-> exists b, s = p ++ b.
Proof.
  revert s. induction p as [|x p IH]; intros s; cbn; [split; [eauto|auto]|]. destruct s as [|y s]; [split; [discriminate|intros [b H]; discriminate]|].
  rewrite andb_true_iff, Z.eqb_eq, IH. split.
  - intros [-> [b ->]]. eauto.
  - intros [b H]. injection H as -> ->. eauto.
Qed.
Lemma strstr_spec s : forall t, libc_strstr t s = true <-> substring s t.
Proof.
  unfold substring. induction t as [|y t IH]; cbn [libc_strstr]; rewrite orb_true_iff, is_prefix_spec.
  - split; [intros [[b H]|H]; [exists [], b; auto|discriminate]|]. intros ([|a] & b & H); cbn in H; [left; eauto|discriminate].
  - rewrite IH. split.
    + intros [[b H]|(a & b & H)]; [exists [], b; auto|]. exists (y :: a), b. cbn. congruence.
    + intros ([|x a] & b & H); cbn in H; [left; eauto|]. right. injection H as _ H. eauto.
Qed.

Lemma run_filter e maps mem ops : process_ok e maps ops ->
  exists st rs, run e (init_state maps mem) ops = Ok (st, rs) /\ p_filter (s_p st) = last_filter ops.
Proof.
  intros P. induction ops as [|o l IH] using rev_ind.
  - eexists _, _. split; reflexivity.
  - destruct (IH (process_app _ _ _ _ P)) as (st & rs & E & F). destruct (step_any e maps mem l o st rs P E) as (_ & st' & E1 & _ & M).
    exists st', (rs ++ [snd (astep ins_c (exports e) e (fst (arun ins_c (exports e) e (a0 maps) l)) o)]). split.
    + rewrite run_app, E. cbn [bind]. rewrite run_one, E1. reflexivity.
    + unfold last_filter. rewrite fold_left_app. fold (last_filter l). cbn [fold_left]. rewrite <- F.
      destruct o; cbn [set_filter_last]; try (destruct M as (M & _); exact M); try (destruct M as (_ & M & _); exact M). rewrite M. reflexivity.
Qed.
