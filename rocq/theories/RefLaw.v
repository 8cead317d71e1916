(** Tool names given by reference: invariants of all histories, and what happens when a name is overwritten. *)
From Verif Require Import Base ListFacts HashModel ElfModel ToolModel CoreModel SpecCore SpecRun HashProofs HashTrace ToolProofs CoreMaps CoreRel CoreMicro RefModel SpecRef RefProofs.
From Coq Require Import Permutation Sorted.

(** *** the list of tools stays well formed *)
Notation stw st := (TW (b_tools (s_b st))).
Lemma set_wrappee_tools b h v b' : set_wrappee b h v = Ok b' -> b_tools b' = b_tools b.
Proof. unfold set_wrappee. destruct (b_handles b h); [|discriminate]. intros E. injection E as <-. reflexivity. Qed.
Lemma place_tools b i n w p b' r : place_binding b i n w p = Ok (b', r) -> b_tools b' = b_tools b.
Proof.
  unfold place_binding. intros E. iba E as o. destruct o as [hd|].
  - ib E. destruct (_ <? _).
    + iba E as b1. injection E as <- _. unfold insert_at_head in B1. ib B1. ib B1. iba B1 as b2. iba B1 as [t ?]. ib B1. injection B1 as <-. apply set_wrappee_tools in B4. exact B4.
    + iba E as o. destruct o; [|injection E as <- _; reflexivity]. iba E as b1. injection E as <- _. unfold insert_after_pos in B2. ib B2. ib B2. iba B2 as b2. iba B2 as b3. ib B2. injection B2 as <-.
      apply set_wrappee_tools in B5. apply set_wrappee_tools in B6. cbn. congruence.
  - ib E. injection E as <- _. reflexivity.
Qed.
Lemma prepare_tools e st b st' f : prepare_symbol e st b = Ok (st', f) -> b_tools (s_b st') = b_tools (s_b st).
Proof.
  unfold prepare_symbol. intros E. ib E. iba E as [l r]. destruct r; [|injection E as <- _; reflexivity]. iba E as b1. injection E as <- _. apply set_wrappee_tools in B1. exact B1.
Qed.
Lemma update_tools e t st st' : update_all_library_gots e t st = Ok st' -> b_tools (s_b st') = b_tools (s_b st).
Proof. unfold update_all_library_gots. intros E. iba E as [l p]. injection E as <-. reflexivity. Qed.

Section Wrap.
Context (e : env) (rec : wrap_fun) (Hps : 48 <= e_ps e).
Context (Hrec : forall st ubs t st' c, s_init st = true -> rec st ubs t = Ok (st', c) -> stw st -> s_init st' = true /\ stw st').
Lemma wrap_main_tw st n st' : s_init st = true -> wrap_main e rec st n = Ok st' -> stw st -> s_init st' = true /\ stw st'.
Proof.
  unfold wrap_main. intros I E W. destruct (_ && _); [|injection E as <-; auto]. iba E as [st1 c1]. iba E as [st2 c2]. injection E as <-.
  destruct (Hrec (mkSt (s_init st) true (s_b st) (s_l st) (s_p st)) _ _ _ _ I B W) as [I1 W1]. eapply Hrec; eassumption.
Qed.
Lemma wrap_one_tw na b st pr st' pr' : s_init st = true -> wrap_one e rec na b (st, pr) = Ok (st', pr') -> stw st -> s_init st' = true /\ stw st'.
Proof.
  unfold wrap_one. intros I E W. iba E as [st1 r]. ib E. iba E as [st2 pr2].
  assert (M1 : s_init st1 = true /\ stw st1).
  { unfold rewrite_wrapper_orders in B. ib B. ib B. iba B as st3. iba B as [bs r']. injection B as <- _. destruct (wrap_main_tw _ _ _ I B4 W) as [I3 W3]. apply place_tools in B5. cbn [s_init s_b set_b]. rewrite B5. auto. }
  assert (M2 : s_init st2 = true /\ stw st2).
  { destruct (need_lookup r); [|injection B1 as <- _; exact M1]. iba B1 as [st3 f]. pose proof (prepare_tools _ _ _ _ _ B2) as P. pose proof (imics_frame _ _ _ (prepare_symbol_mics _ _ _ _ _ B2)) as [F _].
    destruct M1 as [I1 W1]. destruct f; [injection B1 as <- _; rewrite F, P; auto|]. ib B1. injection B1 as <- _. cbn [s_init s_b set_b b_tools set_nf]. rewrite F, P. auto. }
  destruct (need_binding r); [|injection E as <- _; auto]. ib E. ib E. injection E as <- _. auto.
Qed.
Lemma wrap_loop_tw na : forall n b st pr st' pr', s_init st = true -> wrap_loop e rec na n b (st, pr) = Ok (st', pr') -> stw st -> s_init st' = true /\ stw st'.
Proof.
  induction n as [|n IH]; intros b st pr st' pr' I E W; cbn [wrap_loop] in E; [injection E as <- _; auto|]. iba E as [st1 pr1]. destruct (wrap_one_tw _ _ _ _ _ _ I B W) as [I1 W1]. eapply IH; eassumption.
Qed.
Lemma wrap_tool_tw st ubs tool st' c : s_init st = true -> wrap_tool e rec st ubs tool = Ok (st', c) -> stw st -> s_init st' = true /\ stw st'.
Proof.
  unfold wrap_tool. intros I E W. iba E as [ts i]. iba E as [bs tbl]. ib E. iba E as [st1 pr]. iba E as st2. injection E as <- _.
  assert (W1 : TW ts) by (eapply get_or_create_twf; [exact Hps| |exact B]; exact W).
  assert (W2 : TW (b_tools bs)).
  { unfold add_binding_to_tool in B0. destruct (fill_bindings _ _ _ _). ib B0. ib B0. ib B0. injection B0 as <- _. cbn [b_tools]. apply upd_binding_twf. exact W1. }
  apply wrap_loop_tw in B2; [|exact I|exact W2]. destruct B2 as [I2 W3].
  destruct (pr_new pr); [|injection B3 as <-; auto]. pose proof (update_tools _ _ _ _ B3) as U. pose proof (imics_frame _ _ _ (update_all_mics _ _ _ _ B3)) as [F _]. rewrite F, U. auto.
Qed.
End Wrap.
Lemma wrap_n_tw e : 48 <= e_ps e -> forall n st ubs t st' c, s_init st = true -> wrap_n e n st ubs t = Ok (st', c) -> stw st -> s_init st' = true /\ stw st'.
Proof.
  intros Hps. induction n as [|n IH]; intros st ubs t st' c I E W; cbn [wrap_n] in E; [discriminate E|]. unfold wrap_body, gotcha_init in E. rewrite I in E. cbn [bind] in E.
  eapply wrap_tool_tw; [exact Hps|exact IH|exact I|exact E|exact W].
Qed.
Lemma init_tw e n st st' : 48 <= e_ps e -> gotcha_init e (wrap_n e n) st = Ok st' -> stw st -> s_init st' = true /\ stw st'.
Proof.
  intros Hps E W. destruct (s_init st) eqn:I; [rewrite (init_noop _ _ _ _ E I); auto|]. unfold gotcha_init in E. rewrite I in E. iba E as st1. iba E as [st2 c]. injection E as <-.
  unfold setup_hash_tables in B. ib B. ib B. ib B. injection B as <-. eapply wrap_n_tw; [exact Hps| |exact B0|]; [reflexivity|exact W].
Qed.
Lemma finish_tools e st st' : dlopen_finish e st = Ok st' -> b_tools (s_b st') = b_tools (s_b st).
Proof.
  unfold dlopen_finish, foreach_hash_entry. intros E. iba E as [st1 c]. rewrite (update_tools _ _ _ _ E). clear E.
  match type of B with foreach_loop ?f _ _ ?i _ = _ => generalize dependent i; generalize dependent f end.
  intros fuel i. revert i st. induction fuel as [|f IH]; intros i st E; cbn [foreach_loop] in E; destruct i as [p|]; try (injection E as <- _; reflexivity); [discriminate E|].
  destruct (nth_error _ p) as [en|]; [|discriminate E]. iba E as [st2 r].
  assert (M : b_tools (s_b st2) = b_tools (s_b st)).
  { unfold per_binding in B. destruct (he_key en), (he_data en); try discriminate B. ib B. iba B as [st3 fd]. apply prepare_tools in B1. destruct fd; [|injection B as <- _; exact B1]. iba B as [t ?]. injection B as <- _. exact B1. }
  destruct (negb _); [injection E as <- _; exact M|]. destruct (nth_error _ p); [|discriminate E]. rewrite <- M. eapply IH. exact E.
Qed.
Lemma step_tw e st o st' r : 48 <= e_ps e -> step e st o = Ok (st', r) -> stw st -> stw st'.
Proof.
  intros Hps E W. destruct o as [ubs tool|t v|t|f|libs mem| |keep mem]; cbn [step] in E; try (injection E as <- _; exact W).
  - iba E as [st1 c]. injection E as <- _. unfold gotcha_wrap in B. change (wrap_n e 3) with (wrap_body e (wrap_n e 2)) in B. unfold wrap_body in B. iba B as st0.
    destruct (init_tw e 2 st st0 Hps B0 W) as [I0 W0]. eapply wrap_tool_tw; [exact Hps|apply (wrap_n_tw e Hps 2)|exact I0|exact B|exact W0].
  - iba E as [st1 c]. injection E as <- _. unfold gotcha_set_priority, api_init in B. iba B as st0. iba B as ts. injection B as <- _. destruct (init_tw e 3 st st0 Hps B0 W) as [_ W0].
    cbn [s_b set_b b_tools set_btools]. eapply set_prio_twf; [exact Hps|exact W0|exact B1].
  - iba E as [st1 [c v]]. injection E as <- _. unfold gotcha_get_priority, api_init in B. iba B as st0. ib B. injection B as <- _. apply (init_tw e 3 st st0 Hps B0 W).
  - destruct (s_init st); [|injection E as <- _; exact W]. iba E as st0. injection E as <- _. rewrite (finish_tools _ _ _ B). exact W.
Qed.

(** *** every tool whose name lies in a buffer has the name the buffer holds *)
Definition rinv (r : rstate) : Prop :=
  stw (r_st r) /\ length (r_of r) = length (ts_heap (b_tools (s_b (r_st r)))) /\
  forall i b t, nth_error (r_of r) i = Some (Some b) -> nth_error (ts_heap (b_tools (s_b (r_st r)))) i = Some t -> t_name t = r_buf r b.
Lemma rename_length b s : forall of h, length (rename b s of h) = length h.
Proof. induction of as [|o of IH]; intros [|t h]; try reflexivity. cbn [rename length]. rewrite IH. reflexivity. Qed.
Lemma rename_nth b s : forall of h i, nth_error (rename b s of h) i =
  match nth_error of i with Some (Some b') => if Nat.eqb b' b then option_map (set_tname s) (nth_error h i) else nth_error h i | _ => nth_error h i end.
Proof.
  induction of as [|o of IH]; intros [|t h] i; cbn [rename]; try (destruct i; reflexivity).
  - destruct i; cbn [nth_error]; [destruct o as [b'|]; [destruct (Nat.eqb b' b)|]; reflexivity|]. destruct (nth_error of i) as [[b'|]|]; [destruct (Nat.eqb b' b)|..]; reflexivity.
  - destruct i; cbn [nth_error]; [destruct o as [b'|]; [destruct (Nat.eqb b' b)|]; reflexivity|apply IH].
Qed.
Lemma rename_tw b s of ts : TW ts -> TW (mkTS (rename b s of (ts_heap ts)) (ts_head ts)).
Proof.
  intros (l & A & P & S & N). exists l.
  assert (F : forall i, exists f, nth_error (rename b s of (ts_heap ts)) i = option_map f (nth_error (ts_heap ts) i) /\ forall t, t_next (f t) = t_next t /\ t_prio (f t) = t_prio t /\ t_parent (f t) = t_parent t).
  { intros i. rewrite rename_nth. destruct (nth_error of i) as [[b'|]|]; [destruct (Nat.eqb b' b)|..]; [exists (set_tname s); auto|exists (fun t => t)..]; (split; [destruct (nth_error (ts_heap ts) i); reflexivity|auto]). }
  split; [|split; [|split]]; cbn [ts_heap ts_head].
  - eapply lseg_ext; [|exact A]. intros i _. unfold tnx. destruct (F i) as (f & -> & H). destruct (nth_error (ts_heap ts) i) as [t|]; [|reflexivity]. cbn. f_equal. apply H.
  - rewrite rename_length. exact P.
  - erewrite map_ext; [exact S|]. intros i. unfold tprio. destruct (F i) as (f & -> & H). destruct (nth_error (ts_heap ts) i) as [t|]; [|reflexivity]. cbn. apply H.
  - intros t Ht. apply In_nth_error in Ht. destruct Ht as [i Ht]. destruct (F i) as (f & E & H). rewrite E in Ht. destruct (nth_error (ts_heap ts) i) as [t'|] eqn:Et; [|discriminate]. injection Ht as <-.
    destruct (H t') as (_ & _ & ->). apply N. eapply nth_error_In; eauto.
Qed.
Lemma rstep_inv e r o r' xs : 48 <= e_ps e -> rinv r -> rstep e r o = Ok (r', xs) -> rinv r'.
Proof.
  intros Hps (W & L & N) E.
  assert (G : forall st x, step e (r_st r) (op_of (r_buf r) o) = Ok (st, x) -> r' = mkR st (r_buf r) (r_of r ++ new_of (named_by o) (r_buf r) (skipn (length (r_of r)) (ts_heap (b_tools (s_b st))))) -> rinv r').
  { intros st x S ->. pose proof (step_keeps _ _ _ _ _ S) as [K1 K2]. unfold rinv. cbn [r_st r_buf r_of]. split; [eapply step_tw; eassumption|]. split.
    - rewrite app_length. unfold new_of. rewrite map_length, skipn_length. lia.
    - intros i b t Hi Ht. destruct (le_lt_dec (length (r_of r)) i) as [Li|Li].
      + rewrite nth_error_app2 in Hi by exact Li. unfold new_of in Hi. rewrite nth_error_map in Hi. 
        assert (Hs : nth_error (skipn (length (r_of r)) (ts_heap (b_tools (s_b st)))) (i - length (r_of r)) = Some t).
        { rewrite <- (firstn_skipn (length (r_of r)) (ts_heap (b_tools (s_b st)))) in Ht. rewrite nth_error_app2 in Ht by (rewrite firstn_length; lia). rewrite firstn_length, Nat.min_l in Ht by lia. exact Ht. }
        rewrite Hs in Hi. cbn in Hi. injection Hi as Hi. destruct (named_by o) as [b'|]; [|discriminate Hi]. destruct (cstr_eqb (t_name t) (r_buf r b')) eqn:Eb; [|discriminate Hi]. destruct (negb _); [|discriminate Hi].
        injection Hi as <-. apply cstr_eqb_ok in Eb. exact Eb.
      + rewrite nth_error_app1 in Hi by exact Li. destruct (nth_error_lt_Some (ts_heap (b_tools (s_b (r_st r)))) i) as [t0 H0]; [lia|]. destruct (K2 i t0 H0) as (t' & H' & En). assert (t' = t) by congruence. subst. rewrite En. eapply N; eauto. }
  destruct o as [b s|ubs tool|b v|b|o]; cbn [rstep] in E.
  2-5: (iba E as [st x]; injection E as E _; eapply G; [reflexivity|symmetry; exact E]).
  injection E as <- _. unfold rinv. cbn [r_st r_buf r_of s_b set_b b_tools set_btools ts_heap]. split; [apply rename_tw; exact W|]. split; [rewrite rename_length; exact L|].
  intros i b' t Hi Ht. rewrite rename_nth, Hi in Ht. destruct (Nat.eqb_spec b' b) as [->|Nb].
  - destruct (nth_error (ts_heap _) i) as [t0|] eqn:E0; [|discriminate]. injection Ht as <-. reflexivity.
  - eapply N; eauto.
Qed.
Lemma rrun_inv e : 48 <= e_ps e -> forall ops r r' xs, rinv r -> rrun e r ops = Ok (r', xs) -> rinv r'.
Proof.
  intros Hps. induction ops as [|o ops IH]; intros r r' xs W E; cbn [rrun] in E; [injection E as <- _; exact W|]. iba E as [r1 x1]. iba E as [r2 x2]. injection E as <- _. eapply IH; [|exact B0]. eapply rstep_inv; eassumption.
Qed.
Lemma rinit_inv maps mem buf : rinv (rinit maps mem buf).
Proof.
  unfold rinv, rinit. cbn. split; [|split; [reflexivity|]].
  - exists []. split; [reflexivity|]. split; [apply Permutation_refl|]. split; [constructor|intros t []].
  - intros [|i] b t H; discriminate.
Qed.
Lemma rrun_app e : forall l1 l2 r, rrun e r (l1 ++ l2) = do ' (r1, x1) <- rrun e r l1; do ' (r2, x2) <- rrun e r1 l2; Ok (r2, x1 ++ x2).
Proof.
  induction l1 as [|o l1 IH]; intros l2 r; [cbn; destruct (rrun e r l2) as [[]|]; reflexivity|]. cbn [app rrun]. destruct (rstep e r o) as [[r1 x1]|]; cbn [bind]; [|reflexivity]. rewrite IH.
  destruct (rrun e r1 l1) as [[r2 x2]|]; cbn [bind]; [|reflexivity]. destruct (rrun e r2 l2) as [[r3 x3]|]; cbn [bind]; [|reflexivity]. rewrite app_assoc. reflexivity.
Qed.
