(** Redirection over whole histories. *)
From Verif Require Import Base ListFacts HashModel HashProofs SpecHash HashTrace ElfModel SpecElf ToolModel CoreModel SpecCore SpecRun SpecSync
  ToolProofs CoreMaps CoreRel CoreLib CoreStep CoreWrap CoreLoop CoreMain CoreEnv CoreSpec CoreFacts CoreHist CoreApi CoreApi2 CoreSync CoreSync2.
From Coq Require Import Permutation Sorted.

(** *** growing the set of libraries *)
Notation lhash := (fun m => link_map_hash (key_of m)).
Lemma linv_mono all all' l f : (forall m, In m all -> In m all') -> linv all l f -> linv all' l f.
Proof.
  intros H [(li & c & I & KI & ND & Eg) B C D]. constructor; auto. exists li, c. split; [auto|]. split; [|auto].
  eapply Forall_impl; [|exact KI]. intros [k v] Hk. cbn in *. unfold lkeys in *. apply in_map_iff in Hk. destruct Hk as (m & <- & Hm). apply in_map. auto.
Qed.
Lemma linv_dom all l f k i : linv all l f -> f k = Some i -> lkeys all k.
Proof.
  intros [(li & c & I & KI & ND & Eg) B C D] Hk. rewrite <- Eg in Hk. unfold aget in Hk.
  destruct (find (fun p => lkey_eqb (fst p) k) c) as [[k' v]|] eqn:E; [|discriminate]. apply find_some in E. destruct E as [E1 E2].
  cbn in E2. apply lkey_eqb_ok in E2. subst k'. eapply keys_in_In; eauto.
Qed.

Section Sync3.
Context (e : env) (EO : env_ok e).
Notation ex := (exports e).
Notation rl := relocs.
Notation srel := (srel e ex rl False).
Notation prel := (prel e ex rl).
Notation ainit := (ainit ins_c ex e).
Notation astep := (astep ins_c ex e).
Notation lgood := (lgood rl).
Notation moved := (moved rl).

(** *** one step *)
Definition bound_of (a : astate) (w : Z) : Z := 1 + w + (if a_main a then 2 else 0).
Definition good (all : list lmap) (w : Z) (st : state) (a : astate) : Prop :=
  prel st a \/ exists ch f, srel st a ch [] /\ lgood all st f /\ 1 <= l_gen (s_l st) <= bound_of a w.

Definition single (a : astate) (o : op) : Prop :=
  match o with OWrap ubs _ => plain a ubs \/ (a_main a = false /\ exists u, ubs = [u] /\ ub_name u = n_main) | _ => True end.

Lemma ainit_main a : a_main (ainit a) = a_main a.
Proof. unfold SpecCore.ainit. destruct (a_init a); [auto|]. match goal with |- context [SpecCore.abinds _ _ ?x ?t ?u] => destruct (abinds_frame ex t u x) as (-> & _) end. reflexivity. Qed.

Section All.
Context (all : list lmap) (HND : apart all).
Context (HL : forall m, In m all -> lib_ok e ex rl m).

Lemma init_moved rec st a w : good all w st a -> 0 <= w -> (forall m, In m (p_maps (s_p st)) -> In m all) -> NoDup (map key_of (p_maps (s_p st))) -> slots_fun rl (p_maps (s_p st)) ->
  exists st' ch f, gotcha_init e (wrap_body e rec) st = Ok st' /\ srel st' (ainit a) ch [] /\ lgood all st' f /\ 1 <= l_gen (s_l st') <= bound_of a w /\ moved st a st' (ainit a) /\
    (s_init st = true -> st' = st).
Proof.
  intros [P|(ch & f & S & Y & Hg)] Hw Hin Hnd SF.
  - destruct (init_good e ex rl EO all HND HL rec st a P Hin Hnd SF) as (st' & ch & f & E & S & Y & G & M).
    exists st', ch, f. split; [auto|]. split; [auto|]. split; [auto|]. split; [unfold bound_of; destruct (a_main a); lia|]. split; [auto|].
    rewrite (pr_i _ _ _ _ _ P). discriminate.
  - exists st, ch, f. unfold gotcha_init. rewrite (sr_init _ _ _ _ _ _ _ _ S). unfold SpecCore.ainit. rewrite (sr_ainit _ _ _ _ _ _ _ _ S).
    split; [reflexivity|]. split; [auto|]. split; [auto|]. split; [auto|]. split; [apply moved_same; auto|auto].
Qed.

Lemma api_good st a o w : is_api o = true -> good all w st a -> 0 <= w -> w + 4 < two32 ->
  (forall m, In m (p_maps (s_p st)) -> In m all) -> NoDup (map key_of (p_maps (s_p st))) -> slots_fun rl (p_maps (s_p st)) ->
  exists st' r, step e st o = Ok (st', r) /\ good all (w + if is_wrap o then 1 else 0) st' (fst (astep a o)) /\ (single a o -> moved st a st' (fst (astep a o))) /\
    (s_init st = true -> is_wrap o = false -> s_l st' = s_l st /\ s_p st' = s_p st).
Proof.
  intros Ho G Hw Hw2 Hin Hnd SF. destruct o as [ubs tool|t v|t|f|libs mem| |keep mem]; try discriminate; cbn [step is_wrap].
  - unfold gotcha_wrap. cbn [wrap_n]. unfold wrap_body at 1.
    destruct (init_moved (wrap_n e 1) st a w G Hw Hin Hnd SF) as (st1 & ch1 & f1 & E1 & S1 & Y1 & G1 & M1 & _). cbn [wrap_n] in *. rewrite E1. cbn [bind].
    cbn [SpecCore.astep]. unfold SpecCore.awrap. fold (tool_of tool). cbn [single]. unfold bound_of in G1.
    destruct (wrap_any_good e ex rl EO all HND HL (wrap_n e 1) st1 (ainit a) ch1 [] ubs tool f1 S1 Y1) as (st2 & ch2 & c & f2 & E2 & S2 & Y2 & Hg2 & G2).
    { unfold slack. rewrite ainit_main. destruct (a_main a); lia. }
    cbn [wrap_n] in E2. rewrite E2. cbn [bind]. eexists _, _. split; [reflexivity|].
    destruct (abinds_user ins_c ex e (ause (ainit a) (tool_of tool)) (tool_of tool) ubs) as [a2 ms] eqn:Ea. cbn [fst] in *.
    split; [|split; [|discriminate]].
    { right. exists ch2, f2. split; [auto|]. split; [auto|]. unfold slack in G2. rewrite ainit_main in G2. unfold bound_of.
      assert (Hmm : a_main a = true -> a_main a2 = true).
      { intros Hm. replace a2 with (fst (abinds_user ins_c ex e (ause (ainit a) (tool_of tool)) (tool_of tool) ubs)) by (rewrite Ea; auto).
        rewrite (abinds_user_plain e ex ins_c) by (right; cbn; rewrite ainit_main; auto).
        destruct (abinds_frame ex (tool_of tool) ubs (ause (ainit a) (tool_of tool))) as (-> & _). cbn. rewrite ainit_main. auto. }
      destruct (a_main a); [rewrite (Hmm eq_refl) in *; lia|]. destruct (a_main a2); lia. }
    intros [HS|[Hm (u & -> & Hu)]]; (eapply moved_trans; [exact M1|]).
    + assert (HS1 : plain (ainit a) ubs) by (unfold plain in *; rewrite ainit_main; auto).
      destruct (wrap_tool_moved e ex rl EO all HND HL (wrap_body e (wrap_n e 1)) st1 (ainit a) ch1 [] ubs tool f1 S1 HS1 Y1) as (st3 & ch3 & c3 & f3 & E3 & _ & _ & _ & _ & M3).
      { destruct (a_main a); lia. }
      cbn [wrap_n] in E3. rewrite E2 in E3. injection E3 as <- _.
      rewrite (abinds_user_plain e ex ins_c (tool_of tool) ubs (ause (ainit a) (tool_of tool)) HS1) in Ea. rewrite Ea in M3. exact M3.
    + destruct (wrap_first_main e ex rl EO all HND HL (wrap_n e 1) st1 (ainit a) ch1 [] u tool f1 S1) as (st3 & ch3 & c3 & f3 & E3 & _ & _ & _ & _ & M3); auto.
      { rewrite ainit_main. auto. }
      { rewrite Hm in G1. lia. }
      cbn [wrap_n] in E3. rewrite E2 in E3. injection E3 as <- _. rewrite Ea in M3. exact M3.
  - unfold gotcha_set_priority, api_init.
    destruct (init_moved (wrap_n e 2) st a w G Hw Hin Hnd SF) as (st1 & ch1 & f1 & E1 & S1 & Y1 & G1 & M1 & Hsame). cbn [wrap_n] in *. rewrite E1. cbn [bind].
    pose proof (sr_b _ _ _ _ _ _ _ _ S1) as RB. destruct (br_tools _ _ _ _ _ RB) as [l TO].
    destruct (set_priority_spec (e_ps e) _ l t v (eo_ps e EO) TO) as (ts & l' & E2 & TO2 & Pr & Hb). rewrite E2. cbn [bind].
    assert (HN : forall j x, nth_error (ts_heap (b_tools (s_b st1))) j = Some x -> exists x', nth_error (ts_heap ts) j = Some x' /\ t_name x' = t_name x).
    { intros j x Hj. destruct (Hb j x Hj) as (x' & H1 & H2). exists x'. split; [auto|]. unfold tbind in H2. congruence. }
    eexists _, _. split; [reflexivity|]. cbn [SpecCore.astep fst]. split; [|split].
    + right. exists ch1, f1. split; [|split].
      * constructor; cbn; try apply S1; auto.
        -- rewrite <- (br_prios _ _ _ _ _ RB), <- Pr. eapply brel_set_tools; [exact RB|exact TO2|exact HN].
        -- intros [].
      * destruct Y1; constructor; auto.
      * unfold bound_of in *. cbn [s_l set_b a_main]. rewrite ainit_main. destruct (a_main a); lia.
    + intros _. eapply moved_trans; [exact M1|]. apply moved_same; reflexivity.
    + intros H _. rewrite (Hsame H). cbn. auto.
  - unfold gotcha_get_priority, api_init.
    destruct (init_moved (wrap_n e 2) st a w G Hw Hin Hnd SF) as (st1 & ch1 & f1 & E1 & S1 & Y1 & G1 & M1 & Hsame). cbn [wrap_n] in *. rewrite E1. cbn [bind].
    pose proof (sr_b _ _ _ _ _ _ _ _ S1) as RB. destruct (br_tools _ _ _ _ _ RB) as [l TO].
    rewrite (get_configuration_spec _ l t TO). cbn [bind]. cbn [SpecCore.astep fst].
    match goal with |- context [match ?x with Some _ => _ | None => _ end] => idtac | _ => idtac end.
    assert (HG : good all (w + 0) st1 (ainit a)).
    { right. exists ch1, f1. split; [auto|]. split; [auto|]. unfold bound_of in *. rewrite ainit_main. destruct (a_main a); lia. }
    destruct (aget cstr_eqb (tool_prios (ts_heap (b_tools (s_b st1)))) t); eexists _, _; (split; [reflexivity|]); (split; [exact HG|split; [intros _; exact M1|]]); intros H _; rewrite (Hsame H); auto.
Qed.

(** whether a library counts as up to date *)
Lemma current_gen st f m : lgood all st f -> In m all -> 1 <= l_gen (s_l st) -> current st m <-> genof (s_l st) f m = l_gen (s_l st).
Proof.
  intros Y Hm Hg. pose proof (lg_l _ _ _ _ Y) as L. unfold current, get_library, genof.
  rewrite (kmap_lookup _ _ _ (lcmp_ok all HND) _ lkey_eqb_ok _ _ _ (li_map _ _ _ L) (lkeys_of all m Hm)). split.
  - intros (i & lb & E & El & Eg). injection E as E. rewrite E, El. auto.
  - destruct (f (key_of m)) as [i|] eqn:E; [|lia]. destruct (li_rec _ _ _ L _ _ E) as (lb & El & _). rewrite El. eauto.
Qed.

Lemma finish_step st a w : good all w st a ->
  exists st', step e st OFinish = Ok (st', RNone) /\ good all w st' (fst (astep a OFinish)) /\
    p_maps (s_p st') = p_maps (s_p st) /\ p_filter (s_p st') = p_filter (s_p st) /\
    (forall m n x w, accepted (p_filter (s_p st)) (p_maps (s_p st)) m -> slot rl m n x -> hdw a n = Some w ->
       ~ current st m \/ p_mem (s_p st) x = w -> p_mem (s_p st') x = w).
Proof.
  intros [P|(ch & f & S & Y & Hg)]; cbn [step SpecCore.astep fst].
  - rewrite (pr_i _ _ _ _ _ P), (pr_ai _ _ _ _ _ P). exists st. split; [reflexivity|]. split; [left; auto|]. split; [auto|]. split; [auto|].
    intros m n x w' _ _ H. unfold hdw in H. rewrite (pr_as _ _ _ _ _ P) in H. discriminate.
  - rewrite (sr_init _ _ _ _ _ _ _ _ S), (sr_ainit _ _ _ _ _ _ _ _ S).
    destruct (finish_good e ex rl all HND HL st a ch f S Y) as (st' & f' & E & S' & Y' & G & PM & PF & U). rewrite E. cbn [bind].
    exists st'. split; [reflexivity|]. split; [right; exists ch, f'; split; [auto|]; split; [auto|]; rewrite G; exact Hg|]. split; [auto|]. split; [auto|].
    intros m n x w' Ha Hs Hw Hor. eapply U; eauto. destruct Hor as [H|H]; [left|auto]. intros H'. apply H.
    apply (current_gen st f m Y); [exact (lg_in _ _ _ _ Y m (accepted_in _ _ _ Ha))|lia|auto].
Qed.
End All.

(** *** histories *)
Lemma NoDup_app_filter {A B} (g : A -> B) (f : A -> bool) (a b : list A) : NoDup (map g (a ++ b)) -> NoDup (map g (filter f a ++ b)).
Proof.
  induction a as [|x r IH]; cbn; [auto|]. intros H. inversion H; subst. destruct (f x); [|auto]. cbn. constructor; [|auto].
  intros Hx. apply H2. apply in_map_iff in Hx. destruct Hx as (y & Ey & Hx). apply in_map_iff. exists y. split; [auto|].
  apply in_app_or in Hx. apply in_or_app. destruct Hx as [Hx|Hx]; [apply filter_In in Hx; tauto|auto].
Qed.
Lemma maps_nodup ops : forall maps, NoDup (map key_of (seen maps ops)) -> NoDup (map key_of (maps_after maps ops)).
Proof.
  unfold seen. induction ops as [|o r IH]; intros maps H; cbn in *; [rewrite app_nil_r in H; auto|].
  destruct o; cbn in *; auto; apply IH.
  - rewrite <- app_assoc. auto.
  - apply NoDup_app_filter. auto.
Qed.
Lemma maps_seen ops : forall maps m, In m (maps_after maps ops) -> In m (seen maps ops).
Proof.
  unfold seen. induction ops as [|o r IH]; intros maps m H; cbn in *; [rewrite app_nil_r; auto|].
  destruct o; cbn in *; auto; apply IH in H.
  - rewrite <- app_assoc in H. auto.
  - apply in_app_or in H. apply in_or_app. destruct H as [H|H]; [apply filter_In in H; tauto|auto].
Qed.
Lemma seen_app maps l1 l2 : seen maps (l1 ++ l2) = seen maps l1 ++ flat_map op_libs l2.
Proof. unfold seen. rewrite flat_map_app, app_assoc. auto. Qed.
Lemma seen_mono maps l1 l2 m : In m (seen maps l1) -> In m (seen maps (l1 ++ l2)).
Proof. rewrite seen_app. intros. apply in_or_app. auto. Qed.
Lemma wraps_app l1 l2 : wraps (l1 ++ l2) = (wraps l1 + wraps l2)%nat.
Proof. unfold wraps. rewrite filter_app, app_length. auto. Qed.

Lemma tidy_app maps l1 l2 : tidy maps (l1 ++ l2) -> tidy maps l1.
Proof.
  intros [A B D]. constructor.
  - rewrite seen_app, map_app in A. apply NoDup_app_remove_r in A. auto.
  - intros k1 k2 ->. apply (B k1 (k2 ++ l2)). rewrite app_assoc. auto.
  - rewrite wraps_app in D. lia.
Qed.

Lemma calm_app maps l1 l2 : calm maps (l1 ++ l2) -> calm maps l1.
Proof.
  intros [A B C D]. constructor.
  - intros m m' H H'. apply A; apply seen_mono; auto.
  - intros k1 k2 ->. apply (B k1 (k2 ++ l2)). rewrite app_assoc. auto.
  - intros k1 k2 ->. apply (C k1 (k2 ++ l2)). rewrite app_assoc. auto.
  - rewrite wraps_app in D. lia.
Qed.
Lemma tidy_calm maps ops : tidy maps ops -> calm maps ops.
Proof.
  intros T. constructor; [apply nodup_apart; apply T| |apply T|apply T].
  intros l1 l2 ->. apply maps_nodup. eapply (NoDup_map_inv link_map_hash). rewrite map_map. apply (td_libs _ _ (tidy_app _ _ _ T)).
Qed.
Lemma calm_now maps ops : calm maps ops -> NoDup (map key_of (maps_after maps ops)).
Proof. intros C. apply (cm_once _ _ C ops []). rewrite app_nil_r. auto. Qed.

Lemma seen_ok maps ops : process_ok e maps ops -> forall m, In m (seen maps ops) -> lib_ok e ex rl m.
Proof.
  intros P m H. unfold seen in H. apply in_app_or in H. destruct H as [H|H]; [eapply process_libs; eauto|].
  apply in_flat_map in H. destruct H as (o & Ho & Hm). eapply process_ops; eauto.
Qed.

Notation A maps ops := (fst (arun ins_c ex e (a0 maps) ops)).

Lemma A_snoc maps l o : A maps (l ++ [o]) = fst (astep (A maps l) o).
Proof. rewrite arun_app. cbn [fst SpecCore.arun]. destruct (astep (A maps l) o). reflexivity. Qed.

Lemma reach maps mem ops st rs : process_ok e maps ops -> run e (init_state maps mem) ops = Ok (st, rs) ->
  rel1 e False st (A maps ops) /\ p_maps (s_p st) = maps_after maps ops /\ p_filter (s_p st) = last_filter ops /\ forall n, outermost st n = Ok (hdw (A maps ops) n).
Proof.
  intros P E. destruct (run_any e maps mem ops P) as (st0 & E0 & R). rewrite E in E0. injection E0 as <- _. split; [auto|].
  split; [|split].
  - destruct (rel_lib _ _ _ _ _ _ R) as [_ ->]. apply (run_maps e ex ins_c ops (a0 maps)).
  - destruct (run_filter e maps mem ops P) as (st1 & rs1 & E1 & F). rewrite E in E1. injection E1 as <- _. auto.
  - intros n. apply (rel_outermost e False st (A maps ops) n R).
Qed.

Lemma run_snoc maps mem l o st rs : run e (init_state maps mem) (l ++ [o]) = Ok (st, rs) ->
  exists st0 rs0 r, run e (init_state maps mem) l = Ok (st0, rs0) /\ step e st0 o = Ok (st, r).
Proof.
  rewrite run_app. destruct (run e (init_state maps mem) l) as [[st0 rs0]|] eqn:E; [|discriminate]. cbn [bind]. rewrite run_one.
  destruct (step e st0 o) as [[st1 x]|] eqn:Es; [|discriminate]. cbn [bind]. intros H. injection H as <- _. eauto 6.
Qed.

Lemma single_of maps l o : main_alone l o -> single (A maps l) o.
Proof.
  intros T. destruct o as [ubs t| | | | | |]; cbn; auto. unfold plain. cbn in T.
  destruct (in_dec (list_eq_dec Z.eq_dec) n_main (map ub_name ubs)) as [Hi|Hn].
  - destruct (T Hi) as [H|[u ->]].
    + left. right. apply main_flag_iff. auto.
    + destruct (a_main (A maps l)) eqn:E; [left; auto|]. right. split; [auto|]. exists u. split; [auto|]. cbn in Hi. tauto.
  - left. left. intros u Hu E. apply Hn. rewrite <- E. apply in_map. auto.
Qed.

Lemma hist_good maps mem ops st rs : process_ok e maps ops -> calm maps ops -> run e (init_state maps mem) ops = Ok (st, rs) ->
  good (seen maps ops) (Z.of_nat (wraps ops)) st (A maps ops).
Proof.
  revert st rs. induction ops as [|o l IH] using rev_ind; intros st rs P T E.
  - left. cbn in E. injection E as <- _. constructor; cbn; auto. eapply process_libs; eauto.
  - destruct (run_snoc _ _ _ _ _ _ E) as (st0 & rs0 & r & E0 & Es). pose proof (process_app _ _ _ _ P) as P0. pose proof (calm_app _ _ _ T) as T0.
    specialize (IH st0 rs0 P0 T0 E0). destruct (reach maps mem l st0 rs0 P0 E0) as (R0 & M0 & F0 & O0). rewrite A_snoc.
    assert (Hseen : op_libs o = [] -> seen maps (l ++ [o]) = seen maps l) by (intros H; rewrite seen_app; cbn; rewrite H, app_nil_r; auto).
    assert (Hin : forall m, In m (p_maps (s_p st0)) -> In m (seen maps l)) by (rewrite M0; apply maps_seen).
    assert (Hnd : NoDup (map key_of (p_maps (s_p st0)))) by (rewrite M0; apply (calm_now _ _ T0)).
    assert (SF : slots_fun rl (p_maps (s_p st0))) by (rewrite M0; apply (cm_slots _ _ T l [o] eq_refl)).
    assert (M1 : p_maps (s_p st) = maps_after maps (l ++ [o])) by (destruct (reach _ _ _ _ _ P E) as (_ & H & _); exact H).
    assert (Hin1 : forall m, In m (p_maps (s_p st)) -> In m (seen maps (l ++ [o]))) by (rewrite M1; apply maps_seen).
    assert (Hnd1 : NoDup (map key_of (p_maps (s_p st)))) by (rewrite M1; apply (calm_now _ _ T)).
    assert (SF1 : slots_fun rl (p_maps (s_p st))) by (rewrite M1; apply (cm_slots _ _ T (l ++ [o]) []); rewrite app_nil_r; auto).
    assert (Hw : Z.of_nat (wraps (l ++ [o])) = Z.of_nat (wraps l) + if is_wrap o then 1 else 0) by (rewrite wraps_app; destruct o; cbn; lia).
    destruct (is_api o) eqn:Hapi.
    + assert (Hl0 : op_libs o = []) by (destruct o; try discriminate; reflexivity). rewrite (Hseen Hl0), Hw.
      destruct (api_good (seen maps l) (cm_libs _ _ T0) (seen_ok _ _ P0) st0 (A maps l) o _ Hapi IH) as (st' & r' & E' & G' & _); auto.
      * lia.
      * apply (cm_gen _ _ T0).
      * rewrite Es in E'. injection E' as <- _. exact G'.
    + assert (Hw0 : is_wrap o = false) by (destruct o; auto; discriminate). rewrite Hw0, Z.add_0_r in Hw. rewrite Hw.
      destruct (step_any e maps mem l o st0 rs0 P E0) as (_ & st' & E1 & R1 & _). rewrite Es in E1. injection E1 as <- ->.
      destruct o as [| | |fl|libs mm| |keep mm]; try discriminate; cbn [step] in Es.
      * rewrite (Hseen eq_refl). injection Es as <-. destruct IH as [IP|(ch & f & S & Y & G)].
        -- left. cbn [SpecCore.astep fst]. destruct IP; constructor; auto.
        -- right. exists ch, f. cbn [SpecCore.astep fst]. split; [|split; [destruct Y; constructor; auto|auto]]. constructor; cbn; try apply S; auto.
      * injection Es as <-. destruct IH as [IP|(ch & f & S & Y & G)]; cbn [SpecCore.astep fst] in *.
        -- left. destruct R1 as [H|[ch' H]]; [exact H|]. pose proof (sr_ainit _ _ _ _ _ _ _ _ H) as H'. cbn in H'. rewrite (pr_ai _ _ _ _ _ IP) in H'. discriminate.
        -- right. exists ch, f. split; [|split; [|exact G]].
           ++ apply srel_maps; [auto|cbn; rewrite (sr_maps _ _ _ _ _ _ _ _ S); auto|].
              intros m Hm. apply (seen_ok _ _ P). rewrite seen_app. cbn. rewrite app_nil_r. apply in_or_app. apply in_app_or in Hm. destruct Hm as [Hm|Hm]; [left|auto].
              apply Hin. rewrite (sr_maps _ _ _ _ _ _ _ _ S). auto.
           ++ constructor; auto; [|apply (lg_gen _ _ _ _ Y)]. eapply linv_mono; [|apply (lg_l _ _ _ _ Y)]. intros m. apply seen_mono.
      * rewrite (Hseen eq_refl). assert (Es' : step e st0 OFinish = Ok (st, snd (astep (A maps l) OFinish))) by exact Es.
        destruct (finish_step (seen maps l) (cm_libs _ _ T0) (seen_ok _ _ P0) st0 (A maps l) _ IH) as (st' & E' & G' & _). rewrite Es' in E'. injection E' as <-. exact G'.
      * injection Es as <-. destruct IH as [IP|(ch & f & S & Y & G)]; cbn [SpecCore.astep fst] in *.
        -- left. destruct R1 as [H|[ch' H]]; [exact H|]. pose proof (sr_ainit _ _ _ _ _ _ _ _ H) as H'. cbn in H'. rewrite (pr_ai _ _ _ _ _ IP) in H'. discriminate.
        -- right. exists ch, f. split; [|split; [|exact G]].
           ++ apply srel_maps; [auto|cbn; rewrite (sr_maps _ _ _ _ _ _ _ _ S); auto|].
              intros m Hm. apply filter_In in Hm. apply (seen_ok _ _ P0). apply Hin. rewrite (sr_maps _ _ _ _ _ _ _ _ S). tauto.
           ++ constructor; auto; [|apply (lg_gen _ _ _ _ Y)]. eapply linv_mono; [|apply (lg_l _ _ _ _ Y)]. intros m. apply seen_mono.
Qed.

Lemma outer_hdw maps mem ops st rs n w : process_ok e maps ops -> run e (init_state maps mem) ops = Ok (st, rs) -> outermost st n = Ok (Some w) <-> hdw (A maps ops) n = Some w.
Proof. intros P E. destruct (reach _ _ _ _ _ P E) as (_ & _ & _ & H). rewrite H. split; congruence. Qed.

(** what an API call does to the slots, in any calm history *)
Lemma api_step maps mem ops o st rs : is_api o = true -> main_alone ops o -> process_ok e maps (ops ++ [o]) -> calm maps (ops ++ [o]) -> run e (init_state maps mem) ops = Ok (st, rs) ->
  exists st' r, step e st o = Ok (st', r) /\ moved st (A maps ops) st' (A maps (ops ++ [o])) /\
    (s_init st = true -> is_wrap o = false -> s_l st' = s_l st /\ s_p st' = s_p st).
Proof.
  intros Hapi Hone P T E. pose proof (process_app _ _ _ _ P) as P0. pose proof (calm_app _ _ _ T) as T0. pose proof (hist_good _ _ _ _ _ P0 T0 E) as G.
  destruct (reach _ _ _ _ _ P0 E) as (R0 & M0 & F0 & O0).
  destruct (api_good (seen maps ops) (cm_libs _ _ T0) (seen_ok _ _ P0) st (A maps ops) o _ Hapi G) as (st' & r' & E' & G' & M' & S').
  - lia.
  - apply (cm_gen _ _ T0).
  - rewrite M0. apply maps_seen.
  - rewrite M0. apply (calm_now _ _ T0).
  - rewrite M0. apply (cm_slots _ _ T ops [o] eq_refl).
  - exists st', r'. rewrite A_snoc. pose proof (M' (single_of maps ops o Hone)). auto.
Qed.

(** what the end of a dlopen does *)
Lemma finish_hist maps mem ops st rs : process_ok e maps ops -> calm maps ops -> run e (init_state maps mem) ops = Ok (st, rs) ->
  exists st', step e st OFinish = Ok (st', RNone) /\
    (forall n, outermost st' n = outermost st n) /\
    forall m n x w, accepted (p_filter (s_p st)) (p_maps (s_p st)) m -> slot rl m n x -> outermost st n = Ok (Some w) ->
      ~ current st m \/ p_mem (s_p st) x = w -> p_mem (s_p st') x = w.
Proof.
  intros P T E. pose proof (hist_good _ _ _ _ _ P T E) as G. destruct (reach _ _ _ _ _ P E) as (R0 & M0 & F0 & O0).
  destruct (finish_step (seen maps ops) (cm_libs _ _ T) (seen_ok _ _ P) st (A maps ops) _ G) as (st' & E' & G' & PM & PF & U).
  exists st'. split; [exact E'|]. split.
  - intros n. assert (P' : process_ok e maps (ops ++ [OFinish])) by (apply process_add; auto).
    assert (E2 : exists rs', run e (init_state maps mem) (ops ++ [OFinish]) = Ok (st', rs')) by (rewrite run_app, E; cbn [bind]; rewrite run_one, E'; cbn [bind]; eauto).
    destruct E2 as (rs' & E2). destruct (reach _ _ _ _ _ P' E2) as (_ & _ & _ & O1). rewrite O1, O0, A_snoc. cbn [SpecCore.astep fst]. destruct (a_init (A maps ops)); reflexivity.
  - intros m n x w Ha Hs Hw. apply (U m n x w Ha Hs). rewrite O0 in Hw. congruence.
Qed.

(** libraries that have not been seen before are not up to date *)
Lemma zero_lookup (k : lkey) : exists f, lookup_hashtable (zero_table : htable lkey nat) k = Fault f.
Proof. unfold lookup_hashtable. cbn. eexists. reflexivity. Qed.

Lemma unseen maps mem ops st rs m : process_ok e maps ops -> calm maps ops -> run e (init_state maps mem) ops = Ok (st, rs) ->
  (forall m', In m' (seen maps ops) -> lhash m' <> lhash m) -> lib_ok e ex rl m -> ~ current st m.
Proof.
  intros P T E Hm HLm. destruct (hist_good _ _ _ _ _ P T E) as [IP|(ch & f & S & Y & G)].
  - intros (i & lb & H & _). unfold get_library in H. rewrite (pr_l _ _ _ _ _ IP) in H. cbn [l_table] in H. destruct (zero_lookup (key_of m)) as [x Hx]. congruence.
  - set (all := seen maps ops ++ [m]).
    assert (ND : apart all).
    { intros x y Hx Hy Exy. apply in_app_or in Hx. apply in_app_or in Hy. destruct Hx as [Hx|[<-|[]]], Hy as [Hy|[<-|[]]]; auto.
      - apply (cm_libs _ _ T); auto.
      - exfalso. exact (Hm x Hx Exy).
      - exfalso. exact (Hm y Hy (eq_sym Exy)). }
    assert (Y' : lgood all st f).
    { destruct Y as [Y1 Y2 Y3 Y4 Y5]. constructor; auto; [|intros; apply in_or_app; auto]. eapply linv_mono; [|exact Y1]. intros; apply in_or_app; auto. }
    intros H. apply (current_gen all ND st f m Y') in H; [|apply in_or_app; right; left; auto|lia].
    unfold genof in H. destruct (f (key_of m)) as [i|] eqn:Ef; [|lia]. apply (linv_dom _ _ _ _ _ (lg_l _ _ _ _ Y)) in Ef.
    unfold lkeys in Ef. apply in_map_iff in Ef. destruct Ef as (m' & H1 & H2). apply (Hm m' H2). cbn beta. rewrite H1. auto.
Qed.

(** a library keeps its own record *)
Lemma own_record maps mem ops st rs : process_ok e maps ops -> calm maps ops -> run e (init_state maps mem) ops = Ok (st, rs) -> s_init st = true ->
  (forall m, In m (seen maps ops) -> exists r, get_library (s_l st) m = Ok r /\ forall i, r = Some i -> exists lb, nth_error (l_heap (s_l st)) i = Some lb /\ lb_map lb = lm_ptr m) /\
  (forall m m' i, In m (seen maps ops) -> In m' (seen maps ops) -> get_library (s_l st) m = Ok (Some i) -> get_library (s_l st) m' = Ok (Some i) -> key_of m = key_of m').
Proof.
  intros P T E Hi. destruct (hist_good _ _ _ _ _ P T E) as [IP|(ch & f & S & Y & G)]; [rewrite (pr_i _ _ _ _ _ IP) in Hi; discriminate|].
  pose proof (lg_l _ _ _ _ Y) as L.
  assert (HK : forall m, In m (seen maps ops) -> get_library (s_l st) m = Ok (f (key_of m))).
  { intros m Hm. apply (kmap_lookup _ _ _ (lcmp_ok _ (cm_libs _ _ T)) _ lkey_eqb_ok _ _ _ (li_map _ _ _ L) (lkeys_of _ m Hm)). }
  split.
  - intros m Hm. exists (f (key_of m)). split; [auto|]. intros i H. destruct (li_rec _ _ _ L _ _ H) as (lb & A & B). eauto.
  - intros m m' i Hm Hm' H H'. rewrite HK in H, H' by auto. injection H as H. injection H' as H'.
    eapply (li_inj _ _ _ L); eauto.
Qed.

(** *** everything stays redirected *)
Lemma existsb_api_app l1 l2 : existsb is_api (l1 ++ l2) = existsb is_api l1 || existsb is_api l2.
Proof. apply existsb_app. Qed.
Lemma pending_snoc l o : pending l -> o <> OFinish -> pending (l ++ [o]).
Proof.
  intros (l1 & libs & mm & l2 & -> & H & Hn) Ho. exists l1, libs, mm, (l2 ++ [o]). rewrite <- app_assoc. split; [reflexivity|]. split; [auto|].
  intros Hi. apply in_app_or in Hi. destruct Hi as [Hi|[Hi|[]]]; auto.
Qed.

Lemma orderly_app maps mem l1 l2 : orderly e maps mem (l1 ++ l2) -> orderly e maps mem l1.
Proof.
  intros [A B C D F G]. constructor.
  - eapply tidy_app; eauto.
  - intros k1 o k2 m ->. apply (B k1 o (k2 ++ l2) m). rewrite <- app_assoc. auto.
  - intros k1 libs m' k2 st rs m n x ->. apply (C k1 libs m' (k2 ++ l2) st rs m n x). rewrite <- app_assoc. auto.
  - intros k1 libs m' k2 st rs m n x ->. apply (D k1 libs m' (k2 ++ l2) st rs m n x). rewrite <- app_assoc. auto.
  - intros k1 ubs t k2 ->. apply (F k1 ubs t (k2 ++ l2)). rewrite <- app_assoc. auto.
  - intros k1 o k2 ->. apply (G k1 o (k2 ++ l2)). rewrite <- app_assoc. auto.
Qed.

Lemma reached_init maps mem ops st rs : process_ok e maps ops -> run e (init_state maps mem) ops = Ok (st, rs) -> existsb is_api ops = s_init st.
Proof.
  revert st rs. induction ops as [|o l IH] using rev_ind; intros st rs P E.
  - cbn in E. injection E as <- _. reflexivity.
  - destruct (run_snoc _ _ _ _ _ _ E) as (st0 & rs0 & r & E0 & Es). specialize (IH _ _ (process_app _ _ _ _ P) E0). rewrite existsb_api_app, IH.
    destruct (reach _ _ _ _ _ P E) as (R1 & _). destruct (reach _ _ _ _ _ (process_app _ _ _ _ P) E0) as (R0 & _). rewrite A_snoc in R1.
    assert (H : forall st a, rel1 e False st a -> s_init st = a_init a) by (intros s a [Q|[ch S]]; [rewrite (pr_i _ _ _ _ _ Q), (pr_ai _ _ _ _ _ Q)|rewrite (sr_init _ _ _ _ _ _ _ _ S), (sr_ainit _ _ _ _ _ _ _ _ S)]; auto).
    rewrite (H _ _ R1), (H _ _ R0).
    assert (HI : forall a, a_init (ainit a) = true) by (intros a; unfold SpecCore.ainit; destruct (a_init a) eqn:Ei; [auto|]; match goal with |- context [SpecCore.abinds _ _ ?x ?t ?u] => destruct (frame_abinds ex ins_c t u x) as (-> & _) end; reflexivity).
    destruct o as [ubs t|t v|t|f|libs mm| |keep mm]; cbn [is_api existsb orb SpecCore.astep fst]; rewrite ?orb_false_r, ?orb_true_r; auto.
    + unfold SpecCore.awrap. symmetry.
      assert (HU : forall t ubs a, a_init a = true -> a_init (fst (abinds_user ins_c ex e a t ubs)) = true).
      { clear. intros t. induction ubs as [|u r IH]; intros a Ha; cbn [SpecCore.abinds_user]; [auto|].
        destruct (frame_amain e ex ins_c a (ub_name u)) as (H1 & _). destruct (frame_abind ex ins_c (amain ins_c ex e a (ub_name u)) t u) as (H2 & _).
        destruct (abind ins_c ex (amain ins_c ex e a (ub_name u)) t u) as [a1 f1]. cbn [fst] in *. specialize (IH a1). destruct (abinds_user ins_c ex e a1 t r). cbn in *. apply IH. congruence. }
      match goal with |- context [SpecCore.abinds_user _ _ _ ?x ?t ?u] => specialize (HU t u x); destruct (SpecCore.abinds_user ins_c ex e x t u) end. cbn [fst] in *. apply HU. cbn. apply HI.
    + symmetry. cbn [a_init]. apply HI.
    + destruct (a_init (A maps l)) eqn:Ei; cbn; auto.
Qed.

Lemma no_wraps_before maps mem ops st rs n w : process_ok e maps ops -> run e (init_state maps mem) ops = Ok (st, rs) -> s_init st = false -> hdw (A maps ops) n <> Some w.
Proof.
  intros P E H. destruct (reach _ _ _ _ _ P E) as ([Q|[ch S]] & _).
  - unfold hdw. rewrite (pr_as _ _ _ _ _ Q). discriminate.
  - rewrite (sr_init _ _ _ _ _ _ _ _ S) in H. discriminate.
Qed.

Lemma current_same st st' m : s_l st' = s_l st -> current st' m <-> current st m.
Proof. unfold current. intros ->. tauto. Qed.

Lemma sync_hist maps mem ops st rs : process_ok e maps ops -> orderly e maps mem ops -> run e (init_state maps mem) ops = Ok (st, rs) ->
  forall m n x w, accepted (last_filter ops) (maps_after maps ops) m -> n <> n_main -> slot rl m n x -> hdw (A maps ops) n = Some w ->
    p_mem (s_p st) x = w \/ (pending ops /\ ~ current st m).
Proof.
  revert st rs. induction ops as [|o l IH] using rev_ind; intros st rs P OD E m n x w Ha D Hs Hw.
  { cbn in Hw. discriminate. }
  destruct (run_snoc _ _ _ _ _ _ E) as (st0 & rs0 & r & E0 & Es). pose proof (process_app _ _ _ _ P) as P0. pose proof (orderly_app _ _ _ _ OD) as OD0.
  specialize (IH st0 rs0 P0 OD0 E0). destruct (reach _ _ _ _ _ P0 E0) as (R0 & M0 & F0 & O0). pose proof (reached_init _ _ _ _ _ P0 E0) as HI0.
  destruct (s_init st0) eqn:Hi.
  2:{ (* first API call *)
    destruct (is_api o) eqn:Hapi.
    - destruct (api_step maps mem l o st0 rs0 Hapi (od_main _ _ _ _ OD l o [] eq_refl) P (tidy_calm _ _ (od_tidy _ _ _ _ OD)) E0) as (st' & r' & E' & (_ & _ & M) & _). rewrite Es in E'. injection E' as <- _.
      assert (Hf : last_filter (l ++ [o]) = last_filter l) by (unfold last_filter; rewrite fold_left_app; destruct o; try discriminate; reflexivity).
      assert (Hma : maps_after maps (l ++ [o]) = maps_after maps l) by (rewrite maps_after_app; destruct o; try discriminate; reflexivity).
      rewrite Hf, Hma in Ha. rewrite F0, M0 in M. destruct (M m n x w Ha D Hs Hw) as [H|[_ H]]; [auto|]. exfalso. eapply no_wraps_before; eauto.
    - exfalso. assert (Hi1 : s_init st = false) by (rewrite <- (reached_init _ _ _ _ _ P E), existsb_api_app, HI0; cbn; rewrite Hapi; reflexivity).
      eapply (no_wraps_before maps mem (l ++ [o])); eauto. }
  assert (Hold : In m (maps_after maps l) -> accepted (last_filter l) (maps_after maps l) m) by (intros H; eapply (od_filter _ _ _ _ OD l o []); eauto).
  pose proof (A_snoc maps l o) as HA.
  destruct o as [ubs t|t v|t|fl|libs mm| |keep mm].
  - destruct (api_step maps mem l (OWrap ubs t) st0 rs0 eq_refl (od_main _ _ _ _ OD l (OWrap ubs t) [] eq_refl) P (tidy_calm _ _ (od_tidy _ _ _ _ OD)) E0) as (st' & r' & E' & (_ & _ & M) & _). rewrite Es in E'. injection E' as <- _.
    assert (Ha0 : accepted (last_filter l) (maps_after maps l) m) by (apply Hold; rewrite maps_after_app in Ha; exact (accepted_in _ _ _ Ha)).
    rewrite F0, M0 in M. destruct (M m n x w Ha0 D Hs Hw) as [H|[H H']]; [auto|]. destruct (IH m n x w Ha0 D Hs H') as [H2|[H2 _]]; [left; congruence|].
    exfalso. exact (od_wrap _ _ _ _ OD l ubs t [] eq_refl H2).
  - destruct (api_step maps mem l (OSetPriority t v) st0 rs0 eq_refl (od_main _ _ _ _ OD l (OSetPriority t v) [] eq_refl) P (tidy_calm _ _ (od_tidy _ _ _ _ OD)) E0) as (st' & r' & E' & (_ & _ & M) & HS). rewrite Es in E'. injection E' as <- _.
    destruct (HS Hi eq_refl) as [HSl HSp].
    assert (Ha0 : accepted (last_filter l) (maps_after maps l) m) by (apply Hold; rewrite maps_after_app in Ha; exact (accepted_in _ _ _ Ha)).
    rewrite F0, M0 in M. destruct (M m n x w Ha0 D Hs Hw) as [H|[H H']]; [auto|]. destruct (IH m n x w Ha0 D Hs H') as [H2|[H2 H3]]; [left; congruence|].
    right. split; [apply pending_snoc; [auto|discriminate]|]. intros H4. apply H3. apply (current_same _ _ _ HSl). auto.
  - destruct (api_step maps mem l (OGetPriority t) st0 rs0 eq_refl (od_main _ _ _ _ OD l (OGetPriority t) [] eq_refl) P (tidy_calm _ _ (od_tidy _ _ _ _ OD)) E0) as (st' & r' & E' & (_ & _ & M) & HS). rewrite Es in E'. injection E' as <- _.
    destruct (HS Hi eq_refl) as [HSl HSp].
    assert (Ha0 : accepted (last_filter l) (maps_after maps l) m) by (apply Hold; rewrite maps_after_app in Ha; exact (accepted_in _ _ _ Ha)).
    rewrite F0, M0 in M. destruct (M m n x w Ha0 D Hs Hw) as [H|[H H']]; [auto|]. destruct (IH m n x w Ha0 D Hs H') as [H2|[H2 H3]]; [left; congruence|].
    right. split; [apply pending_snoc; [auto|discriminate]|]. intros H4. apply H3. apply (current_same _ _ _ HSl). auto.
  - rewrite HA in Hw. cbn [SpecCore.astep fst] in Hw. cbn [step] in Es. injection Es as <- _.
    assert (Ha0 : accepted (last_filter l) (maps_after maps l) m) by (apply Hold; rewrite maps_after_app in Ha; exact (accepted_in _ _ _ Ha)).
    destruct (IH m n x w Ha0 D Hs Hw) as [H|[H H']]; [left; exact H|right; split; [apply pending_snoc; [auto|discriminate]|exact H']].
  - rewrite HA in Hw. cbn [SpecCore.astep fst] in Hw. change (hdw (A maps l) n = Some w) in Hw. cbn [step] in Es.
    assert (El : s_l st = s_l st0) by (injection Es as <- _; reflexivity).
    assert (Em : p_mem (s_p st) = mm) by (injection Es as <- _; reflexivity).
    destruct (in_dec Z.eq_dec (lhash m) (map lhash (seen maps l))) as [Hin|Hnew].
    + assert (Hml : In m (maps_after maps l)).
      { rewrite maps_after_app in Ha. cbn in Ha. apply accepted_in in Ha. apply in_app_or in Ha. destruct Ha as [H|H]; [auto|]. exfalso.
        pose proof (td_libs _ _ (od_tidy _ _ _ _ OD)) as ND. rewrite seen_app in ND. cbn in ND. rewrite app_nil_r in ND. apply in_map_iff in Hin. destruct Hin as (m' & H1 & H2).
        exact (NoDup_map_inj lhash _ _ m' m ND H2 H H1). }
      pose proof (Hold Hml) as Ha0. destruct (IH m n x w Ha0 D Hs Hw) as [H|[H H']].
      * left. rewrite Em. rewrite (od_load _ _ _ _ OD l libs mm [] st0 rs0 m n x eq_refl E0 Hml Hs). auto.
      * right. split; [apply pending_snoc; [auto|discriminate]|]. intros Hc. apply H'. apply (current_same _ _ m El). auto.
    + right. split.
      * exists l, libs, mm, []. split; [auto|]. split; [auto|]. auto.
      * intros Hc. apply (current_same _ _ m El) in Hc. revert Hc. eapply (unseen maps mem l st0 rs0); eauto; [apply tidy_calm, (od_tidy _ _ _ _ OD0)| |].
        -- intros m' Hm' He. apply Hnew. rewrite <- He. apply (in_map lhash). auto.
        -- apply (seen_ok _ _ P). apply maps_seen. exact (accepted_in _ _ _ Ha).
  - destruct (finish_hist maps mem l st0 rs0 P0 (tidy_calm _ _ (od_tidy _ _ _ _ OD0)) E0) as (st' & E' & O1 & U). rewrite Es in E'. injection E' as <- _.
    assert (Ha0 : accepted (last_filter l) (maps_after maps l) m) by (apply Hold; rewrite maps_after_app in Ha; exact (accepted_in _ _ _ Ha)).
    rewrite HA in Hw. cbn [SpecCore.astep fst] in Hw.
    assert (Hw0 : hdw (A maps l) n = Some w) by (destruct (a_init (A maps l)); exact Hw).
    left. rewrite F0, M0 in U. apply (U m n x w Ha0 Hs); [rewrite O0; congruence|]. destruct (IH m n x w Ha0 D Hs Hw0) as [H|[_ H]]; auto.
  - rewrite HA in Hw. cbn [SpecCore.astep fst] in Hw. change (hdw (A maps l) n = Some w) in Hw. cbn [step] in Es.
    assert (El : s_l st = s_l st0) by (injection Es as <- _; reflexivity).
    assert (Em : p_mem (s_p st) = mm) by (injection Es as <- _; reflexivity).
    assert (Hml : In m (maps_after maps l) /\ keep m = true).
    { rewrite maps_after_app in Ha. cbn in Ha. apply accepted_in in Ha. apply filter_In in Ha. auto. }
    pose proof (Hold (proj1 Hml)) as Ha0. destruct (IH m n x w Ha0 D Hs Hw) as [H|[H H']].
    + left. rewrite Em. rewrite (od_unload _ _ _ _ OD l keep mm [] st0 rs0 m n x eq_refl E0 (proj1 Hml) (proj2 Hml) Hs). auto.
    + right. split; [apply pending_snoc; [auto|discriminate]|]. intros Hc. apply H'. apply (current_same _ _ m El). auto.
Qed.

(** *** statements about observations *)
Lemma api_redirects maps mem ops o st rs : is_api o = true -> main_alone ops o -> process_ok e maps (ops ++ [o]) -> calm maps (ops ++ [o]) -> run e (init_state maps mem) ops = Ok (st, rs) ->
  exists st' r, step e st o = Ok (st', r) /\
    forall m n x w, accepted (p_filter (s_p st)) (p_maps (s_p st)) m -> n <> n_main -> slot rl m n x -> outermost st' n = Ok (Some w) ->
      p_mem (s_p st') x = w \/ (p_mem (s_p st') x = p_mem (s_p st) x /\ outermost st n = Ok (Some w)).
Proof.
  intros Ho Ho1 P T E. destruct (api_step maps mem ops o st rs Ho Ho1 P T E) as (st' & r & E' & (_ & _ & M) & _). exists st', r. split; [auto|].
  intros m n x w Ha D Hs Hw.
  assert (E2 : exists rs', run e (init_state maps mem) (ops ++ [o]) = Ok (st', rs')) by (rewrite run_app, E; cbn [bind]; rewrite run_one, E'; cbn [bind]; eauto).
  destruct E2 as (rs' & E2). apply (outer_hdw _ _ _ _ _ n w P E2) in Hw. rewrite (outer_hdw _ _ _ _ _ n w (process_app _ _ _ _ P) E). eauto.
Qed.

Lemma all_redirected maps mem ops st rs : process_ok e maps ops -> orderly e maps mem ops -> run e (init_state maps mem) ops = Ok (st, rs) ->
  forall m, accepted (last_filter ops) (maps_after maps ops) m -> ~ pending ops \/ current st m -> redirected st m.
Proof.
  intros P OD E m Ha Hor n x w D Hs Hw. apply (outer_hdw _ _ _ _ _ n w P E) in Hw.
  destruct (sync_hist maps mem ops st rs P OD E m n x w Ha D Hs Hw) as [H|[H H']]; [auto|]. destruct Hor; contradiction.
Qed.

Lemma all_redirected_stack maps mem ops st rs m n x y s : process_ok e maps ops -> fresh e ops -> orderly e maps mem ops -> run e (init_state maps mem) ops = Ok (st, rs) ->
  ~ pending ops -> accepted (last_filter ops) (maps_after maps ops) m -> n <> n_main -> slot rl m n x -> stack e maps ops n = y :: s -> p_mem (s_p st) x = en_wrapper y.
Proof.
  intros P F OD E Hp Ha D Hs Hy. apply (all_redirected maps mem ops st rs P OD E m Ha (or_introl Hp) n x _ D Hs).
  apply (outer_hdw _ _ _ _ _ n _ P E). unfold stack in Hy. rewrite (history_agree e maps ops (po_env _ _ _ P) F) in Hy. unfold hdw. rewrite Hy. reflexivity.
Qed.

Lemma quiet_step maps mem ops o st rs : quiet o = true -> existsb is_api ops = true -> process_ok e maps (ops ++ [o]) -> calm maps (ops ++ [o]) ->
  run e (init_state maps mem) ops = Ok (st, rs) -> exists st' r, step e st o = Ok (st', r) /\ s_l st' = s_l st.
Proof.
  intros Hq Hi P T E. rewrite (reached_init _ _ _ _ _ (process_app _ _ _ _ P) E) in Hi.
  destruct (is_api o) eqn:Ho.
  - destruct (api_step maps mem ops o st rs Ho ltac:(destruct o; try discriminate; exact I) P T E) as (st' & r & E' & _ & H). exists st', r. split; [auto|]. apply H; [auto|]. destruct o; try discriminate; auto.
  - destruct o; try discriminate; eexists _, _; split; reflexivity.
Qed.

Lemma late_library maps mem ops libs mm mid st rs : existsb is_api ops = true -> forallb quiet mid = true ->
  process_ok e maps (ops ++ OLoad libs mm :: mid) -> tidy maps (ops ++ OLoad libs mm :: mid) -> run e (init_state maps mem) (ops ++ OLoad libs mm :: mid) = Ok (st, rs) ->
  forall m, In m libs -> ~ current st m.
Proof.
  intros Hi. revert st rs. induction mid as [|o l IH] using rev_ind; intros st rs Hq P T E m Hm.
  - destruct (run_snoc _ _ _ _ _ _ E) as (st0 & rs0 & r & E0 & Es). cbn [step] in Es.
    assert (El : s_l st = s_l st0) by (injection Es as <- _; reflexivity).
    intros Hc. apply (current_same _ _ m El) in Hc. revert Hc. eapply (unseen maps mem ops st0 rs0); eauto; [eapply process_app; eauto|eapply tidy_calm, tidy_app; eauto| |].
    + pose proof (td_libs _ _ T) as ND. rewrite seen_app in ND. cbn in ND. rewrite app_nil_r in ND. intros m' Hm' He. exact (NoDup_map_inj lhash _ _ m' m ND Hm' Hm He).
    + apply (seen_ok _ _ P). rewrite seen_app. apply in_or_app. right. cbn. rewrite app_nil_r. auto.
  - change (OLoad libs mm :: l ++ [o]) with ((OLoad libs mm :: l) ++ [o]) in P, T, E. rewrite app_assoc in P, T, E.
    rewrite forallb_app in Hq. apply andb_prop in Hq. destruct Hq as [Hq Ho]. cbn in Ho. rewrite andb_true_r in Ho.
    destruct (run_snoc _ _ _ _ _ _ E) as (st0 & rs0 & r & E0 & Es).
    destruct (quiet_step maps mem (ops ++ OLoad libs mm :: l) o st0 rs0 Ho) as (st' & r' & E' & El); auto.
    { rewrite existsb_app, Hi. reflexivity. }
    { apply tidy_calm. auto. }
    rewrite Es in E'. injection E' as <- _. intros Hc. apply (current_same _ _ m El) in Hc. revert Hc. eapply IH; eauto; [eapply process_app; eauto|eapply tidy_app; eauto].
Qed.

Lemma dlopen_redirects maps mem ops libs mm mid st rs : existsb is_api ops = true -> forallb quiet mid = true ->
  process_ok e maps (ops ++ OLoad libs mm :: mid) -> tidy maps (ops ++ OLoad libs mm :: mid) -> run e (init_state maps mem) (ops ++ OLoad libs mm :: mid) = Ok (st, rs) ->
  exists st', step e st OFinish = Ok (st', RNone) /\
    forall m n x w, In m libs -> accepted (p_filter (s_p st)) (p_maps (s_p st)) m -> slot rl m n x -> outermost st' n = Ok (Some w) -> p_mem (s_p st') x = w.
Proof.
  intros Hi Hq P T E. destruct (finish_hist maps mem _ st rs P (tidy_calm _ _ T) E) as (st' & E' & O' & U). exists st'. split; [auto|].
  intros m n x w Hm Ha Hs Hw. rewrite O' in Hw. eapply U; eauto. left. eapply late_library; eauto.
Qed.
End Sync3.
