(** Calls of gotcha_wrap that interleave with other calls. *)
From Verif Require Import Base ListFacts HashModel HashProofs SpecHash HashTrace ElfModel SpecElf ToolModel CoreModel SpecCore SpecRun SpecSync SpecGroup
  ToolProofs CoreMaps CoreRel CoreLib CoreStep CoreWrap CoreLoop CoreMain CoreEnv CoreSpec CoreFacts CoreHist CoreApi CoreSync CoreSync2 CoreSync3 CoreApi3 CoreMicro CoreProt CoreTogether CoreIdle CommuteProofs
  OverlapModel SpecOverlap OverlapProofs OverlapProofs2 MixModel SpecMix.
From Coq Require Import Permutation.

(** *** the abstract machine *)
Lemma use_again m t : aget cstr_eqb m t <> None -> use_tool m t = m.
Proof.
  intros H. unfold use_tool. destruct (existsb (fun p => cstr_eqb (fst p) t) m) eqn:E; [reflexivity|]. exfalso. apply H. unfold aget.
  destruct (find (fun p => cstr_eqb (fst p) t) m) as [p|] eqn:Ef; [|reflexivity]. apply find_some in Ef. destruct Ef as [E1 E2].
  assert (H' : existsb (fun p => cstr_eqb (fst p) t) m = true) by (apply existsb_exists; eauto). congruence.
Qed.
Lemma ause_again a t : aget cstr_eqb (a_tools a) t <> None -> ause a t = a.
Proof. intros H. unfold ause. rewrite (use_again _ _ H). destruct a; reflexivity. Qed.

Section Mix.
Context (e : env) (EO : env_ok e).
Notation ex := (exports e).
Notation srel := (srel e ex relocs).
Notation arun := (arun ins_c ex e).
Notation astep := (astep ins_c ex e).
Notation abinds_user := (abinds_user ins_c ex e).
Notation memf := (memf relocs).
Notation has a x := (aget cstr_eqb (a_tools a) x <> None).

(** what may be stored: a wrapper of a function into a slot of it in one of the libraries [all] *)
Definition may (all : list lmap) (a : astate) (x v : Z) : Prop := exists m n, In m all /\ slot relocs m n x /\ In v (map en_wrapper (a_stack a n)).
Lemma may_sub all a a' : sub_stack a a' -> forall x v, may all a x v -> may all a' x v.
Proof. intros H x v (m & n & A & B & C). exists m, n. split; [exact A|]. split; [exact B|]. apply in_map_iff in C. destruct C as (y & C1 & C2). apply in_map_iff. exists y. auto. Qed.
Lemma memf_may all a p p' : incl (p_maps p) all -> memf a p p' -> wrote (may all a) (p_log p) (p_log p').
Proof. intros H (_ & _ & _ & W). eapply wrote_incl; [|exact W]. intros x v (m & n & A & B & C). exists m, n. split; [apply H; eapply accepted_in; eauto|auto]. Qed.

Lemma step_one a l t : a_init a = true -> has a (tool_of t) ->
  astep a (OWrap l t) = (fst (abinds_user a (tool_of t) l), RCode (if snd (abinds_user a (tool_of t) l) then GOTCHA_FUNCTION_NOT_FOUND else GOTCHA_SUCCESS)).
Proof. intros I H. rewrite step_wrap. unfold SpecCore.awrap. rewrite init_again by exact I. fold (tool_of t). rewrite (ause_again _ _ H). reflexivity. Qed.

(** *** a whole call while bindings are pending *)
Lemma side_spec F st a o ch todo all : srel F st a ch todo -> side o -> lib_op e ex relocs o -> incl (p_maps (s_p st)) all ->
  exists st', step e st o = Ok (st', snd (astep a o)) /\ srel F st' (fst (astep a o)) ch todo /\ bext (s_b st) (s_b st') /\
    sub_stack a (fst (astep a o)) /\ (forall x, has a x -> has (fst (astep a o)) x) /\ wrote (may all a) (p_log (s_p st)) (p_log (s_p st')).
Proof.
  intros S Ho HL Hall. pose proof (sr_init _ _ _ _ _ _ _ _ S) as I. pose proof (sr_ainit _ _ _ _ _ _ _ _ S) as AI. pose proof (sr_maps _ _ _ _ _ _ _ _ S) as RM. pose proof (sr_lib _ _ _ _ _ _ _ _ S) as RL.
  destruct o as [ubs tool|t v|t|f|libs mem| |keep mem]; [destruct Ho|..]; cbn [step SpecCore.astep fst snd].
  - unfold gotcha_set_priority, api_init, gotcha_init. rewrite I. cbn [bind]. rewrite init_again by exact AI.
    pose proof (sr_b _ _ _ _ _ _ _ _ S) as RB. destruct (br_tools _ _ _ _ _ RB) as [l TO].
    destruct (set_priority_spec (e_ps e) _ l t v (eo_ps _ EO) TO) as (ts & l' & E2 & TO2 & Pr & Hb). rewrite E2. cbn [bind].
    assert (HN : forall j x, nth_error (ts_heap (b_tools (s_b st))) j = Some x -> exists x', nth_error (ts_heap ts) j = Some x' /\ t_name x' = t_name x).
    { intros j x Hj. destruct (Hb j x Hj) as (x' & H1 & H2). exists x'. split; [auto|]. unfold tbind in H2. congruence. }
    eexists. split; [reflexivity|]. split; [|split; [|split; [intros ? ?; auto|split; [|apply wrote_refl]]]].
    + constructor; cbn; try apply S.
      * rewrite <- (br_prios _ _ _ _ _ RB), <- Pr. eapply brel_set_tools; [exact RB|exact TO2|exact HN].
      * intros f. destruct (sr_w _ _ _ _ _ _ _ _ S f). constructor; auto.
    + intros i x n E3 E4. split; [|exact E4]. apply (entry_set_tools _ _ HN). auto.
    + intros x H. cbn [a_tools]. rewrite aget_set, aget_use. destruct (cstr_eqb t x); destruct (aget cstr_eqb (a_tools a) x); cbn; try congruence; discriminate.
  - unfold gotcha_get_priority, api_init, gotcha_init. rewrite I. cbn [bind]. rewrite init_again by exact AI.
    pose proof (sr_b _ _ _ _ _ _ _ _ S) as RB. destruct (br_tools _ _ _ _ _ RB) as [l TO].
    rewrite (get_configuration_spec _ l t TO), (br_prios _ _ _ _ _ RB). cbn [bind].
    exists st. split; [destruct (aget cstr_eqb (a_tools a) t); reflexivity|]. split; [exact S|]. split; [apply bext_refl|]. split; [intros ? ?; auto|]. split; [auto|apply wrote_refl].
  - eexists. split; [reflexivity|]. split; [|split; [apply bext_refl|split; [intros ? ?; auto|split; [auto|apply wrote_refl]]]].
    pose proof (srel_maps e ex relocs F st a ch (mkPS (p_maps (s_p st)) (p_mem (s_p st)) (p_log (s_p st)) f) (a_maps a) S RM RL) as H. destruct a; exact H.
  - eexists. split; [reflexivity|]. split; [|split; [apply bext_refl|split; [intros ? ?; auto|split; [auto|apply wrote_refl]]]].
    apply srel_maps; [exact S|cbn; congruence|]. intros m Hm. apply in_app_or in Hm. destruct Hm; auto.
  - rewrite I, AI. destruct (finish_spec e ex relocs F st a ch S) as (st' & E & S' & M & B). rewrite E. cbn [bind]. exists st'.
    split; [reflexivity|]. split; [exact S'|]. split; [exact B|]. split; [intros ? ?; auto|]. split; [auto|]. apply (memf_may all _ _ _ Hall M).
  - eexists. split; [reflexivity|]. split; [|split; [apply bext_refl|split; [intros ? ?; auto|split; [auto|apply wrote_refl]]]].
    apply srel_maps; [exact S|cbn; congruence|]. intros m Hm. apply filter_In in Hm. apply RL. tauto.
Qed.

(** *** the sequence of calls *)
Context (A0 : astate) (F : Prop) (calls : list (list ubind * option cstr)) (log0 : list pevent) (all : list lmap).
Notation R ws := (arun A0 (map snd ws)).
Context (HF : F -> forall (ws : list (nat * op)) l, Permutation (user_binds (map snd ws) ++ l) (flat_map fst calls) ->
  NoDup (map ub_handle l) /\ NoDup (map (fun u => (ub_name u, ub_wrapper u)) l) /\
  (forall u, In u l -> ~ In (ub_handle u) (internal_handles e) /\ ~ In (ub_wrapper u) (internal_wrappers e)) /\
  forall u n x, In u l -> In x (a_stack (fst (R ws)) n) -> en_handle x <> ub_handle u /\ (n = ub_name u -> en_wrapper x <> ub_wrapper u)).
Context (HL : forall m, In m all -> lib_ok e ex relocs m).

Definition xinv (st : state) (a : astate) (before : list act) (ws : list (nat * op)) (i : nat) (c : wcall) : Prop :=
  match wc_at c with
  | AtEnter => made i before = 0%nat /\ existsb failed (results_of i ws (snd (R ws))) = false
  | AtLoop na n b pr => na = Z.of_nat (length (wc_binds c)) /\ (n <= length (wc_binds c))%nat /\ made i before = Datatypes.S (length (wc_binds c) - n) /\ has a (tool_of (wc_tool c)) /\
      (forall k u, nth_error (rem_of c) k = Some u -> entry_of (s_b st) (b + k) = Some (mkE (tool_of (wc_tool c)) (ub_wrapper u) (ub_handle u)) /\
                                                     name_of (s_b st) (b + k) = Some (ub_name u)) /\
      new_ok st a pr /\ 0 <= pr_not_found pr /\ (pr_not_found pr =? 0) = negb (existsb failed (results_of i ws (snd (R ws))))
  | Returned code => (length (wc_binds c) < made i before)%nat /\
      code = if existsb failed (results_of i ws (snd (R ws))) then GOTCHA_FUNCTION_NOT_FOUND else GOTCHA_SUCCESS
  end.
Record minv (st : state) (cs : list wcall) (a : astate) (ch : cstr -> list nat) (before : list act) (ws : list (nat * op)) : Prop := {
  mv_s : srel F st a ch (flat_map pend_of cs);
  mv_run : a = fst (R ws);
  mv_len : length cs = length calls;
  mv_call : forall i c, nth_error cs i = Some c -> nth_error calls i = Some (wc_binds c, wc_tool c) /\ xinv st a before ws i c;
  mv_binds : Permutation (user_binds (map snd ws) ++ flat_map rem_of cs) (flat_map fst calls);
  mv_in : incl (p_maps (s_p st)) all;
  mv_log : wrote (may all a) log0 (p_log (s_p st)) }.

Lemma mr_length (ws : list (nat * op)) : length (snd (R ws)) = length ws.
Proof. rewrite arun_length, map_length. reflexivity. Qed.
Lemma mr_snoc (ws : list (nat * op)) (i : nat) o : R (ws ++ [(i, o)]) = (fst (astep (fst (R ws)) o), snd (R ws) ++ [snd (astep (fst (R ws)) o)]).
Proof. rewrite map_app. cbn [map snd]. rewrite arun_app. rewrite (arun_cons e ex ins_c _ o []). reflexivity. Qed.
Lemma res_other (ws : list (nat * op)) i o j : j <> i -> results_of j (ws ++ [(i, o)]) (snd (R (ws ++ [(i, o)]))) = results_of j ws (snd (R ws)).
Proof. intros D. rewrite mr_snoc. cbn [snd]. rewrite results_snoc by apply mr_length. rewrite (proj2 (Nat.eqb_neq i j)) by auto. apply app_nil_r. Qed.
Lemma res_same (ws : list (nat * op)) i o : results_of i (ws ++ [(i, o)]) (snd (R (ws ++ [(i, o)]))) = results_of i ws (snd (R ws)) ++ [snd (astep (fst (R ws)) o)].
Proof. rewrite mr_snoc. cbn [snd]. rewrite results_snoc by apply mr_length. rewrite Nat.eqb_refl. reflexivity. Qed.
Lemma made_snoc j before x : made j (before ++ [x]) = (made j before + match x with AStep i => if Nat.eqb i j then 1 else 0 | AOp _ => 0 end)%nat.
Proof. unfold made. rewrite filter_app, app_length. cbn [filter]. destruct x as [i|o]; [destruct (Nat.eqb i j)|]; reflexivity. Qed.

Lemma xinv_keep st st' a a' ch todo before before' ws ws' j c : srel F st a ch todo -> bext (s_b st) (s_b st') -> sub_stack a a' -> (forall x, has a x -> has a' x) ->
  made j before' = made j before -> results_of j ws' (snd (R ws')) = results_of j ws (snd (R ws)) -> xinv st a before ws j c -> xinv st' a' before' ws' j c.
Proof.
  intros S B U T E1 E2 C. unfold xinv in *. rewrite E1, E2. destruct (wc_at c) as [|na n b pr|code]; [exact C| |exact C].
  destruct C as (C1 & C2 & C3 & C4 & C5 & C6 & C7 & C8). spl; auto.
  - intros k u Hu. destruct (C5 k u Hu) as [X Y]. apply (B _ _ _ X Y).
  - unfold new_ok in *. destruct (pr_new pr) as [t|]; [|exact Logic.I]. eapply tbl_ok_mono; [exact C6| |].
    + intros k ib Hk. eapply bext_user; [apply (sr_b _ _ _ _ _ _ _ _ S)|exact B|exact Hk].
    + intros m w. apply Gst_sub. exact U.
Qed.
Lemma log_keep l0 a a' l l' : wrote (may all a) l0 l -> wrote (may all a') l l' -> sub_stack a a' -> wrote (may all a') l0 l'.
Proof. intros W1 W2 U. eapply wrote_trans; [eapply wrote_incl; [apply (may_sub all a a' U)|exact W1]|exact W2]. Qed.

Lemma mix_enter st cs a ch before ws i c : minv st cs a ch before ws -> nth_error cs i = Some c -> wc_at c = AtEnter ->
  exists st' c' a' ch', call_step e st c = Ok (st', c') /\ minv st' (upd cs i (fun _ => c')) a' ch' (before ++ [AStep i]) (ws ++ piece calls before (AStep i)).
Proof.
  intros V Hc Hat. destruct V as [VS VR VL VC VB VI VX].
  set (l := wc_binds c) in *. set (t := tool_of (wc_tool c)).
  destruct (flat_upd rem_of cs i c Hc) as (rest & R1 & R2 & R3). destruct (flat_upd pend_of cs i c Hc) as (todo & T1 & T2 & T3).
  assert (Er : rem_of c = l) by (unfold rem_of; rewrite Hat; reflexivity). assert (Ep : pend_of c = []) by (unfold pend_of; rewrite Hat; reflexivity).
  rewrite Er in R1. rewrite Ep in T1. cbn [app] in T1.
  assert (PB : Permutation (user_binds (map snd ws) ++ (l ++ rest)) (flat_map fst calls)).
  { eapply perm_trans; [apply Permutation_app_head, Permutation_sym, R1|exact VB]. }
  destruct (srel_use_gen e ex relocs (eo_ps _ EO) F st a ch todo t l (srel_perm _ _ _ _ _ _ _ _ _ T1 VS)) as (ts & ti & bs & bt & E1 & E2 & E3 & E4 & S1 & B1 & Hent).
  { intros f. destruct (HF f ws (l ++ rest) PB) as (F1 & F2 & F3 & F4). split; [|split].
    - rewrite map_app in F1. apply NoDup_app_remove_r in F1. exact F1.
    - intros k ib u Hk Hu. destruct (wr_cover _ _ _ _ (sr_w _ _ _ _ _ _ _ _ VS f) k) as [Hk'|[n Hn]]; [eapply nth_error_Some_lt; eauto| |].
      + apply in_flat_map in Hk'. destruct Hk' as (d & Hd & Hk'). apply In_nth_error in Hd. destruct Hd as [j Hd]. destruct (VC j d Hd) as [_ C].
        unfold pend_of in Hk'. unfold xinv in C. destruct (wc_at d) as [|na n b pr|] eqn:Ed; try (destruct Hk'). apply in_seq in Hk'.
        destruct C as (_ & C2 & _ & _ & C5 & _). destruct (nth_error (rem_of d) (k - b)) as [v|] eqn:Ev.
        2:{ apply nth_error_None in Ev. unfold rem_of in Ev. rewrite Ed, skipn_length in Ev. lia. }
        destruct (C5 _ _ Ev) as [X Y]. replace (b + (k - b))%nat with k in X, Y by lia. destruct (entry_ib _ _ _ X) as (ib' & Hib & _ & Hh). cbn in Hh.
        assert (ib' = ib) by congruence. subst ib'. rewrite Hh. intros Heq. apply nth_error_In in Ev.
        assert (Hr : In v rest) by (apply (R3 j d v Hd); [intros ->; congruence|exact Ev]).
        apply (NoDup_map_inj ub_handle l rest u v F1 Hu Hr). congruence.
      + destruct (chain_entry _ _ _ _ _ _ _ _ _ _ _ VS Hn Hk) as (x & Hx & ->). cbn. rewrite VR in Hx.
        apply (proj1 (F4 u n x (in_or_app l rest u (or_introl Hu)) Hx)).
    - right. intros u Hu. destruct (F3 u (in_or_app l rest u (or_introl Hu))) as [A B]. unfold internal_handles, internal_wrappers in *. cbn in *. tauto. }
  set (st' := set_b bs (set_l (mkLS (l_table (s_l st)) (l_heap (s_l st)) (l_list (s_l st)) (u32 (l_gen (s_l st) + 1))) st)).
  set (c' := mkWC l (wc_tool c) (AtLoop (Z.of_nat (length l)) (length l) (length (b_ib (s_b st))) (mkPr 0 None))).
  destruct (VC i c Hc) as [Hcall Ci]. unfold xinv in Ci. rewrite Hat in Ci. destruct Ci as [Ci1 Ci2].
  assert (Epc : piece calls before (AStep i) = [(i, OWrap [] (wc_tool c))]) by (unfold piece; rewrite Hcall, Ci1; reflexivity). rewrite Epc.
  pose proof (sr_ainit _ _ _ _ _ _ _ _ VS) as AI.
  assert (Est : astep (fst (R ws)) (OWrap [] (wc_tool c)) = (ause a t, RCode GOTCHA_SUCCESS)).
  { rewrite step_wrap. unfold SpecCore.awrap. rewrite <- VR, init_again by exact AI. reflexivity. }
  exists st', c', (ause a t), ch. split.
  { unfold call_step. rewrite Hat. unfold wrap_enter, gotcha_init. rewrite (sr_init _ _ _ _ _ _ _ _ VS). cbn [bind]. cbv zeta. fold l. fold (tool_of (wc_tool c)). fold t.
    cbn [s_b set_b b_tools set_handles b_handles]. rewrite E1. cbn [bind s_b set_b set_l s_l s_init s_main s_p]. cbn [set_b s_b s_init s_main s_l s_p set_l] in *. rewrite E2. cbn [bind].
    rewrite (deref_Ok _ _ _ E3). cbn [bind]. rewrite E4. reflexivity. }
  assert (Erc : rem_of c' = l). { unfold rem_of, c'. cbn [wc_at wc_binds]. rewrite Nat.sub_diag. reflexivity. }
  assert (Hk : forall x, has a x -> has (ause a t) x) by (intros x; apply has_use).
  constructor.
  - eapply srel_perm; [apply Permutation_sym, T2|]. exact (S1 _).
  - rewrite mr_snoc, Est. reflexivity.
  - rewrite upd_length. exact VL.
  - eapply upd_call; [exact Hc| |].
    + split; [exact Hcall|]. unfold xinv, c'. cbn [wc_at wc_binds wc_tool]. fold c'. rewrite Erc. split; [reflexivity|]. split; [lia|]. split; [rewrite made_snoc, Nat.eqb_refl, Ci1; lia|].
      split; [apply has_same|]. split; [exact Hent|]. split; [exact Logic.I|]. split; [cbn; lia|]. rewrite res_same, existsb_app, Ci2, Est. reflexivity.
    + intros j d Hd D. destruct (VC j d Hd) as [X Y]. split; [exact X|]. apply (xinv_keep st st' a (ause a t) ch (flat_map pend_of cs) before (before ++ [AStep i]) ws (ws ++ [(i, OWrap [] (wc_tool c))]) j d VS B1); auto.
      * intros ? ?; auto.
      * rewrite made_snoc, (proj2 (Nat.eqb_neq i j)) by auto. lia.
      * apply res_other. exact D.
  - eapply perm_trans; [|exact PB]. rewrite map_app, user_binds_app. cbn [map snd user_binds flat_map op_binds]. rewrite !app_nil_r. apply Permutation_app_head. rewrite <- Erc. apply R2.
  - exact VI.
  - exact VX.
Qed.

Lemma mix_loop st cs a ch before ws i c na n b pr : minv st cs a ch before ws -> nth_error cs i = Some c -> wc_at c = AtLoop na (S n) b pr ->
  exists st' c' a' ch', call_step e st c = Ok (st', c') /\ minv st' (upd cs i (fun _ => c')) a' ch' (before ++ [AStep i]) (ws ++ piece calls before (AStep i)).
Proof.
  intros V Hc Hat. destruct V as [VS VR VL VC VB VI VX].
  destruct (VC i c Hc) as [Hcall Ci]. unfold xinv in Ci. rewrite Hat in Ci. destruct Ci as (C1 & C2 & C3 & C4 & C5 & C6 & C7 & C8).
  set (l := wc_binds c) in *. set (t := tool_of (wc_tool c)) in *.
  destruct (flat_upd rem_of cs i c Hc) as (rest & R1 & R2 & R3). destruct (flat_upd pend_of cs i c Hc) as (todo & T1 & T2 & T3).
  destruct (skipn_at l n C2) as (u & K1 & K2).
  assert (Ku : nth_error l (length l - S n) = Some u).
  { rewrite <- (Nat.add_0_r (length l - S n)). rewrite <- (firstn_skipn (length l - S n) l) at 1. rewrite nth_error_app2; rewrite firstn_length_le by lia; [|lia].
    rewrite Nat.add_0_r, Nat.sub_diag, K1. reflexivity. }
  assert (Er : rem_of c = u :: skipn (length l - n) l) by (unfold rem_of; rewrite Hat; exact K1). assert (Ep : pend_of c = b :: seq (S b) n) by (unfold pend_of; rewrite Hat; reflexivity).
  rewrite Er in R1. rewrite Ep in T1.
  assert (PB : Permutation (user_binds (map snd ws) ++ (u :: skipn (length l - n) l ++ rest)) (flat_map fst calls)).
  { eapply perm_trans; [apply Permutation_app_head, Permutation_sym, R1|exact VB]. }
  destruct (wrap_loop_spec e ex relocs (eo_ps _ EO) (wrap_n e 2) F false t na ltac:(subst na; lia) [u] st a ch (seq (S b) n ++ todo) b pr) as (st' & ch' & pr' & EL & S' & P' & Z' & B' & M' & N').
  { eapply srel_perm; [exact T1|exact VS]. }
  { intros [|[|k]] v Hv; try discriminate. injection Hv as <-. apply (C5 0%nat u). rewrite Er. reflexivity. }
  { intros f. destruct (HF f ws _ PB) as (F1 & F2 & F3 & F4). split; [repeat constructor; intros []|]. split.
    - intros v x [<-|[]] Hx. rewrite VR in Hx. apply (proj2 (F4 u _ x (or_introl eq_refl) Hx) eq_refl).
    - right. intros v [<-|[]]. destruct (F3 u (or_introl eq_refl)) as [_ B]. unfold internal_wrappers in B. cbn in *. tauto. }
  { discriminate. }
  { intros v _. apply (main_ok_full e ex relocs EO). }
  { exact C6. } { exact C7. }
  cbn [length wrap_loop] in EL.
  assert (EO1 : wrap_one e (wrap_n e 2) na b (st, pr) = Ok (st', pr')) by (destruct (wrap_one e (wrap_n e 2) na b (st, pr)); exact EL).
  set (c' := mkWC l (wc_tool c) (AtLoop na n (S b) pr')). set (r := abinds_user a t [u]) in *.
  assert (Epc : piece calls before (AStep i) = [(i, OWrap [u] (wc_tool c))]) by (unfold piece; rewrite Hcall, C3; fold l; rewrite Ku; reflexivity). rewrite Epc.
  pose proof (sr_ainit _ _ _ _ _ _ _ _ VS) as AI.
  assert (Est : astep (fst (R ws)) (OWrap [u] (wc_tool c)) = (fst r, RCode (if snd r then GOTCHA_FUNCTION_NOT_FOUND else GOTCHA_SUCCESS))).
  { rewrite <- VR. apply step_one; [exact AI|exact C4]. }
  assert (Sub : sub_stack a (fst r)) by (intros m y Hy; apply abinds_user_sub; exact Hy).
  assert (Hk : forall x, has a x -> has (fst r) x) by (intros x; apply has_user).
  exists st', c', (fst r), ch'. split.
  { unfold call_step. rewrite Hat, EO1. reflexivity. }
  assert (Erc : rem_of c' = skipn (length l - n) l) by reflexivity.
  constructor.
  - eapply srel_perm; [apply Permutation_sym, T2|]. exact S'.
  - rewrite mr_snoc, Est. reflexivity.
  - rewrite upd_length. exact VL.
  - eapply upd_call; [exact Hc| |].
    + split; [exact Hcall|]. unfold xinv, c'. cbn [wc_at wc_binds wc_tool]. fold c'. rewrite Erc. split; [exact C1|]. split; [fold l; lia|]. split; [rewrite made_snoc, Nat.eqb_refl, C3; fold l; lia|].
      split; [apply Hk, C4|]. split; [|split; [exact N'|split; [exact P'|]]].
      * intros k v Hv. destruct (C5 (S k) v) as [X Y]; [rewrite Er; exact Hv|]. rewrite Nat.add_succ_r in X, Y. apply (B' _ _ _ X Y).
      * rewrite Z', C8, res_same, existsb_app, Est. cbn [snd existsb failed].
        destruct (snd r); cbn [negb]; rewrite ?orb_false_r, ?orb_true_r, ?andb_true_r, ?andb_false_r; reflexivity.
    + intros j d Hd D. destruct (VC j d Hd) as [X Y]. split; [exact X|]. apply (xinv_keep st st' a (fst r) ch (flat_map pend_of cs) before (before ++ [AStep i]) ws (ws ++ [(i, OWrap [u] (wc_tool c))]) j d VS B'); auto.
      * rewrite made_snoc, (proj2 (Nat.eqb_neq i j)) by auto. lia.
      * apply res_other. exact D.
  - eapply perm_trans; [|exact PB]. rewrite map_app, user_binds_app, <- app_assoc. apply Permutation_app_head. cbn. constructor. rewrite <- Erc. apply R2.
  - destruct M' as (_ & M2 & _). rewrite M2. exact VI.
  - eapply log_keep; [exact VX|apply (memf_may all (fst r) _ _ VI M')|exact Sub].
Qed.

Lemma mix_leave st cs a ch before ws i c na b pr : minv st cs a ch before ws -> nth_error cs i = Some c -> wc_at c = AtLoop na 0 b pr ->
  exists st' c' a' ch', call_step e st c = Ok (st', c') /\ minv st' (upd cs i (fun _ => c')) a' ch' (before ++ [AStep i]) (ws ++ piece calls before (AStep i)).
Proof.
  intros V Hc Hat. destruct V as [VS VR VL VC VB VI VX].
  destruct (VC i c Hc) as [Hcall Ci]. unfold xinv in Ci. rewrite Hat in Ci. destruct Ci as (C1 & C2 & C3 & C4 & C5 & C6 & C7 & C8).
  destruct (flat_upd rem_of cs i c Hc) as (rest & R1 & R2 & R3). destruct (flat_upd pend_of cs i c Hc) as (todo & T1 & T2 & T3).
  assert (Er : rem_of c = []) by (unfold rem_of; rewrite Hat, Nat.sub_0_r; apply skipn_all). assert (Ep : pend_of c = []) by (unfold pend_of; rewrite Hat; reflexivity).
  rewrite Er in R1. rewrite Ep in T1. cbn [app] in R1, T1. rewrite Nat.sub_0_r in C3.
  assert (Epc : piece calls before (AStep i) = []).
  { unfold piece. rewrite Hcall, C3. rewrite (proj2 (nth_error_None (wc_binds c) (length (wc_binds c)))) by lia. reflexivity. }
  rewrite Epc, app_nil_r.
  set (c' := mkWC (wc_binds c) (wc_tool c) (Returned (if negb (pr_not_found pr =? 0) then GOTCHA_FUNCTION_NOT_FOUND else GOTCHA_SUCCESS))).
  assert (St : exists st', wrap_leave e st pr = Ok (st', wc_at c') /\ srel F st' a ch todo /\ s_b st' = s_b st /\ memf a (s_p st) (s_p st')).
  { unfold wrap_leave. unfold new_ok in C6. pose proof (srel_perm _ _ _ _ _ _ _ _ _ T1 VS) as S1. destruct (pr_new pr) as [nt|]; cbn [bind].
    - unfold update_all_library_gots. rewrite (sr_maps _ _ _ _ _ _ _ _ VS).
      destruct (update_gots_base e ex relocs _ nt _ C6 (a_maps a) (s_l st) (s_p st) (sr_lib _ _ _ _ _ _ _ _ VS) (sr_l _ _ _ _ _ _ _ _ VS))
          as (l3 & p3 & EG & LB & LG & PM & PF & W & U). rewrite EG. cbn [bind].
      eexists. split; [reflexivity|]. split; [|split; [reflexivity|]].
      + constructor; cbn; try apply S1; auto. rewrite PM. apply S1.
      + split; [auto|]. split; [auto|]. split.
        2:{ eapply wrote_incl; [|exact U]. intros x v (pre & m & rst & n & A1 & A2 & A3 & A4). exists m, n. split; [|auto].
            exists pre, rst. split; [|auto]. rewrite (sr_maps _ _ _ _ _ _ _ _ VS). auto. }
        intros x. destruct (W x) as [Hx|(pre & m & rst & n & A1 & A2 & A3 & A4)]; [auto|]. right. exists m, n. cbn [s_p set_p]. split; [|auto].
        exists pre, rst. split; [|auto]. rewrite (sr_maps _ _ _ _ _ _ _ _ VS). auto.
    - exists st. split; [reflexivity|]. split; [exact S1|]. split; [reflexivity|apply memf_refl]. }
  destruct St as (st' & EL & S' & Eb & M'). exists st', c', a, ch. split.
  { unfold call_step. rewrite Hat, EL. reflexivity. }
  constructor.
  - eapply srel_perm; [apply Permutation_sym, T2|]. exact S'.
  - exact VR.
  - rewrite upd_length. exact VL.
  - eapply upd_call; [exact Hc| |].
    + split; [exact Hcall|]. unfold xinv, c'. cbn [wc_at wc_binds wc_tool]. split.
      * rewrite made_snoc, C3. lia.
      * rewrite C8, negb_involutive. reflexivity.
    + intros j d Hd D. destruct (VC j d Hd) as [X Y]. split; [exact X|]. apply (xinv_keep st st' a a ch (flat_map pend_of cs) before (before ++ [AStep i]) ws ws j d VS); auto.
      * rewrite Eb. apply bext_refl.
      * intros ? ?; auto.
      * rewrite made_snoc, (proj2 (Nat.eqb_neq i j)) by auto. lia.
  - eapply perm_trans; [|exact VB]. apply Permutation_app_head. eapply perm_trans; [apply R2|]. apply Permutation_sym. exact R1.
  - destruct M' as (_ & M2 & _). rewrite M2. exact VI.
  - eapply log_keep; [exact VX|apply (memf_may all a _ _ VI M')|intros ? ?; auto].
Qed.

Lemma mix_step st cs a ch before ws i c : minv st cs a ch before ws -> nth_error cs i = Some c ->
  exists st' c' a' ch', call_step e st c = Ok (st', c') /\ minv st' (upd cs i (fun _ => c')) a' ch' (before ++ [AStep i]) (ws ++ piece calls before (AStep i)).
Proof.
  intros V Hc. destruct (wc_at c) as [|na [|n] b pr|code] eqn:Hat; [eapply mix_enter; eauto|eapply mix_leave; eauto|eapply mix_loop; eauto|].
  destruct V as [VS VR VL VC VB VI VX]. destruct (VC i c Hc) as [Hcall Ci]. unfold xinv in Ci. rewrite Hat in Ci. destruct Ci as [C1 C2].
  assert (Epc : piece calls before (AStep i) = []).
  { unfold piece. rewrite Hcall. destruct (made i before) as [|j] eqn:Ej; [lia|]. rewrite (proj2 (nth_error_None (wc_binds c) j)) by lia. reflexivity. }
  rewrite Epc, app_nil_r. exists st, c, a, ch. unfold call_step. rewrite Hat. cbn [bind]. split; [rewrite <- Hat; destruct c; reflexivity|]. rewrite (upd_self _ _ _ Hc).
  constructor; auto. intros j d Hd. destruct (VC j d Hd) as [X Y]. split; [exact X|]. destruct (Nat.eq_dec j i) as [->|D].
  - assert (d = c) by congruence. subst d. unfold xinv. rewrite Hat. split; [rewrite made_snoc; lia|exact C2].
  - apply (xinv_keep st st a a ch (flat_map pend_of cs) before (before ++ [AStep i]) ws ws j d VS); auto; [apply bext_refl|intros ? ?; auto|].
    rewrite made_snoc, (proj2 (Nat.eqb_neq i j)) by auto. lia.
Qed.

Lemma mix_side st cs a ch before ws o : minv st cs a ch before ws -> side o -> incl (op_libs o) all ->
  exists st', step e st o = Ok (st', snd (astep a o)) /\ minv st' cs (fst (astep a o)) ch (before ++ [AOp o]) (ws ++ piece calls before (AOp o)).
Proof.
  intros [VS VR VL VC VB VI VX] Ho Hl. destruct (side_spec F st a o ch (flat_map pend_of cs) all VS Ho) as (st' & E & S' & B & U & T & W); [intros m Hm; apply HL, Hl, Hm|exact VI|].
  exists st'. split; [exact E|]. cbn [piece]. constructor.
  - exact S'.
  - rewrite mr_snoc, <- VR. reflexivity.
  - exact VL.
  - intros j d Hd. destruct (VC j d Hd) as [X Y]. split; [exact X|].
    apply (xinv_keep st st' a (fst (astep a o)) ch (flat_map pend_of cs) before (before ++ [AOp o]) ws (ws ++ [(length calls, o)]) j d VS B U T); [| |exact Y].
    + rewrite made_snoc. lia.
    + apply res_other. intros ->. apply nth_error_Some_lt in Hd. lia.
  - rewrite map_app, user_binds_app. cbn [map snd user_binds flat_map]. rewrite app_nil_r. replace (op_binds o) with (@nil ubind) by (destruct o; [destruct Ho|..]; reflexivity).
    rewrite app_nil_r. exact VB.
  - destruct o as [ubs t|t v|t|f|libs mem| |keep mem]; [destruct Ho|..]; cbn [step] in E.
    + unfold gotcha_set_priority, api_init, gotcha_init in E. rewrite (sr_init _ _ _ _ _ _ _ _ VS) in E. cbn [bind] in E. destruct (set_priority_int _ _ _ _) as [ts|]; [|discriminate E]. cbn [bind] in E. injection E as <-. exact VI.
    + unfold gotcha_get_priority, api_init, gotcha_init in E. rewrite (sr_init _ _ _ _ _ _ _ _ VS) in E. cbn [bind] in E. destruct (get_configuration_value _ _) as [[x y]|]; [|discriminate E]. cbn [bind] in E. injection E as <- _. exact VI.
    + injection E as <-. exact VI.
    + injection E as <-. cbn. intros m Hm. apply in_app_or in Hm. destruct Hm as [Hm|Hm]; [apply VI, Hm|apply Hl, Hm].
    + rewrite (sr_maps _ _ _ _ _ _ _ _ S'). cbn [SpecCore.astep fst]. rewrite (sr_ainit _ _ _ _ _ _ _ _ VS). cbn [aresolve a_maps]. rewrite <- (sr_maps _ _ _ _ _ _ _ _ VS). exact VI.
    + injection E as <-. cbn. intros m Hm. apply filter_In in Hm. apply VI. tauto.
  - eapply log_keep; [exact VX|eapply wrote_incl; [apply (may_sub all _ _ U)|exact W]|exact U].
Qed.

Lemma mix_run : forall acts st cs a ch before ws, minv st cs a ch before ws -> (forall o, In (AOp o) acts -> side o /\ incl (op_libs o) all) ->
  exists st' cs' xs a' ch', mrun e st cs acts = Ok (st', cs', xs) /\ minv st' cs' a' ch' (before ++ acts) (ws ++ linear calls before acts) /\
    results_of (length calls) (ws ++ linear calls before acts) (snd (R (ws ++ linear calls before acts))) = results_of (length calls) ws (snd (R ws)) ++ xs.
Proof.
  induction acts as [|[i|o] r IH]; intros st cs a ch before ws V H; cbn [mrun linear].
  - exists st, cs, [], a, ch. rewrite !app_nil_r. auto.
  - replace (before ++ AStep i :: r) with ((before ++ [AStep i]) ++ r) by (rewrite <- app_assoc; reflexivity). rewrite app_assoc.
    assert (Hr : results_of (length calls) (ws ++ piece calls before (AStep i)) (snd (R (ws ++ piece calls before (AStep i)))) = results_of (length calls) ws (snd (R ws))).
    { unfold piece. destruct (nth_error calls i) as [[l t]|] eqn:Ec; [|rewrite app_nil_r; reflexivity]. apply nth_error_Some_lt in Ec.
      destruct (made i before) as [|j]; [apply res_other; lia|]. destruct (nth_error l j); [apply res_other; lia|rewrite app_nil_r; reflexivity]. }
    rewrite <- Hr. destruct (nth_error cs i) as [c|] eqn:Hc.
    + destruct (mix_step _ _ _ _ _ _ _ _ V Hc) as (st1 & c1 & a1 & ch1 & E & V1). rewrite E. cbn [bind]. apply (IH _ _ _ _ _ _ V1). intros; apply H; right; auto.
    + assert (En : nth_error calls i = None) by (apply nth_error_None; rewrite <- (mv_len _ _ _ _ _ _ V); apply nth_error_None; exact Hc).
      assert (Epc : piece calls before (AStep i) = []) by (unfold piece; rewrite En; reflexivity). rewrite Epc, app_nil_r.
      apply (IH st cs a ch (before ++ [AStep i]) ws); [|intros; apply H; right; auto]. destruct V as [VS VR VL VC VB VI VX]. constructor; auto.
      intros j d Hd. destruct (VC j d Hd) as [X Y]. split; [exact X|]. apply (xinv_keep st st a a ch (flat_map pend_of cs) before (before ++ [AStep i]) ws ws j d VS); auto; [apply bext_refl|intros ? ?; auto|].
      rewrite made_snoc, (proj2 (Nat.eqb_neq i j)); [lia|]. intros ->. congruence.
  - replace (before ++ AOp o :: r) with ((before ++ [AOp o]) ++ r) by (rewrite <- app_assoc; reflexivity). rewrite app_assoc.
    destruct (H o (or_introl eq_refl)) as [Ho Hl]. destruct (mix_side _ _ _ _ _ _ _ V Ho Hl) as (st1 & E & V1). rewrite E. cbn [bind].
    destruct (IH _ _ _ _ _ _ V1) as (st' & cs' & xs & a' & ch' & E' & V' & Hx); [intros; apply H; right; auto|]. rewrite E'. cbn [bind].
    exists st', cs', (snd (astep a o) :: xs), a', ch'. split; [reflexivity|]. split; [exact V'|]. rewrite Hx. cbn [piece]. rewrite res_same, (mv_run _ _ _ _ _ _ V), <- app_assoc. reflexivity.
Qed.
End Mix.
