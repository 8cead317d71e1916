(** Interleaved calls of gotcha_wrap: which of them update the call sites. *)
From Verif Require Import Base ListFacts HashModel HashProofs SpecHash HashTrace ElfModel SpecElf ToolModel CoreModel SpecCore SpecRun SpecSync SpecGroup
  ToolProofs CoreMaps CoreRel CoreLib CoreStep CoreWrap CoreLoop CoreMain CoreEnv CoreSpec CoreFacts CoreHist CoreApi CoreSync CoreSync2 CoreSync3 CoreApi3 CoreMicro CoreProt CoreTogether CoreIdle CommuteProofs
  FailProofs3 OverlapModel SpecOverlap OverlapProofs OverlapProofs2.
From Coq Require Import Permutation.

Lemma tracks_same maps l l' : tracks maps l l' -> (forall m, In m maps -> tracked l m) -> l' = l.
Proof.
  induction 1 as [l|l m l1 i l' Hm E T IH]; intros H; [reflexivity|]. destruct (track_tracked l m (H m Hm)) as [j Ej]. rewrite Ej in E. injection E as <- _. auto.
Qed.

Lemma enter_frame e st ubs tool st' s : s_init st = true -> wrap_enter e st ubs tool = Ok (st', s) ->
  s_p st' = s_p st /\ s_main st' = s_main st /\ s_l st' = mkLS (l_table (s_l st)) (l_heap (s_l st)) (l_list (s_l st)) (u32 (l_gen (s_l st) + 1)) /\ s <> AtEnter.
Proof.
  intros I E. unfold wrap_enter, gotcha_init in E. rewrite I in E. cbn [bind] in E. cbv zeta in E. iba E as [ts ti]. iba E as [bs tb]. ib E. injection E as <- <-.
  cbn. spl; auto. discriminate.
Qed.

Lemma step_moves e s c s' c' : call_step e s c = Ok (s', c') -> wc_at c' <> AtEnter.
Proof.
  intros E. unfold call_step in E. destruct (wc_at c) as [|na [|n] b pr|code].
  - iba E as [s1 k]. injection E as _ <-. unfold wrap_enter in B. cbv zeta in B. ib B. iba B as [ts ti]. iba B as [bs tb]. ib B. injection B as _ <-. discriminate.
  - iba E as [s1 k]. injection E as _ <-. unfold wrap_leave in B. ib B. injection B as _ <-. discriminate.
  - iba E as [s1 k]. injection E as _ <-. iba B as [s2 p2]. injection B as _ <-. discriminate.
  - injection E as _ <-. discriminate.
Qed.

Section Law.
Context (e : env) (maps : list lmap) (mem : Z -> Z) (ops : list op) (st : state) (rs : list res) (calls : list (list ubind * option cstr)).
Context (P : process_ok e maps ops) (I : existsb is_api ops = true) (E : run e (init_state maps mem) ops = Ok (st, rs)).
Context (C : calm maps (ops ++ call_ops calls)).
Definition no_main : Prop := forall c u, In c calls -> In u (fst c) -> ub_name u <> n_main.
Context (PL : main_bound ops \/ no_main).
Notation ex := (exports e).
Notation arun := (arun ins_c ex e).
Notation A0 := (fst (arun (a0 maps) ops)).
Notation F := (fresh e (ops ++ call_ops calls)).
Notation all := (seen maps ops).

Definition left_of (c : wcall) : list unit := match wc_at c with AtEnter => [tt] | _ => [] end.
Record jinv (s : state) (cs : list wcall) : Prop := {
  ji_o : exists a ch pend ws, oinv e A0 F calls (s_p st) s cs a ch pend ws;
  ji_main : s_main s = true \/ no_main;
  ji_l : exists f, lgood relocs all s f;
  ji_gen : 1 <= l_gen (s_l s) /\ l_gen (s_l s) + Z.of_nat (length (flat_map left_of cs)) < two32 }.

Lemma calm_ops : calm maps ops.
Proof. eapply calm_app. exact C. Qed.
Lemma all_apart : apart all.
Proof. apply calm_ops. Qed.

Lemma left_about : length (flat_map left_of (about calls)) = length calls.
Proof. clear. induction calls as [|c r IH]; [reflexivity|]. cbn. f_equal. exact IH. Qed.
Lemma wraps_calls : wraps (call_ops calls) = length calls.
Proof. clear. unfold wraps, call_ops. induction calls as [|c r IH]; [reflexivity|]. cbn. f_equal. exact IH. Qed.

Lemma jinv_start : jinv st (about calls).
Proof.
  destruct (hist_ex_srel e maps mem ops st rs calls P I E) as [ch S]. destruct (hist_good e (po_env _ _ _ P) maps mem ops st rs P calm_ops E) as [G|(ch' & f & S' & Y & G)].
  { exfalso. pose proof (reached_init e maps mem ops st rs P E) as H. rewrite I in H. rewrite (pr_i _ _ _ _ _ G) in H. discriminate. }
  constructor.
  - exists A0, ch, [], []. apply (start_inv e maps ops st calls ch S).
  - destruct PL as [H|H]; [left|right; exact H]. eapply main_known; eauto.
  - eauto.
  - rewrite left_about. pose proof (cm_gen _ _ C) as H. rewrite wraps_app, wraps_calls in H. unfold bound_of in G. destruct (a_main A0); lia.
Qed.

Lemma o_step s cs a ch pend ws i c s' c' : oinv e A0 F calls (s_p st) s cs a ch pend ws -> nth_error cs i = Some c -> call_step e s c = Ok (s', c') ->
  exists a' ch' pend' ws', oinv e A0 F calls (s_p st) s' (upd cs i (fun _ => c')) a' ch' pend' ws'.
Proof.
  intros V Hc Es. destruct (hist_ex_srel e maps mem ops st rs calls P I E) as [ch0 S0]. pose proof (sr_ainit _ _ _ _ _ _ _ _ S0) as I0.
  destruct (step_any e (po_env _ _ _ P) A0 I0 F calls (s_p st) (fresh_use e maps ops calls) s cs a ch pend ws i c V Hc) as (s1 & c1 & a1 & ch1 & p1 & w1 & E1 & V1).
  rewrite Es in E1. injection E1 as <- <-. eauto.
Qed.

Lemma loop_frame s cs a ch pend ws i c na n b pr s' c' : oinv e A0 F calls (s_p st) s cs a ch pend ws -> nth_error cs i = Some c -> wc_at c = AtLoop na (S n) b pr ->
  s_main s = true \/ no_main -> call_step e s c = Ok (s', c') ->
  s_p s' = s_p s /\ s_main s' = s_main s /\ tracks (p_maps (s_p s)) (s_l s) (s_l s').
Proof.
  intros V Hc Hat M Es. destruct V as [VS VM VL VC VP VA VB VX]. destruct (VC i c Hc) as [Hcall Ci]. unfold cinv in Ci. rewrite Hat in Ci.
  destruct Ci as (C1 & C2 & C3 & C4 & C5 & C6 & C7 & C8).
  destruct (flat_upd pend_of cs i c Hc) as (todo & T1 & T2 & T3). assert (Ep : pend_of c = b :: seq (S b) n) by (unfold pend_of; rewrite Hat; reflexivity). rewrite Ep in T1.
  destruct (skipn_at (wc_binds c) n C2) as (u & K1 & K2). assert (Er : rem_of c = u :: skipn (length (wc_binds c) - n) (wc_binds c)) by (unfold rem_of; rewrite Hat; exact K1).
  pose proof (srel_false _ _ _ _ _ _ _ _ (srel_perm _ _ _ _ _ _ _ _ _ T1 VS)) as S1.
  destruct (C5 0%nat u) as [He Hn]; [rewrite Er; reflexivity|]. rewrite Nat.add_0_r in He, Hn.
  assert (EM : wrap_main e (wrap_n e 2) s (ub_name u) = Ok s).
  { apply (wrap_main_plain e ex relocs (wrap_n e 2) s a ch (b :: seq (S b) n ++ todo) u [] S1). destruct M as [M|M].
    - right. rewrite <- (sr_main _ _ _ _ _ _ _ _ S1). exact M.
    - left. intros v [<-|[]]. apply (M (wc_binds c, wc_tool c) u); [eapply nth_error_In; eauto|]. cbn [fst].
      rewrite <- (firstn_skipn (length (wc_binds c) - S n) (wc_binds c)), K1. apply in_elt. }
  assert (Hni : new_inv (pr_new pr)). { unfold new_ok in C6. unfold new_inv. destruct (pr_new pr); [|exact Logic.I]. destruct C6 as (l & d & I1 & _). eauto. }
  destruct (wrap_one_spec e ex relocs (wrap_n e 2) False s a ch _ b (ub_name u) _ na pr s a ch (eo_ps _ (po_env _ _ _ P)) ltac:(subst na; lia) S1 Hn He EM S1 Hn He eq_refl ltac:(tauto) Hni)
      as (st2 & ch2 & pr2 & nb & EO2 & S2 & _ & HP & HT & _).
  unfold call_step in Es. rewrite Hat, EO2 in Es. cbn [bind] in Es. injection Es as <- _. split; [exact HP|]. split; [|exact HT].
  rewrite (sr_main _ _ _ _ _ _ _ _ S2), (sr_main _ _ _ _ _ _ _ _ S1). apply abind_main.
Qed.

Lemma lgood_set s s' f f' : lgood relocs all s f -> linv all (s_l s') f' -> p_maps (s_p s') = p_maps (s_p s) -> l_gen (s_l s) <= l_gen (s_l s') -> lgood relocs all s' f'.
Proof. intros [Y1 Y2 Y3 Y4 Y5] L M G. constructor; rewrite ?M; auto. lia. Qed.

Lemma left_upd cs i c c' : nth_error cs i = Some c -> wc_at c' <> AtEnter ->
  (length (flat_map left_of cs) = length (flat_map left_of (upd cs i (fun _ => c'))) + length (left_of c))%nat.
Proof.
  clear. intros Hc Hn. destruct (flat_upd left_of cs i c Hc) as (r & R1 & R2 & _). specialize (R2 c'). apply Permutation_length in R1, R2. rewrite R1, R2, !app_length.
  assert (L : left_of c' = []) by (unfold left_of; destruct (wc_at c'); [contradiction|reflexivity|reflexivity]). rewrite L. cbn. lia.
Qed.

Lemma jinv_step s cs i c s' c' : jinv s cs -> nth_error cs i = Some c -> call_step e s c = Ok (s', c') -> jinv s' (upd cs i (fun _ => c')).
Proof.
  intros [[a (ch & pend & ws & V)] JM [f JL] [G1 G2]] Hc Es. pose proof (o_step _ _ _ _ _ _ _ _ _ _ V Hc Es) as V'. pose proof (ov_s _ _ _ _ _ _ _ _ _ _ _ V) as VS.
  pose proof JL as [Y1 Yi Ynd Yf Yg].
  destruct (wc_at c) as [|na [|n] b pr|code] eqn:Hat.
  - unfold call_step in Es. rewrite Hat in Es. iba Es as [s1 k]. injection Es as <- <-.
    destruct (enter_frame _ _ _ _ _ _ (sr_init _ _ _ _ _ _ _ _ VS) ltac:(eassumption)) as (X1 & X2 & X3 & X4).
    assert (HL : (length (flat_map left_of cs) = length (flat_map left_of (upd cs i (fun _ => mkWC (wc_binds c) (wc_tool c) k))) + 1)%nat).
    { rewrite (left_upd cs i c (mkWC (wc_binds c) (wc_tool c) k) Hc X4). f_equal. unfold left_of. rewrite Hat. reflexivity. }
    assert (HG : l_gen (s_l s1) = l_gen (s_l s) + 1) by (rewrite X3; cbn [l_gen]; apply u32_gen; lia).
    constructor; auto; [rewrite X2; exact JM| |lia]. exists f. apply (lgood_set s s1 f f JL); [|rewrite X1; reflexivity|lia].
    rewrite X3. apply linv_gen; [exact Y1|]. rewrite u32_gen by lia. lia.
  - unfold call_step in Es. rewrite Hat in Es. iba Es as [s1 k]. injection Es as <- <-.
    assert (Hk : k <> AtEnter) by (unfold wrap_leave in *; match goal with H : _ = Ok (s1, k) |- _ => ib H; injection H as _ <- end; discriminate).
    pose proof (left_upd cs i c (mkWC (wc_binds c) (wc_tool c) k) Hc Hk) as HL.
    assert (W : s_main s1 = s_main s /\ p_maps (s_p s1) = p_maps (s_p s) /\ l_gen (s_l s1) = l_gen (s_l s) /\ exists f', linv all (s_l s1) f').
    { match goal with H : wrap_leave _ _ _ = _ |- _ => unfold wrap_leave in H; destruct (pr_new pr) as [t|]; [|injection H as <- _; eauto] end.
      match goal with H : _ = Ok (s1, k) |- _ => ib H; injection H as <- _ end.
      match goal with H : update_all_library_gots _ _ _ = _ |- _ => unfold update_all_library_gots in H; destruct (update_gots e _ _ _ _) as [[l' p']|] eqn:EG; [|discriminate H]; injection H as <- end.
      destruct (update_gots_linv e all all_apart _ _ _ _ f _ _ _ Yi Y1 ltac:(lia) EG) as (f' & L' & G' & M' & _). cbn. eauto. }
    destruct W as (W1 & W2 & W3 & f' & W4). constructor; auto; [rewrite W1; exact JM| |lia]. exists f'. apply (lgood_set s s1 f f' JL); auto. lia.
  - destruct (loop_frame _ _ _ _ _ _ _ _ _ _ _ _ _ _ V Hc Hat JM Es) as (X1 & X2 & X3).
    destruct (tracks_exact all all_apart _ _ _ X3 Yi f Y1 Yg) as (f' & L' & G' & _).
    assert (Hk : wc_at c' <> AtEnter) by (eapply step_moves; exact Es).
    pose proof (left_upd cs i c c' Hc Hk) as HL.
    constructor; auto; [rewrite X2; exact JM| |lia]. exists f'. apply (lgood_set s s' f f' JL); [exact L'|rewrite X1; reflexivity|lia].
  - unfold call_step in Es. rewrite Hat in Es. cbn [bind] in Es. injection Es as <- <-.
    assert (Hk : wc_at (mkWC (wc_binds c) (wc_tool c) (Returned code)) <> AtEnter) by discriminate.
    pose proof (left_upd cs i c _ Hc Hk) as HL. constructor; eauto. lia.
Qed.

Lemma jinv_run : forall sched s cs s' cs', jinv s cs -> orun e s cs sched = Ok (s', cs') -> jinv s' cs'.
Proof.
  induction sched as [|i r IH]; intros s cs s' cs' J R; cbn [orun] in R; [injection R as <- <-; exact J|].
  destruct (nth_error cs i) as [c|] eqn:Hc; [|eauto]. iba R as [s1 c1]. eapply IH; [|exact R]. eapply jinv_step; eauto.
Qed.

(** nothing left to store *)
Definition settled (s : state) : Prop :=
  (forall m, In m (p_maps (s_p s)) -> tracked (s_l s) m) /\ forall m, accepted (p_filter (s_p s)) (p_maps (s_p s)) m -> current s m.

Lemma leave_settles s cs i c na b pr s' c' : jinv s cs -> nth_error cs i = Some c -> wc_at c = AtLoop na 0 b pr -> pr_new pr <> None -> call_step e s c = Ok (s', c') -> settled s'.
Proof.
  intros J Hc Hat Hpr Es. pose proof (jinv_step _ _ _ _ _ _ J Hc Es) as [_ _ [f2 Y2] [G2 _]]. destruct J as [_ JM [f JL] [G1 _]]. pose proof JL as [Y1 Yi Ynd Yf Yg].
  unfold call_step in Es. rewrite Hat in Es. iba Es as [s1 k]. injection Es as <- _.
  match goal with H : wrap_leave _ _ _ = _ |- _ => unfold wrap_leave in H; destruct (pr_new pr) as [t|]; [|congruence] end.
  match goal with H : _ = Ok (s1, k) |- _ => ib H; injection H as <- _ end.
  match goal with H : update_all_library_gots _ _ _ = _ |- _ => unfold update_all_library_gots in H; destruct (update_gots e _ _ _ _) as [[l' p']|] eqn:EG; [|discriminate H]; injection H as <- end.
  destruct (gots_freeze e all all_apart _ _ _ _ f _ _ _ Yi Ynd Y1 Yg EG) as (f3 & L3 & G3 & _ & HF).
  destruct (update_gots_linv e all all_apart _ _ _ _ f _ _ _ Yi Y1 ltac:(lia) EG) as (_ & _ & _ & PM & PF). unfold settled. cbn [s_l s_p set_p set_l] in *. rewrite PM, PF. split.
  - destruct (gots_track e all all_apart _ _ _ _ f _ _ _ Yi Y1 Yg EG) as [_ H]. exact H.
  - intros m Ha. specialize (HF m Ha). assert (Hm : In m all) by (apply Yi; eapply accepted_in; eauto).
    apply (current_gen all all_apart _ f2 m Y2 Hm); cbn [s_l set_p set_l]; [lia|].
    rewrite (genof_unique all all_apart l' f2 f3 m (lg_l _ _ _ _ Y2) L3 Hm). congruence.
Qed.

Lemma settled_step s cs i c s' c' : jinv s cs -> settled s -> nth_error cs i = Some c -> wc_at c <> AtEnter -> call_step e s c = Ok (s', c') ->
  s_p s' = s_p s /\ s_l s' = s_l s /\ wc_at c' <> AtEnter.
Proof.
  intros [[a (ch & pend & ws & V)] JM _ _] [T1 T2] Hc Hne Es. pose proof (ov_s _ _ _ _ _ _ _ _ _ _ _ V) as VS.
  destruct (wc_at c) as [|na [|n] b pr|code] eqn:Hat; [congruence| | |].
  - unfold call_step in Es. rewrite Hat in Es. iba Es as [s1 k]. injection Es as <- <-.
    match goal with H : wrap_leave _ _ _ = _ |- _ => unfold wrap_leave in H end.
    match goal with H : _ = Ok (s1, k) |- _ => ib H; injection H as <- <- end.
    match goal with H : match pr_new pr with Some _ => _ | None => _ end = _ |- _ => destruct (pr_new pr) as [t|]; [|injection H as <-; cbn; spl; auto; discriminate];
      unfold update_all_library_gots in H; rewrite (gots_same e _ _ (s_l s) (s_p s)) in H; [injection H as <-; cbn; spl; auto; discriminate|exact T1|] end.
    intros pre m rest Em. destruct (filter_ok e ex relocs m (p_filter (s_p s)) rest) as [x Ex].
    { apply (sr_lib _ _ _ _ _ _ _ _ VS). rewrite <- (sr_maps _ _ _ _ _ _ _ _ VS), Em. apply in_elt. }
    exists x. split; [exact Ex|]. intros ->. apply T2. exists pre, rest. auto.
  - destruct (loop_frame _ _ _ _ _ _ _ _ _ _ _ _ _ _ V Hc Hat JM Es) as (X1 & X2 & X3). split; [exact X1|]. split; [apply (tracks_same _ _ _ X3 T1)|].
    eapply step_moves; exact Es.
  - unfold call_step in Es. rewrite Hat in Es. cbn [bind] in Es. injection Es as <- <-. cbn. spl; auto; discriminate.
Qed.

Lemma settled_run : forall sched s cs s' cs', jinv s cs -> settled s -> (forall i c, In i sched -> nth_error cs i = Some c -> wc_at c <> AtEnter) ->
  orun e s cs sched = Ok (s', cs') -> s_p s' = s_p s /\ s_l s' = s_l s.
Proof.
  induction sched as [|i r IH]; intros s cs s' cs' J T H R; cbn [orun] in R; [injection R as <- <-; auto|].
  destruct (nth_error cs i) as [c|] eqn:Hc; [|apply (IH s cs s' cs'); auto; intros j d Hj; apply H; right; exact Hj]. iba R as [s1 c1].
  destruct (settled_step s cs i c s1 c1 J T Hc ltac:(apply (H i c (or_introl eq_refl) Hc)) ltac:(assumption)) as (X1 & X2 & X3).
  destruct (IH s1 (upd cs i (fun _ => c1)) s' cs') as [Y1 Y2]; auto.
  - eapply jinv_step; eauto.
  - unfold settled, tracked, current. rewrite X1, X2. exact T.
  - intros j d Hj Hd. rewrite nth_upd in Hd. destruct (Nat.eqb_spec j i) as [->|D]; [rewrite Hc in Hd; cbn in Hd; injection Hd as <-; exact X3|]. apply (H j d); [right; exact Hj|exact Hd].
  - split; congruence.
Qed.

(** once a call has updated the call sites, no call that had entered before stores anything *)
Lemma second_update s1 i c na b pr s2 st1 cs1 st2 cs2 st3 cs3 :
  orun e st (about calls) s1 = Ok (st1, cs1) -> nth_error cs1 i = Some c -> wc_at c = AtLoop na 0 b pr -> pr_new pr <> None ->
  orun e st1 cs1 [i] = Ok (st2, cs2) -> (forall j d, In j s2 -> nth_error cs2 j = Some d -> wc_at d <> AtEnter) ->
  orun e st2 cs2 s2 = Ok (st3, cs3) -> s_p st3 = s_p st2.
Proof.
  intros R1 Hc Hat Hpr R2 Hn R3. pose proof (jinv_run _ _ _ _ _ jinv_start R1) as J1. pose proof (jinv_run _ _ _ _ _ J1 R2) as J2.
  cbn [orun] in R2. rewrite Hc in R2. iba R2 as [s' c']. injection R2 as <- <-.
  pose proof (leave_settles _ _ _ _ _ _ _ _ _ J1 Hc Hat Hpr ltac:(eassumption)) as T. apply (settled_run _ _ _ _ _ J2 T Hn R3).
Qed.
End Law.
