(** Calls of gotcha_wrap that interleave with other calls: what they amount to in a history, and which stages store something. *)
From Verif Require Import Base ListFacts HashModel HashProofs SpecHash HashTrace ElfModel SpecElf ToolModel CoreModel SpecCore SpecRun SpecSync SpecGroup
  ToolProofs CoreMaps CoreRel CoreLib CoreStep CoreWrap CoreLoop CoreMain CoreEnv CoreSpec CoreFacts CoreHist CoreApi CoreSync CoreSync2 CoreSync3 CoreApi3 CoreMicro CoreProt CoreTogether CoreIdle CommuteProofs
  FailProofs3 OverlapModel SpecOverlap OverlapProofs OverlapProofs2 OverlapProofs3 MixModel SpecMix MixProofs.
From Coq Require Import Permutation.

(** *** the sequence of calls *)
Lemma in_wholes o acts : In o (wholes acts) <-> In (AOp o) acts.
Proof.
  unfold wholes. rewrite in_flat_map. split.
  - intros (a & Ha & Ho). destruct a as [i|o']; [destruct Ho|]. destruct Ho as [->|[]]. exact Ha.
  - intros H. exists (AOp o). split; [exact H|left; reflexivity].
Qed.
Lemma wholes_app l1 l2 : wholes (l1 ++ l2) = wholes l1 ++ wholes l2.
Proof. unfold wholes. apply flat_map_app. Qed.
Lemma of_call_app {A} i (l1 l2 : list (nat * A)) : of_call i (l1 ++ l2) = of_call i l1 ++ of_call i l2.
Proof. unfold of_call. rewrite filter_app, map_app. reflexivity. Qed.
Lemma linear_ops calls : forall acts before o, In o (map snd (linear calls before acts)) -> (exists l t, o = OWrap l t) \/ In o (wholes acts).
Proof.
  induction acts as [|a r IH]; intros before o H; [destruct H|]. cbn [linear] in H. rewrite map_app in H. apply in_app_or in H. destruct H as [H|H].
  - destruct a as [i|o']; cbn [piece] in H.
    + left. destruct (nth_error calls i) as [[l t]|]; [|destruct H]. destruct (made i before) as [|k]; cbn [map] in H; [destruct H as [<-|[]]; cbn; eauto|].
      destruct (nth_error l k); [destruct H as [<-|[]]; cbn; eauto|destruct H].
    + right. destruct H as [<-|[]]. left. reflexivity.
  - destruct (IH _ _ H) as [X|X]; [left; exact X|]. right. change (a :: r) with ([a] ++ r). rewrite wholes_app. apply in_or_app. right. exact X.
Qed.
(** the whole calls are there in their order, and the steps of every thread in theirs *)
Lemma linear_wholes calls : forall acts before, of_call (length calls) (linear calls before acts) = wholes acts.
Proof.
  induction acts as [|a r IH]; intros before; [reflexivity|]. cbn [linear]. change (a :: r) with ([a] ++ r). rewrite wholes_app, of_call_app, IH. f_equal.
  destruct a as [i|o]; cbn [piece].
  - destruct (nth_error calls i) as [[l t]|] eqn:Ec; [|reflexivity]. assert (D : Nat.eqb i (length calls) = false) by (apply Nat.eqb_neq; apply nth_error_Some_lt in Ec; lia).
    destruct (made i before) as [|j]; [unfold of_call; cbn; rewrite D; reflexivity|]. destruct (nth_error l j); [unfold of_call; cbn; rewrite D; reflexivity|reflexivity].
  - unfold of_call. cbn. rewrite Nat.eqb_refl. reflexivity.
Qed.
Lemma firstn_next {A} (l : list A) k : firstn (S k) l = firstn k l ++ match nth_error l k with Some x => [x] | None => [] end.
Proof. revert k. induction l as [|x r IH]; intros [|k]; try reflexivity. cbn [firstn nth_error app]. rewrite <- IH. reflexivity. Qed.
Lemma linear_thread calls i l t : nth_error calls i = Some (l, t) -> forall acts before,
  firstn (made i before) (OWrap [] t :: map (fun u => OWrap [u] t) l) ++ of_call i (linear calls before acts) =
  firstn (made i (before ++ acts)) (OWrap [] t :: map (fun u => OWrap [u] t) l).
Proof.
  intros Hi. induction acts as [|a r IH]; intros before; [cbn; rewrite !app_nil_r; reflexivity|]. cbn [linear]. rewrite of_call_app, app_assoc.
  replace (before ++ a :: r) with ((before ++ [a]) ++ r) by (rewrite <- app_assoc; reflexivity). rewrite <- IH. f_equal. rewrite made_snoc.
  destruct a as [j|o]; cbn [piece].
  - destruct (Nat.eqb_spec j i) as [->|D].
    + rewrite Hi. rewrite Nat.add_1_r, firstn_next. f_equal. destruct (made i before) as [|k]; [unfold of_call; cbn; rewrite Nat.eqb_refl; reflexivity|].
      cbn [nth_error]. rewrite nth_error_map. destruct (nth_error l k); cbn; [unfold of_call; cbn; rewrite Nat.eqb_refl; reflexivity|reflexivity].
    + rewrite Nat.add_0_r. rewrite <- (app_nil_r (firstn (made i before) (OWrap [] t :: map (fun u => OWrap [u] t) l))) at 2. f_equal.
      apply Nat.eqb_neq in D. destruct (nth_error calls j) as [[l' t']|]; [|reflexivity].
      destruct (made j before) as [|k]; [unfold of_call; cbn; rewrite D; reflexivity|]. destruct (nth_error l' k); [unfold of_call; cbn; rewrite D; reflexivity|reflexivity].
  - rewrite Nat.add_0_r. rewrite <- (app_nil_r (firstn (made i before) (OWrap [] t :: map (fun u => OWrap [u] t) l))) at 2. f_equal.
    unfold of_call. cbn. rewrite (proj2 (Nat.eqb_neq (length calls) i)); [reflexivity|]. apply nth_error_Some_lt in Hi. lia.
Qed.

Lemma mrun_app e : forall a1 a2 st cs, mrun e st cs (a1 ++ a2) = (do ' (z, xs) <- mrun e st cs a1; do ' (z2, ys) <- mrun e (fst z) (snd z) a2; Ok (z2, xs ++ ys)).
Proof.
  induction a1 as [|[i|o] r IH]; intros a2 st cs; cbn [app mrun].
  - cbn [bind fst snd]. destruct (mrun e st cs a2) as [[z ys]|]; reflexivity.
  - destruct (nth_error cs i) as [c|]; [|apply IH]. destruct (call_step e st c) as [[s1 c1]|]; cbn [bind]; [apply IH|reflexivity].
  - destruct (step e st o) as [[s1 x]|]; cbn [bind]; [|reflexivity]. rewrite IH. destruct (mrun e s1 cs r) as [[z xs]|]; cbn [bind]; [|reflexivity].
    destruct (mrun e (fst z) (snd z) a2) as [[z2 ys]|]; reflexivity.
Qed.

Section Hist.
Context (e : env) (maps : list lmap) (mem : Z -> Z) (ops : list op) (st : state) (rs : list res) (calls : list (list ubind * option cstr)) (acts : list act).
Context (P : process_ok e maps (ops ++ wholes acts)) (I : existsb is_api ops = true) (E : run e (init_state maps mem) ops = Ok (st, rs)).
Context (HS : forall o, In o (wholes acts) -> side o).
Notation ex := (exports e).
Notation arun := (arun ins_c ex e).
Notation astep := (astep ins_c ex e).
Notation A0 := (fst (arun (a0 maps) ops)).
Notation F := (fresh e (ops ++ call_ops calls)).
Notation all := (seen maps (ops ++ wholes acts)).
Notation minv := (minv e A0 F calls (p_log (s_p st)) all).

Lemma mix_P : process_ok e maps ops.
Proof. eapply process_app. exact P. Qed.
Lemma mix_all m : In m all -> lib_ok e ex relocs m.
Proof. eapply seen_ok. exact P. Qed.
Lemma mix_side_ok o : In (AOp o) acts -> side o /\ incl (op_libs o) all.
Proof.
  intros H. apply in_wholes in H. split; [apply HS, H|]. intros m Hm. unfold seen. apply in_or_app. right. apply in_flat_map. exists o. split; [apply in_or_app; auto|exact Hm].
Qed.
Lemma mix_init : a_init A0 = true.
Proof. destruct (hist_ex_srel e maps mem ops st rs calls mix_P I E) as [ch S]. apply (sr_ainit _ _ _ _ _ _ _ _ S). Qed.
Lemma mix_start : exists ch, minv st (about calls) A0 ch [] [].
Proof.
  destruct (hist_ex_srel e maps mem ops st rs calls mix_P I E) as [ch S]. exists ch. constructor.
  - rewrite about_pend. exact S.
  - reflexivity.
  - apply map_length.
  - intros i c H. apply about_nth in H. destruct H as [H1 H2]. split; [exact H2|]. unfold xinv. rewrite H1. auto.
  - cbn. rewrite about_rem. auto.
  - destruct (reach e maps mem ops st rs mix_P E) as (_ & M & _). intros m Hm. rewrite M in Hm. apply seen_mono, maps_seen, Hm.
  - apply wrote_refl.
Qed.
Lemma mixed : exists st' cs' xs a ch, mrun e st (about calls) acts = Ok (st', cs', xs) /\ minv st' cs' a ch acts (in_line calls acts) /\
  xs = results_of (length calls) (in_line calls acts) (snd (arun A0 (map snd (in_line calls acts)))).
Proof.
  destruct mix_start as [ch V]. pose proof (po_env _ _ _ mix_P) as EO.
  destruct (mix_run e EO A0 F calls (p_log (s_p st)) all (fresh_use e maps ops calls) mix_all acts st (about calls) A0 ch [] [] V mix_side_ok) as (st' & cs' & xs & a & ch' & R & V' & X).
  exists st', cs', xs, a, ch'. cbn [app] in V', X. split; [exact R|]. split; [exact V'|]. symmetry. exact X.
Qed.

(** *** up to date *)
Context (C : calm maps (ops ++ wholes acts ++ call_ops calls)) (PL : main_bound ops \/ no_main calls).

Record ninv (s : state) (cs : list wcall) (before : list act) : Prop := {
  ni_m : exists a ch ws, minv s cs a ch before ws;
  ni_main : s_main s = true \/ no_main calls;
  ni_l : exists f, lgood relocs all s f;
  ni_maps : p_maps (s_p s) = maps_after maps (ops ++ wholes before);
  ni_gen : 1 <= l_gen (s_l s) /\ l_gen (s_l s) + Z.of_nat (length (flat_map left_of cs)) < two32 }.

Lemma mix_calm : calm maps (ops ++ wholes acts).
Proof. rewrite app_assoc in C. eapply calm_app. exact C. Qed.
Lemma mix_apart : apart all.
Proof. apply mix_calm. Qed.
Lemma mix_at before rest : acts = before ++ rest -> NoDup (map key_of (maps_after maps (ops ++ wholes before))) /\ slots_fun relocs (maps_after maps (ops ++ wholes before)).
Proof.
  intros H. assert (C' : calm maps ((ops ++ wholes before) ++ wholes rest)) by (pose proof mix_calm as K; rewrite H, wholes_app in K; rewrite <- app_assoc; exact K).
  split; [apply (cm_once _ _ C' (ops ++ wholes before) (wholes rest) eq_refl)|apply (cm_slots _ _ C' (ops ++ wholes before) (wholes rest) eq_refl)].
Qed.

Lemma ninv_start : ninv st (about calls) [].
Proof.
  destruct mix_start as [ch V]. pose proof (po_env _ _ _ mix_P) as EO. pose proof (calm_app _ _ _ mix_calm) as C0.
  destruct (hist_good e EO maps mem ops st rs mix_P C0 E) as [G|(ch' & f & S' & Y & G)].
  { exfalso. pose proof (reached_init e maps mem ops st rs mix_P E) as H. rewrite I in H. rewrite (pr_i _ _ _ _ _ G) in H. discriminate. }
  destruct (reach e maps mem ops st rs mix_P E) as (_ & M & _).
  constructor.
  - eauto.
  - destruct PL as [H|H]; [left|right; exact H]. eapply main_known; [exact mix_P|exact E|exact H].
  - exists f. destruct Y as [Y1 Y2 Y3 Y4 Y5]. constructor; auto; [|intros m Hm; apply seen_mono, Y2, Hm]. eapply linv_mono; [|exact Y1]. intros m. apply seen_mono.
  - cbn. rewrite app_nil_r. exact M.
  - rewrite left_about. pose proof (cm_gen _ _ C) as H. rewrite !wraps_app, wraps_calls in H. unfold bound_of in G. destruct (a_main A0); lia.
Qed.

Lemma mix_frame s cs a ch before ws i c na n b pr s' c' : minv s cs a ch before ws -> nth_error cs i = Some c -> wc_at c = AtLoop na (S n) b pr ->
  s_main s = true \/ no_main calls -> call_step e s c = Ok (s', c') ->
  s_p s' = s_p s /\ s_main s' = s_main s /\ tracks (p_maps (s_p s)) (s_l s) (s_l s').
Proof.
  intros V Hc Hat M Es. destruct V as [VS VR VL VC VB VI VX]. destruct (VC i c Hc) as [Hcall Ci]. unfold xinv in Ci. rewrite Hat in Ci.
  destruct Ci as (C1 & C2 & C3 & C4 & C5 & C6 & C7 & C8).
  destruct (flat_upd pend_of cs i c Hc) as (todo & T1 & T2 & T3). assert (Ep : pend_of c = b :: seq (S b) n) by (unfold pend_of; rewrite Hat; reflexivity). rewrite Ep in T1.
  destruct (skipn_at (wc_binds c) n C2) as (u & K1 & K2). assert (Er : rem_of c = u :: skipn (length (wc_binds c) - n) (wc_binds c)) by (unfold rem_of; rewrite Hat; exact K1).
  pose proof (srel_false _ _ _ _ _ _ _ _ (srel_perm _ _ _ _ _ _ _ _ _ T1 VS)) as S1.
  destruct (C5 0%nat u) as [He Hn]; [rewrite Er; reflexivity|]. rewrite Nat.add_0_r in He, Hn.
  assert (EM : wrap_main e (wrap_n e 2) s (ub_name u) = Ok s).
  { apply (wrap_main_plain e ex relocs (wrap_n e 2) s a ch (b :: seq (S b) n ++ todo) u [] S1). destruct M as [M|M].
    - right. rewrite <- (sr_main _ _ _ _ _ _ _ _ S1). exact M.
    - left. intros v [<-|[]]. apply (M (wc_binds c, wc_tool c) u); [eapply nth_error_In; eauto|]. cbn [fst].
      rewrite <- (firstn_skipn (length (wc_binds c) - S n) (wc_binds c)), K1. apply in_elt. }
  assert (Hni : new_inv (pr_new pr)). { unfold new_ok in C6. unfold new_inv. destruct (pr_new pr); [|exact Logic.I]. destruct C6 as (l & d & I1 & _). eauto. }
  destruct (wrap_one_spec e ex relocs (wrap_n e 2) False s a ch _ b (ub_name u) _ na pr s a ch (eo_ps _ (po_env _ _ _ P)) ltac:(subst na; lia) S1 Hn He EM S1 Hn He eq_refl ltac:(tauto) Hni)
      as (st2 & ch2 & pr2 & nb & EO2 & S2 & _ & HP & HT & _).
  unfold call_step in Es. rewrite Hat, EO2 in Es. cbn [bind] in Es. injection Es as <- _. split; [exact HP|]. split; [|exact HT].
  rewrite (sr_main _ _ _ _ _ _ _ _ S2), (sr_main _ _ _ _ _ _ _ _ S1). apply abind_main.
Qed.

Lemma good_set s s' f f' : lgood relocs all s f -> linv all (s_l s') f' -> p_maps (s_p s') = p_maps (s_p s) -> l_gen (s_l s) <= l_gen (s_l s') -> lgood relocs all s' f'.
Proof. intros [Y1 Y2 Y3 Y4 Y5] L M G. constructor; rewrite ?M; auto. lia. Qed.

Lemma wholes_step before i : wholes (before ++ [AStep i]) = wholes before.
Proof. rewrite wholes_app. apply app_nil_r. Qed.

Lemma ninv_step s cs before i c s' c' : ninv s cs before -> nth_error cs i = Some c -> call_step e s c = Ok (s', c') -> ninv s' (upd cs i (fun _ => c')) (before ++ [AStep i]).
Proof.
  intros [[a (ch & ws & V)] JM [f JL] JP [G1 G2]] Hc Es. pose proof (mv_s _ _ _ _ _ _ _ _ _ _ _ _ V) as VS.
  assert (V' : exists a' ch' ws', minv s' (upd cs i (fun _ => c')) a' ch' (before ++ [AStep i]) ws').
  { destruct (mix_step e (po_env _ _ _ P) A0 F calls (p_log (s_p st)) all (fresh_use e maps ops calls) s cs a ch before ws i c V Hc) as (s1 & c1 & a1 & ch1 & E1 & V1).
    rewrite Es in E1. injection E1 as <- <-. eauto. }
  pose proof JL as [Y1 Yi Ynd Yf Yg].
  destruct (wc_at c) as [|na [|n] b pr|code] eqn:Hat.
  - unfold call_step in Es. rewrite Hat in Es. iba Es as [s1 k]. injection Es as <- <-.
    destruct (enter_frame _ _ _ _ _ _ (sr_init _ _ _ _ _ _ _ _ VS) ltac:(eassumption)) as (X1 & X2 & X3 & X4).
    assert (HL : (length (flat_map left_of cs) = length (flat_map left_of (upd cs i (fun _ => mkWC (wc_binds c) (wc_tool c) k))) + 1)%nat).
    { rewrite (left_upd cs i c (mkWC (wc_binds c) (wc_tool c) k) Hc X4). f_equal. unfold left_of. rewrite Hat. reflexivity. }
    assert (HG : l_gen (s_l s1) = l_gen (s_l s) + 1) by (rewrite X3; cbn [l_gen]; apply u32_gen; lia).
    constructor; auto; [rewrite X2; exact JM| |rewrite wholes_step, X1; exact JP|lia]. exists f. apply (good_set s s1 f f JL); [|rewrite X1; reflexivity|lia].
    rewrite X3. apply linv_gen; [exact Y1|]. rewrite u32_gen by lia. lia.
  - unfold call_step in Es. rewrite Hat in Es. iba Es as [s1 k]. injection Es as <- <-.
    assert (Hk : k <> AtEnter) by (unfold wrap_leave in *; match goal with H : _ = Ok (s1, k) |- _ => ib H; injection H as _ <- end; discriminate).
    pose proof (left_upd cs i c (mkWC (wc_binds c) (wc_tool c) k) Hc Hk) as HL.
    assert (W : s_main s1 = s_main s /\ p_maps (s_p s1) = p_maps (s_p s) /\ l_gen (s_l s1) = l_gen (s_l s) /\ exists f', linv all (s_l s1) f').
    { match goal with H : wrap_leave _ _ _ = _ |- _ => unfold wrap_leave in H; destruct (pr_new pr) as [t|]; [|injection H as <- _; eauto] end.
      match goal with H : _ = Ok (s1, k) |- _ => ib H; injection H as <- _ end.
      match goal with H : update_all_library_gots _ _ _ = _ |- _ => unfold update_all_library_gots in H; destruct (update_gots e _ _ _ _) as [[l' p']|] eqn:EG; [|discriminate H]; injection H as <- end.
      destruct (update_gots_linv e all mix_apart _ _ _ _ f _ _ _ Yi Y1 ltac:(lia) EG) as (f' & L' & G' & M' & _). cbn. eauto. }
    destruct W as (W1 & W2 & W3 & f' & W4). constructor; auto; [rewrite W1; exact JM| |rewrite wholes_step, W2; exact JP|lia]. exists f'. apply (good_set s s1 f f' JL); auto. lia.
  - destruct (mix_frame _ _ _ _ _ _ _ _ _ _ _ _ _ _ V Hc Hat JM Es) as (X1 & X2 & X3).
    destruct (tracks_exact all mix_apart _ _ _ X3 Yi f Y1 Yg) as (f' & L' & G' & _).
    assert (Hk : wc_at c' <> AtEnter) by (eapply step_moves; exact Es).
    pose proof (left_upd cs i c c' Hc Hk) as HL.
    constructor; auto; [rewrite X2; exact JM| |rewrite wholes_step, X1; exact JP|lia]. exists f'. apply (good_set s s' f f' JL); [exact L'|rewrite X1; reflexivity|lia].
  - unfold call_step in Es. rewrite Hat in Es. cbn [bind] in Es. injection Es as <- <-.
    assert (Hk : wc_at (mkWC (wc_binds c) (wc_tool c) (Returned code)) <> AtEnter) by discriminate.
    pose proof (left_upd cs i c _ Hc Hk) as HL. constructor; eauto; [rewrite wholes_step; exact JP|lia].
Qed.

Lemma ninv_side s cs before o s' x rest : ninv s cs before -> acts = before ++ AOp o :: rest -> step e s o = Ok (s', x) -> ninv s' cs (before ++ [AOp o]).
Proof.
  intros [[a (ch & ws & V)] JM [f JL] JP JG] Ha Es. pose proof (mv_s _ _ _ _ _ _ _ _ _ _ _ _ V) as VS.
  destruct (mix_side_ok o) as [Ho Hl]; [rewrite Ha; apply in_elt|].
  destruct (mix_side e (po_env _ _ _ P) A0 F calls (p_log (s_p st)) all mix_all s cs a ch before ws o V Ho Hl) as (s1 & E1 & V1). rewrite Es in E1. injection E1 as <- _.
  pose proof (mv_s _ _ _ _ _ _ _ _ _ _ _ _ V1) as VS1.
  assert (EM : s_main s' = s_main s).
  { rewrite (sr_main _ _ _ _ _ _ _ _ VS1), (sr_main _ _ _ _ _ _ _ _ VS). pose proof (sr_ainit _ _ _ _ _ _ _ _ VS) as AI.
    destruct o; [destruct Ho|..]; cbn [SpecCore.astep fst a_main]; rewrite ?(init_again e ex ins_c _ AI), ?AI; reflexivity. }
  assert (EP : p_maps (s_p s') = maps_after maps (ops ++ wholes (before ++ [AOp o]))).
  { rewrite (sr_maps _ _ _ _ _ _ _ _ VS1). rewrite wholes_app, app_assoc, maps_after_app, <- JP, (sr_maps _ _ _ _ _ _ _ _ VS). pose proof (sr_ainit _ _ _ _ _ _ _ _ VS) as AI.
    destruct o; [destruct Ho|..]; cbn [SpecCore.astep fst a_maps]; rewrite ?(init_again e ex ins_c _ AI), ?AI; reflexivity. }
  assert (Ha' : acts = (before ++ [AOp o]) ++ rest) by (rewrite <- app_assoc; exact Ha).
  destruct (mix_at _ _ Ha') as [K1 K2]. rewrite <- EP in K1, K2.
  assert (KI : forall m, In m (p_maps (s_p s')) -> In m all) by (apply (mv_in _ _ _ _ _ _ _ _ _ _ _ _ V1)).
  assert (L : l_gen (s_l s') = l_gen (s_l s) /\ exists f', linv all (s_l s') f').
  { pose proof (sr_init _ _ _ _ _ _ _ _ VS) as SI. pose proof (lg_l _ _ _ _ JL) as L0.
    destruct o as [ubs t|t v|t|fl|libs mm| |keep mm]; [destruct Ho|..]; cbn [step] in Es.
    - unfold gotcha_set_priority, api_init, gotcha_init in Es. rewrite SI in Es. cbn [bind] in Es. destruct (set_priority_int _ _ _ _) as [ts|]; [|discriminate Es]. cbn [bind] in Es. injection Es as <- _. cbn. eauto.
    - unfold gotcha_get_priority, api_init, gotcha_init in Es. rewrite SI in Es. cbn [bind] in Es. destruct (get_configuration_value _ _) as [[y z]|]; [|discriminate Es]. cbn [bind] in Es. injection Es as <- _. eauto.
    - injection Es as <- _. cbn. eauto.
    - injection Es as <- _. cbn. eauto.
    - rewrite SI in Es. destruct (finish_good e ex relocs all mix_apart mix_all s a ch f (srel_false _ _ _ _ _ _ _ _ VS) JL) as (s2 & f2 & E2 & _ & Y2 & G2 & _). rewrite E2 in Es. cbn [bind] in Es. injection Es as <- _.
      split; [exact G2|]. exists f2. apply Y2.
    - injection Es as <- _. cbn. eauto. }
  destruct L as (L1 & f' & L2). constructor; eauto.
  - rewrite EM. exact JM.
  - exists f'. constructor; auto. lia.
  - lia.
Qed.

Lemma ninv_skip s cs before i : ninv s cs before -> nth_error cs i = None -> ninv s cs (before ++ [AStep i]).
Proof.
  intros [[a (ch & ws & V)] JM JL JP JG] Hc. constructor; auto; [|rewrite wholes_step; exact JP]. exists a, ch, ws. destruct V as [VS VR VL VC VB VI VX]. constructor; auto.
  intros j d Hd. destruct (VC j d Hd) as [X Y]. split; [exact X|]. apply (xinv_keep e A0 F s s a a ch (flat_map pend_of cs) before (before ++ [AStep i]) ws ws j d VS); auto; [apply bext_refl|intros ? ?; auto|].
  rewrite made_snoc, (proj2 (Nat.eqb_neq i j)); [lia|]. intros ->. congruence.
Qed.

Lemma ninv_run : forall part s cs before rest s' cs' xs, ninv s cs before -> acts = before ++ part ++ rest -> mrun e s cs part = Ok (s', cs', xs) -> ninv s' cs' (before ++ part).
Proof.
  induction part as [|[i|o] r IH]; intros s cs before rest s' cs' xs J Ha R; cbn [mrun] in R.
  - injection R as <- <- _. rewrite app_nil_r. exact J.
  - replace (before ++ AStep i :: r) with ((before ++ [AStep i]) ++ r) by (rewrite <- app_assoc; reflexivity).
    assert (Ha' : acts = (before ++ [AStep i]) ++ r ++ rest) by (rewrite <- app_assoc; exact Ha).
    destruct (nth_error cs i) as [c|] eqn:Hc; [|eapply IH; [apply (ninv_skip _ _ _ _ J Hc)|exact Ha'|exact R]]. iba R as [s1 c1].
    eapply IH; [eapply ninv_step; eauto|exact Ha'|exact R].
  - replace (before ++ AOp o :: r) with ((before ++ [AOp o]) ++ r) by (rewrite <- app_assoc; reflexivity).
    assert (Ha' : acts = (before ++ [AOp o]) ++ r ++ rest) by (rewrite <- app_assoc; exact Ha).
    iba R as [s1 x]. iba R as [z ys]. injection R as -> _. eapply IH; [eapply ninv_side; [exact J|exact Ha|eassumption]|exact Ha'|eassumption].
Qed.

(** an update settles everything *)
Lemma leave_settled s cs before i c na b pr s' c' : ninv s cs before -> nth_error cs i = Some c -> wc_at c = AtLoop na 0 b pr -> pr_new pr <> None -> call_step e s c = Ok (s', c') -> settled s'.
Proof.
  intros J Hc Hat Hpr Es. pose proof (ninv_step _ _ _ _ _ _ _ J Hc Es) as [_ _ [f2 Y2] _ [G2 _]]. destruct J as [_ JM [f JL] _ [G1 _]]. pose proof JL as [Y1 Yi Ynd Yf Yg].
  unfold call_step in Es. rewrite Hat in Es. iba Es as [s1 k]. injection Es as <- _.
  match goal with H : wrap_leave _ _ _ = _ |- _ => unfold wrap_leave in H; destruct (pr_new pr) as [t|]; [|congruence] end.
  match goal with H : _ = Ok (s1, k) |- _ => ib H; injection H as <- _ end.
  match goal with H : update_all_library_gots _ _ _ = _ |- _ => unfold update_all_library_gots in H; destruct (update_gots e _ _ _ _) as [[l' p']|] eqn:EG; [|discriminate H]; injection H as <- end.
  destruct (gots_freeze e all mix_apart _ _ _ _ f _ _ _ Yi Ynd Y1 Yg EG) as (f3 & L3 & G3 & _ & HF).
  destruct (update_gots_linv e all mix_apart _ _ _ _ f _ _ _ Yi Y1 ltac:(lia) EG) as (_ & _ & _ & PM & PF). unfold settled. cbn [s_l s_p set_p set_l] in *. rewrite PM, PF. split.
  - destruct (gots_track e all mix_apart _ _ _ _ f _ _ _ Yi Y1 Yg EG) as [_ H]. exact H.
  - intros m Ha. specialize (HF m Ha). assert (Hm : In m all) by (apply Yi; eapply accepted_in; eauto).
    apply (current_gen all mix_apart _ f2 m Y2 Hm); cbn [s_l set_p set_l]; [lia|].
    rewrite (genof_unique all mix_apart l' f2 f3 m (lg_l _ _ _ _ Y2) L3 Hm). congruence.
Qed.
Lemma finish_settled s cs before s' x : ninv s cs before -> step e s OFinish = Ok (s', x) -> settled s'.
Proof.
  intros [[a (ch & ws & V)] JM [f JL] JP [JG _]] Es. pose proof (mv_s _ _ _ _ _ _ _ _ _ _ _ _ V) as VS. cbn [step] in Es. rewrite (sr_init _ _ _ _ _ _ _ _ VS) in Es.
  ib Es. injection Es as <- _. pose proof (srel_false _ _ _ _ _ _ _ _ VS) as S0.
  destruct (finish_settles e all mix_apart mix_all s a ch f _ S0 JL JG B) as [T1 T2].
  destruct (finish_good e ex relocs all mix_apart mix_all s a ch f S0 JL) as (s2 & f2 & E2 & _ & _ & _ & M2 & F2 & _). rewrite B in E2. injection E2 as <-.
  unfold settled. rewrite M2, F2. auto.
Qed.

(** what stores nothing then *)
Lemma settled_gots s a ch todo t : srel e ex relocs False s a ch todo -> settled s -> update_all_library_gots e t s = Ok s.
Proof.
  intros S [T1 T2]. unfold update_all_library_gots. rewrite (gots_same e _ _ (s_l s) (s_p s)); [destruct s; reflexivity|exact T1|].
  intros pre m rest Em. destruct (filter_ok e ex relocs m (p_filter (s_p s)) rest) as [x Ex].
  { apply (sr_lib _ _ _ _ _ _ _ _ S). rewrite <- (sr_maps _ _ _ _ _ _ _ _ S), Em. apply in_elt. }
  exists x. split; [exact Ex|]. intros ->. apply T2. exists pre, rest. auto.
Qed.
Lemma quiet_step s cs before i c s' c' : ninv s cs before -> settled s -> nth_error cs i = Some c -> wc_at c <> AtEnter -> call_step e s c = Ok (s', c') ->
  s_p s' = s_p s /\ s_l s' = s_l s /\ wc_at c' <> AtEnter.
Proof.
  intros [[a (ch & ws & V)] JM _ _ _] T Hc Hne Es. pose proof (srel_false _ _ _ _ _ _ _ _ (mv_s _ _ _ _ _ _ _ _ _ _ _ _ V)) as VS.
  destruct (wc_at c) as [|na [|n] b pr|code] eqn:Hat; [congruence| | |].
  - unfold call_step in Es. rewrite Hat in Es. iba Es as [s1 k]. injection Es as <- <-.
    match goal with H : wrap_leave _ _ _ = _ |- _ => unfold wrap_leave in H end.
    match goal with H : _ = Ok (s1, k) |- _ => ib H; injection H as <- <- end.
    match goal with H : match pr_new pr with Some _ => _ | None => _ end = _ |- _ => destruct (pr_new pr) as [t|]; [|injection H as <-; cbn; spl; auto; discriminate];
      rewrite (settled_gots _ _ _ _ t VS T) in H; injection H as <-; cbn; spl; auto; discriminate end.
  - destruct (mix_frame _ _ _ _ _ _ _ _ _ _ _ _ _ _ V Hc Hat JM Es) as (X1 & X2 & X3). split; [exact X1|]. split; [apply (tracks_same _ _ _ X3 (proj1 T))|].
    eapply step_moves; exact Es.
  - unfold call_step in Es. rewrite Hat in Es. cbn [bind] in Es. injection Es as <- <-. cbn. spl; auto; discriminate.
Qed.
Lemma quiet_side s cs before o s' x : ninv s cs before -> settled s -> same_libs o -> step e s o = Ok (s', x) -> s_p s' = s_p s /\ s_l s' = s_l s.
Proof.
  intros [[a (ch & ws & V)] JM _ _ _] T Ho Es. pose proof (srel_false _ _ _ _ _ _ _ _ (mv_s _ _ _ _ _ _ _ _ _ _ _ _ V)) as VS. pose proof (sr_init _ _ _ _ _ _ _ _ VS) as SI.
  destruct o as [ubs t|t v|t|fl|libs mm| |keep mm]; try destruct Ho; cbn [step] in Es.
  - unfold gotcha_set_priority, api_init, gotcha_init in Es. rewrite SI in Es. cbn [bind] in Es. destruct (set_priority_int _ _ _ _) as [ts|]; [|discriminate Es]. cbn [bind] in Es. injection Es as <- _. auto.
  - unfold gotcha_get_priority, api_init, gotcha_init in Es. rewrite SI in Es. cbn [bind] in Es. destruct (get_configuration_value _ _) as [[y z]|]; [|discriminate Es]. cbn [bind] in Es. injection Es as <- _. auto.
  - rewrite SI in Es. unfold dlopen_finish in Es. destruct (resolve_loop e ex relocs False s a ch VS) as (s1 & E1 & S1 & P1 & T1 & _). rewrite E1 in Es. cbn [bind] in Es.
    pose proof (tracks_same _ _ _ T1 (proj1 T)) as EL.
    assert (T' : settled s1) by (unfold settled, tracked, current in *; rewrite P1, EL; exact T).
    rewrite (settled_gots _ _ _ _ (b_fn (s_b s1)) S1 T') in Es. cbn [bind] in Es. injection Es as <- _. auto.
Qed.

Lemma quiet_run : forall part s cs before rest s' cs' xs, ninv s cs before -> acts = before ++ part ++ rest -> settled s ->
  (forall i c, In (AStep i) part -> nth_error cs i = Some c -> wc_at c <> AtEnter) -> (forall o, In (AOp o) part -> same_libs o) ->
  mrun e s cs part = Ok (s', cs', xs) -> s_p s' = s_p s /\ s_l s' = s_l s.
Proof.
  induction part as [|[i|o] r IH]; intros s cs before rest s' cs' xs J Ha T H1 H2 R; cbn [mrun] in R.
  - injection R as <- <- _. auto.
  - assert (Ha' : acts = (before ++ [AStep i]) ++ r ++ rest) by (rewrite <- app_assoc; exact Ha).
    destruct (nth_error cs i) as [c|] eqn:Hc.
    2:{ apply (IH s cs (before ++ [AStep i]) rest s' cs' xs); auto; [apply (ninv_skip _ _ _ _ J Hc)|intros j d Hj; apply H1; right; exact Hj|intros o Ho; apply H2; right; exact Ho]. }
    iba R as [s1 c1]. destruct (quiet_step s cs before i c s1 c1 J T Hc ltac:(apply (H1 i c (or_introl eq_refl) Hc)) ltac:(assumption)) as (X1 & X2 & X3).
    destruct (IH s1 (upd cs i (fun _ => c1)) (before ++ [AStep i]) rest s' cs' xs) as [Y1 Y2]; auto.
    + eapply ninv_step; eauto.
    + unfold settled, tracked, current. rewrite X1, X2. exact T.
    + intros j d Hj Hd. rewrite nth_upd in Hd. destruct (Nat.eqb_spec j i) as [->|D]; [rewrite Hc in Hd; cbn in Hd; injection Hd as <-; exact X3|]. apply (H1 j d); [right; exact Hj|exact Hd].
    + intros o Ho. apply H2. right. exact Ho.
    + split; congruence.
  - assert (Ha' : acts = (before ++ [AOp o]) ++ r ++ rest) by (rewrite <- app_assoc; exact Ha).
    iba R as [s1 x]. iba R as [z ys]. injection R as -> _. destruct (quiet_side s cs before o s1 x J T (H2 o (or_introl eq_refl)) ltac:(assumption)) as [X1 X2].
    destruct (IH s1 cs (before ++ [AOp o]) rest s' cs' ys) as [Y1 Y2]; auto.
    + eapply ninv_side; [exact J|exact Ha|eassumption].
    + unfold settled, tracked, current. rewrite X1, X2. exact T.
    + intros j d Hj. apply H1. right. exact Hj.
    + intros q Hq. apply H2. right. exact Hq.
    + split; congruence.
Qed.

Lemma after_update s1 x s2 st1 cs1 xs1 st2 cs2 xs2 st3 cs3 xs3 : acts = s1 ++ x :: s2 ->
  mrun e st (about calls) s1 = Ok (st1, cs1, xs1) -> update_act cs1 x -> mrun e st1 cs1 [x] = Ok (st2, cs2, xs2) ->
  (forall i c, In (AStep i) s2 -> nth_error cs2 i = Some c -> wc_at c <> AtEnter) -> (forall o, In (AOp o) s2 -> same_libs o) ->
  mrun e st2 cs2 s2 = Ok (st3, cs3, xs3) -> s_p st3 = s_p st2.
Proof.
  intros Ha R1 U R2 H1 H2 R3. pose proof (ninv_run s1 st (about calls) [] (x :: s2) st1 cs1 xs1 ninv_start Ha R1) as J1. cbn [app] in J1.
  pose proof (ninv_run [x] st1 cs1 s1 s2 st2 cs2 xs2 J1 Ha R2) as J2.
  assert (T : settled st2).
  { destruct x as [i|o]; cbn [update_act mrun] in U, R2.
    - destruct U as (c & Hc & U). rewrite Hc in R2. iba R2 as [s' c']. injection R2 as <- _ _. unfold updates_next in U. destruct (wc_at c) as [|na [|n] b pr|] eqn:Hat; try contradiction.
      eapply leave_settled; [exact J1|exact Hc|exact Hat|exact U|eassumption].
    - subst o. iba R2 as [s' y]. cbn [bind] in R2. injection R2 as <- _ _. eapply finish_settled; [exact J1|eassumption]. }
  apply (quiet_run s2 st2 cs2 (s1 ++ [x]) [] st3 cs3 xs3 J2); auto. rewrite app_nil_r, <- app_assoc. exact Ha.
Qed.
End Hist.
