(** A dlopen after which nothing is left to do: GOTCHA's work at its end changes nothing at all. *)
From Verif Require Import Base ListFacts HashModel HashProofs SpecHash HashTrace ElfModel SpecElf ToolModel CoreModel SpecCore SpecRun SpecSync SpecOnly
  ToolProofs CoreMaps CoreRel CoreLib CoreStep CoreWrap CoreLoop CoreMain CoreEnv CoreSpec CoreFacts CoreHist CoreApi CoreApi2 CoreSync CoreSync2 CoreSync3 CoreApi3 CoreMicro CoreProt CoreTogether.
From Coq Require Import Permutation Sorted.

(** the library has a record *)
Definition tracked (l : lstate) (m : lmap) : Prop := exists i, get_library l m = Ok (Some i).

Lemma tracked_table l l' m : l_table l' = l_table l -> tracked l m -> tracked l' m.
Proof. unfold tracked, get_library. intros ->. auto. Qed.

Lemma track_tracked l m : tracked l m -> exists i, track_library l m = Ok (l, i).
Proof. intros [i H]. unfold track_library. rewrite H. exists i. reflexivity. Qed.

(** the work of update_library_got on the table is that of track_library *)
Lemma got_table e ibs t m rest l p l' p' : update_library_got e ibs t m rest (l, p) = Ok (l', p') ->
  exists l1 i, track_library l m = Ok (l1, i) /\ l_table l' = l_table l1.
Proof.
  unfold update_library_got. intros E. iba E as [l1 i]. exists l1, i. split; [reflexivity|]. ib E. destruct (negb a); [injection E as <- <-; auto|]. ib E.
  destruct (_ =? _); [injection E as <- <-; auto|]. iba E as [heap log1]. ib E. iba E as [mem log2]. injection E as <- <-. reflexivity.
Qed.

(** *** nothing to store *)
Lemma got_same e ibs t m rest l p b : tracked l m -> filter_func (p_filter p) m rest = Ok b ->
  (b = true -> exists i lb, get_library l m = Ok (Some i) /\ nth_error (l_heap l) i = Some lb /\ lb_gen lb = l_gen l) ->
  update_library_got e ibs t m rest (l, p) = Ok (l, p).
Proof.
  intros T F H. unfold update_library_got. destruct T as [i T]. unfold track_library. rewrite T. cbn [bind]. rewrite F. cbn [bind]. destruct b; cbn [negb]; [|reflexivity].
  destruct (H eq_refl) as (j & lb & Ej & El & Eg). assert (j = i) by congruence. subst j. rewrite (deref_Ok _ _ _ El). cbn [bind]. rewrite Eg, Z.eqb_refl. reflexivity.
Qed.

Lemma gots_same e ibs t l p : forall maps, (forall m, In m maps -> tracked l m) ->
  (forall pre m rest, maps = pre ++ m :: rest -> exists b, filter_func (p_filter p) m rest = Ok b /\
     (b = true -> exists i lb, get_library l m = Ok (Some i) /\ nth_error (l_heap l) i = Some lb /\ lb_gen lb = l_gen l)) ->
  update_gots e ibs t maps (l, p) = Ok (l, p).
Proof.
  induction maps as [|m r IH]; intros HT HF; cbn [update_gots]; [reflexivity|].
  destruct (HF [] m r eq_refl) as (b & F & H). rewrite (got_same e ibs t m r l p b); auto; [|apply HT; left; reflexivity]. cbn [bind].
  apply IH; [intros; apply HT; right; auto|]. intros pre m' rest Er. apply (HF (m :: pre) m' rest). rewrite Er. reflexivity.
Qed.

Section Idle.
Context (e : env) (EO : env_ok e).
Notation ex := (exports e).
Notation rl := relocs.
Notation srel := (srel e ex rl False).
Notation lgood := (lgood rl).
Notation ainit := (ainit ins_c ex e).
Notation astep := (astep ins_c ex e).
Notation A maps ops := (fst (arun ins_c ex e (a0 maps) ops)).

(** *** nothing to find *)
Lemma prepare_same l n : forall maps, (forall m, In m maps -> tracked l m) -> (forall m, In m maps -> lib_ok e ex rl m) -> first_export ex maps n = None ->
  prepare_loop e maps n l = Ok (l, None).
Proof.
  induction maps as [|m r IH]; intros HT HL HF; cbn [prepare_loop first_export] in *; [reflexivity|].
  destruct (track_tracked l m (HT m (or_introl eq_refl))) as [i Ei]. rewrite Ei. cbn [bind].
  rewrite (lo_export _ _ _ _ (HL m (or_introl eq_refl)) n). cbn [bind]. destruct (ex m n); [discriminate|]. apply IH; auto; intros; [apply HT|apply HL]; right; auto.
Qed.

Lemma binding_same st a ch k d : srel st a ch [] -> In d (ch k) -> (forall m, In m (a_maps a) -> tracked (s_l st) m) -> first_export ex (a_maps a) k = None ->
  per_binding e (Some k) (Some d) st = Ok (st, 0).
Proof.
  intros S Hd HT HF. pose proof (sr_b _ _ _ _ _ _ _ _ S) as R. unfold per_binding.
  destruct (in_split _ _ Hd) as (l1 & l2 & Ec).
  pose proof (br_chain _ _ _ _ _ R k) as HL. rewrite Ec in HL at 2. apply lseg_app in HL. destruct HL as (m & _ & HL).
  assert (m = Some d) by (cbn in HL; tauto). subst m.
  destruct (innermost_spec (b_ib (s_b st)) l2 d (Datatypes.S (length (b_ib (s_b st)))) HL) as (l' & b & A & B).
  { pose proof (chain_fuel _ _ _ _ _ _ _ _ k S) as H. rewrite Ec, app_length in H. cbn in H. lia. }
  rewrite B. cbn [bind].
  assert (Hb : In b (ch k)) by (rewrite Ec, A; apply in_or_app; right; apply in_or_app; right; left; reflexivity).
  pose proof (br_name _ _ _ _ _ R _ _ Hb) as Hn. unfold name_of in Hn.
  destruct (nth_error (b_ib (s_b st)) b) as [ib|] eqn:Eib; [|discriminate]. cbn in Hn. injection Hn as Hn.
  unfold prepare_symbol. rewrite (deref_Ok _ _ _ Eib). cbn [bind]. rewrite Hn, (sr_maps _ _ _ _ _ _ _ _ S).
  rewrite (prepare_same (s_l st) k (a_maps a) HT (sr_lib _ _ _ _ _ _ _ _ S) HF). cbn [bind]. destruct st; reflexivity.
Qed.

Lemma foreach_same st a ch : srel st a ch [] -> (forall m, In m (a_maps a) -> tracked (s_l st) m) ->
  (forall n, a_stack a n <> [] -> a_orig a n = None -> first_export ex (a_maps a) n = None) ->
  foreach_hash_entry (fun s => b_nf (s_b s)) (per_binding e) st = Ok (st, 0).
Proof.
  intros S HT HN. destruct (sr_nf _ _ _ _ _ _ _ _ S) as (g & (l & c & I & KI & ND & Eg) & G2 & G3).
  set (Q := fun (s : state) (kept rest : list (cstr * nat)) => s = st /\ forall k d, In (k, d) rest -> In (k, d) c).
  unfold foreach_hash_entry. rewrite (inv_head _ _ _ _ _ I).
  destruct (foreach_del anyk strhash libc_strcmp (strcmp_cmp_ok _ _) (fun s => b_nf (s_b s)) (per_binding e) Q) with (rest := c) (lr := l) (kept := @nil (cstr * nat)) (lk := @nil nat) (s := st) (fuel := length (ht_table (b_nf (s_b st))))
    as (st' & kept' & l' & E & _ & [-> _] & _); auto.
  - intros s kept k d rest [-> Hin] _. exists st.
    assert (Hg : g k = Some d) by (rewrite <- Eg; apply (aget_In cstr_eqb cstr_eqb_ok c k d ND); apply Hin; left; reflexivity).
    split; [|left; split; [reflexivity|]; split; [reflexivity|]; intros; apply Hin; right; auto].
    apply (binding_same st a ch k d S (G2 _ _ Hg) HT).
    assert (Hne : ~ (a_stack a k = [] \/ a_orig a k <> None)) by (intros H; apply G3 in H; congruence).
    apply HN; [tauto|]. destruct (a_orig a k); [exfalso; apply Hne; right; discriminate|reflexivity].
  - split; auto.
  - exact (Forall2_length _ _ _ (inv_cont _ _ _ _ _ I)).
  - rewrite <- (Forall2_length _ _ _ (inv_cont _ _ _ _ _ I)). exact (l_le_table _ _ I).
Qed.

Lemma finish_same st a ch : srel st a ch [] -> (forall m, In m (a_maps a) -> tracked (s_l st) m) ->
  (forall n, a_stack a n <> [] -> a_orig a n = None -> first_export ex (a_maps a) n = None) ->
  (forall m, accepted (p_filter (s_p st)) (p_maps (s_p st)) m -> current st m) ->
  dlopen_finish e st = Ok st.
Proof.
  intros S HT HN HC. unfold dlopen_finish. rewrite (foreach_same st a ch S HT HN). cbn [bind]. unfold update_all_library_gots.
  rewrite (gots_same e _ _ (s_l st) (s_p st)).
  - cbn [bind]. destruct st; reflexivity.
  - rewrite (sr_maps _ _ _ _ _ _ _ _ S). exact HT.
  - intros pre m rest Em. destruct (filter_ok e ex rl m (p_filter (s_p st)) rest) as [b Eb].
    { apply (sr_lib _ _ _ _ _ _ _ _ S). rewrite <- (sr_maps _ _ _ _ _ _ _ _ S), Em. apply in_elt. }
    exists b. split; [exact Eb|]. intros ->. apply HC. exists pre, rest. auto.
Qed.

(** *** after a dlopen every library is tracked, and the accepted ones count as up to date *)
Section All.
Context (all : list lmap) (HND : apart all).
Context (HL : forall m, In m all -> lib_ok e ex rl m).

Lemma tracked_linv l f m : linv all l f -> In m all -> tracked l m <-> f (key_of m) <> None.
Proof.
  intros L Hm. unfold tracked, get_library. rewrite (kmap_lookup _ _ _ (lcmp_ok all HND) _ lkey_eqb_ok _ _ _ (li_map _ _ _ L) (lkeys_of all m Hm)). split.
  - intros [i H]. congruence.
  - destruct (f (key_of m)) as [i|]; [eauto|congruence].
Qed.

Lemma gots_track ibs t : forall maps l f p l' p', (forall m, In m maps -> In m all) -> linv all l f -> 0 <= l_gen l ->
  update_gots e ibs t maps (l, p) = Ok (l', p') ->
  (forall m, In m all -> tracked l m -> tracked l' m) /\ forall m, In m maps -> tracked l' m.
Proof.
  induction maps as [|y r IH]; intros l f p l' p' Hin L Hg E; cbn [update_gots] in E.
  { injection E as <- <-. split; [auto|intros m []]. }
  destruct (update_library_got e ibs t y r (l, p)) as [[l1 p1]|] eqn:E1; [|discriminate]. cbn [bind] in E.
  assert (Hy : In y all) by (apply Hin; left; reflexivity).
  destruct (got_table _ _ _ _ _ _ _ _ _ E1) as (l2 & i & E2 & T2).
  destruct (track_exact all HND l f y L Hy Hg) as (l3 & j & f3 & E3 & L3 & G3 & F3 & _ & K3). assert (l3 = l2) by congruence. subst l3.
  destruct (update_got_linv e all HND ibs t y r l f p l1 p1 Hy L Hg E1) as (f1 & L1 & G1 & _).
  destruct (IH l1 f1 p1 l' p') as [I1 I2]; auto; [intros; apply Hin; right; auto|lia|].
  assert (M : forall m, In m all -> f3 (key_of m) <> None -> tracked l' m).
  { intros m Hm H. apply I1; [auto|]. apply (tracked_table l2); [auto|]. apply (tracked_linv _ _ _ L3 Hm). exact H. }
  split.
  - intros m Hm H. apply (tracked_linv _ _ _ L Hm) in H. apply M; [auto|]. destruct (f (key_of m)) as [k|] eqn:Ek; [|congruence]. rewrite (K3 _ _ Ek). discriminate.
  - intros m [<-|Hm]; [|auto]. apply M; [auto|]. rewrite F3. discriminate.
Qed.

Lemma finish_settles st a ch {todo} f st' : srel st a ch todo -> lgood all st f -> 1 <= l_gen (s_l st) -> dlopen_finish e st = Ok st' ->
  (forall m, In m (p_maps (s_p st)) -> tracked (s_l st') m) /\ forall m, accepted (p_filter (s_p st)) (p_maps (s_p st)) m -> current st' m.
Proof.
  intros S Y HG E.
  destruct (finish_good e ex rl all HND HL st a ch f S Y) as (st2 & f2 & E2 & S2 & Y2 & G2 & _). rewrite E in E2. injection E2 as <-.
  unfold dlopen_finish in E. destruct (resolve_loop e ex rl False st a ch S) as (st1 & E1 & S1 & P1 & T1 & _). rewrite E1 in E. cbn [bind] in E.
  pose proof Y as [Y1 Yi Ynd _ Yg]. destruct (tracks_exact all HND _ _ _ T1 Yi f Y1 Yg) as (f1 & L1 & G1 & GO1).
  unfold update_all_library_gots in E. destruct (update_gots e _ _ _ _) as [[l' p']|] eqn:EG; [|discriminate]. cbn [bind] in E. injection E as <-. cbn [s_l s_p set_p set_l] in *.
  rewrite P1 in EG. split.
  - destruct (gots_track _ _ _ _ f1 _ _ _ Yi L1 ltac:(lia) EG) as [_ H]. exact H.
  - intros m Ha. destruct (gots_freeze e all HND _ _ _ _ f1 _ _ _ Yi Ynd L1 ltac:(lia) EG) as (f3 & L3 & G3 & _ & H). specialize (H m Ha).
    assert (Hm : In m all) by (apply Yi; eapply accepted_in; eauto).
    apply (current_gen all HND _ f2 m Y2 Hm); cbn [s_l set_p set_l]; [lia|].
    rewrite (genof_unique all HND l' f2 f3 m (lg_l _ _ _ _ Y2) L3 Hm). congruence.
Qed.
End All.

(** *** operations in between *)
Lemma idle_l st o st' r : s_init st = true -> idle o -> step e st o = Ok (st', r) -> s_l st' = s_l st /\ s_init st' = true.
Proof.
  intros HI Ho E. destruct o as [| t v|t|fl|libs mm| |keep mm]; try destruct Ho; cbn [step] in E.
  - unfold gotcha_set_priority, api_init, gotcha_init in E. rewrite HI in E. cbn [bind] in E. destruct (set_priority_int _ _ _ _) as [ts|]; [|discriminate]. cbn [bind] in E. injection E as <- _. auto.
  - unfold gotcha_get_priority, api_init, gotcha_init in E. rewrite HI in E. cbn [bind] in E. destruct (get_configuration_value _ _) as [[c v]|]; [|discriminate]. cbn [bind] in E. injection E as <- _. auto.
  - injection E as <- _. auto.
  - injection E as <- _. auto.
  - injection E as <- _. auto.
Qed.
Lemma idle_run ops : forall st st' rs, s_init st = true -> Forall idle ops -> run e st ops = Ok (st', rs) -> s_l st' = s_l st.
Proof.
  induction ops as [|o r IH]; intros st st' rs HI HF E; cbn [run] in E; [injection E as <- _; auto|].
  inversion HF; subst. iba E as [st1 x]. iba E as [st2 xs]. injection E as <- _.
  destruct (idle_l _ _ _ _ HI H1 B) as [A1 A2]. rewrite (IH _ _ _ A2 H2 B0). exact A1.
Qed.
Lemma idle_abs ops : forall a, a_init a = true -> Forall idle ops ->
  let a' := fst (arun ins_c ex e a ops) in a_stack a' = a_stack a /\ a_orig a' = a_orig a.
Proof.
  induction ops as [|o r IH]; intros a HI HF; cbn [arun]; [auto|]. inversion HF; subst.
  assert (H : a_init (fst (astep a o)) = true /\ a_stack (fst (astep a o)) = a_stack a /\ a_orig (fst (astep a o)) = a_orig a).
  { destruct o; try destruct H1; cbn [SpecCore.astep fst a_init a_stack a_orig]; auto; unfold SpecCore.ainit; rewrite HI; auto. }
  destruct (astep a o) as [a1 x]. cbn [fst] in H. destruct H as (A1 & A2 & A3). specialize (IH a1 A1 H2). cbv zeta in IH.
  destruct (arun ins_c ex e a1 r) as [a2 xs]. cbn [fst] in *. destruct IH. split; congruence.
Qed.

Lemma first_export_incl maps maps' n : incl maps' maps -> first_export ex maps n = None -> first_export ex maps' n = None.
Proof.
  intros HI H. assert (HN : forall m, In m maps -> ex m n = None).
  { clear HI. induction maps as [|y r IH]; intros m Hm; [destruct Hm|]. cbn [first_export] in H. destruct (ex y n) eqn:Ey; [discriminate|]. destruct Hm as [<-|Hm]; auto. }
  clear H. induction maps' as [|y r IH]; cbn [first_export]; [reflexivity|]. rewrite (HN y (HI y (or_introl eq_refl))). apply IH. intros z Hz. apply HI. right. auto.
Qed.

Lemma idle_finish maps mem ops mid st rs : process_ok e maps (ops ++ [OFinish] ++ mid) -> calm maps (ops ++ [OFinish] ++ mid) ->
  existsb is_api ops = true -> Forall idle mid -> incl (maps_after maps (ops ++ mid)) (maps_after maps ops) ->
  (forall m, accepted (last_filter (ops ++ mid)) (maps_after maps (ops ++ mid)) m -> accepted (last_filter ops) (maps_after maps ops) m) ->
  run e (init_state maps mem) (ops ++ [OFinish] ++ mid) = Ok (st, rs) ->
  step e st OFinish = Ok (st, RNone).
Proof.
  intros P T HA HF HI HAcc E. pose proof P as P1. rewrite app_assoc in P1. apply process_app in P1. pose proof T as T1. rewrite app_assoc in T1. apply calm_app in T1.
  pose proof (process_app _ _ _ _ P) as P0. pose proof (calm_app _ _ _ T) as T0.
  assert (EM : maps_after maps (ops ++ [OFinish] ++ mid) = maps_after maps (ops ++ mid)) by (rewrite !maps_after_app; reflexivity).
  pose proof E as E'. rewrite run_app in E'. destruct (run e (init_state maps mem) ops) as [[st0 rs0]|] eqn:E0; [|discriminate E']. cbn [bind app run] in E'.
  destruct (step e st0 OFinish) as [[st1 r1]|] eqn:Es; [|discriminate E']. cbn [bind] in E'.
  destruct (run e st1 mid) as [[st2 rs2]|] eqn:E2; [|discriminate E']. cbn [bind] in E'. injection E' as -> _.
  assert (I0 : s_init st0 = true) by (rewrite (state_init e maps mem ops st0 rs0 P0 E0); auto).
  destruct (hist_good e EO maps mem ops st0 rs0 P0 T0 E0) as [IP|(ch & f & S & Y & G)]; [pose proof (pr_i _ _ _ _ _ IP); congruence|].
  destruct (reach e maps mem ops st0 rs0 P0 E0) as (_ & M0 & F0 & _).
  pose proof Es as Es'. cbn [step] in Es'. rewrite I0 in Es'. destruct (dlopen_finish e st0) as [st1'|] eqn:Ef; [|discriminate Es']. cbn [bind] in Es'. injection Es' as -> <-.
  assert (HL0 : forall m, In m (seen maps ops) -> lib_ok e ex rl m) by (intros m Hm; eapply seen_ok; eauto).
  destruct (finish_settles (seen maps ops) (cm_libs _ _ T0) HL0 st0 _ ch f st1 S Y ltac:(lia) Ef) as [HT HC]. rewrite M0, F0 in *.
  assert (I1 : s_init st1 = true).
  { destruct (finish_spec e ex rl False st0 _ ch S) as (x & Ex & Sx & _). assert (x = st1) by congruence. subst x. apply (sr_init _ _ _ _ _ _ _ _ Sx). }
  pose proof (idle_run mid st1 st rs2 I1 HF E2) as EL.
  destruct (hist_good e EO maps mem _ st rs P T E) as [IP|(ch2 & f2 & S2 & Y2 & G2)].
  { pose proof (pr_i _ _ _ _ _ IP). rewrite (state_init e maps mem _ st rs P E) in H. rewrite existsb_app, HA in H. discriminate. }
  destruct (reach e maps mem _ st rs P E) as (_ & M2 & F2 & _). rewrite EM in M2.
  assert (EF : last_filter (ops ++ [OFinish] ++ mid) = last_filter (ops ++ mid)) by (unfold last_filter; rewrite !fold_left_app; reflexivity). rewrite EF in F2.
  assert (AM : a_maps (A maps (ops ++ [OFinish] ++ mid)) = maps_after maps (ops ++ mid)) by (rewrite <- (sr_maps _ _ _ _ _ _ _ _ S2); exact M2).
  cbn [step]. rewrite (sr_init _ _ _ _ _ _ _ _ S2). rewrite (finish_same st _ ch2 S2); [reflexivity| | |].
  - intros m Hm. rewrite AM in Hm. apply (tracked_table (s_l st1)); [congruence|]. apply HT, HI. exact Hm.
  - intros n. rewrite AM. rewrite app_assoc, arun_app. cbn [fst]. rewrite A_snoc. cbn [SpecCore.astep fst].
    pose proof (sr_ainit _ _ _ _ _ _ _ _ S) as AI. rewrite AI.
    destruct (idle_abs mid (aresolve ex (A maps ops)) AI HF) as [B1 B2]. rewrite B1, B2. cbn [aresolve a_stack a_orig]. intros Hs Ho.
    destruct (a_orig (A maps ops) n); [discriminate Ho|]. destruct (a_stack (A maps ops) n); [congruence|].
    rewrite <- (sr_maps _ _ _ _ _ _ _ _ S), M0 in Ho. eapply first_export_incl; [exact HI|exact Ho].
  - intros m. rewrite F2, M2. intros Ha. apply (current_same st1 st m EL). auto.
Qed.
End Idle.
