(** gotcha_wrap of main for the first time, together with other functions: the nested calls for main mark every
    library as up to date, and the rewriting of the outer call skips them all. *)
From Verif Require Import Base ListFacts HashModel HashProofs SpecHash HashTrace ElfModel SpecElf ToolModel CoreModel SpecCore SpecRun SpecSync
  ToolProofs CoreMaps CoreRel CoreLib CoreStep CoreWrap CoreLoop CoreMain CoreEnv CoreSpec CoreFacts CoreHist CoreApi CoreApi2 CoreSync CoreSync2 CoreSync3 CoreApi3.
From Coq Require Import Permutation Sorted.

Section Together.
Context (e : env) (EO : env_ok e).
Notation ex := (exports e).
Notation rl := relocs.
Notation abind := (abind ins_c ex).
Notation abinds := (abinds ins_c ex).
Notation amain := (amain ins_c ex e).
Notation abinds_user := (abinds_user ins_c ex e).
Notation ainit := (ainit ins_c ex e).
Notation srel := (srel e ex rl False).
Notation prel := (prel e ex rl).
Notation lgood := (lgood rl).
Let Hps := eo_ps e EO.

Section All.
Context (all : list lmap) (HND : apart all).
Context (HL : forall m, In m all -> lib_ok e ex rl m).

Lemma genof_unique l f f' m : linv all l f -> linv all l f' -> In m all -> genof l f m = genof l f' m.
Proof.
  intros L L' Hm. pose proof (kmap_lookup _ _ _ (lcmp_ok all HND) _ lkey_eqb_ok _ _ _ (li_map _ _ _ L) (lkeys_of all m Hm)) as H.
  pose proof (kmap_lookup _ _ _ (lcmp_ok all HND) _ lkey_eqb_ok _ _ _ (li_map _ _ _ L') (lkeys_of all m Hm)) as H'.
  unfold genof. replace (f' (key_of m)) with (f (key_of m)) by congruence. reflexivity.
Qed.

(** *** rewriting marks the accepted libraries *)
Lemma got_freezes ibs t m rest l f p l' p' : In m all -> linv all l f -> 0 <= l_gen l -> update_library_got e ibs t m rest (l, p) = Ok (l', p') ->
  exists f', linv all l' f' /\ l_gen l' = l_gen l /\ p_filter p' = p_filter p /\
    (forall m', In m' all -> key_of m' <> key_of m -> genof l' f' m' = genof l f m') /\
    (filter_func (p_filter p) m rest = Ok true -> genof l' f' m = l_gen l).
Proof.
  intros Hm L Hg E. destruct (update_got_linv e all HND ibs t m rest l f p l' p' Hm L Hg E) as (f' & L' & G' & _ & F').
  unfold update_library_got in E. destruct (track_exact all HND l f m L Hm Hg) as (l1 & i & f1 & E1 & L1 & G1 & Fi & GO & _). rewrite E1 in E. cbn [bind] in E.
  exists f'. split; [auto|]. split; [auto|]. split; [auto|].
  destruct (filter_func (p_filter p) m rest) as [acc|]; [|discriminate]. cbn [bind] in E. destruct acc; cbn [negb] in E.
  2:{ injection E as <- <-. split; [|discriminate]. intros m' Hm' _. rewrite <- GO. apply genof_unique; auto. }
  destruct (li_rec _ _ _ L1 _ _ Fi) as (lb & Elb & Emap). rewrite (deref_Ok _ _ _ Elb) in E. cbn [bind] in E.
  destruct (Z.eqb_spec (lb_gen lb) (l_gen l1)) as [Eg|Ng].
  { injection E as <- <-. split; [intros m' Hm' _; rewrite <- GO; apply genof_unique; auto|]. intros _. rewrite (genof_unique _ f' f1 m L' L1 Hm). unfold genof. rewrite Fi, Elb. congruence. }
  destruct (if lb_writable lb then _ else _) as [[heap prot]|] eqn:HP in E; [|discriminate]. cbn [bind] in E.
  assert (Hheap : forall j x, nth_error (l_heap l1) j = Some x -> exists x', nth_error heap j = Some x' /\ lb_gen x' = lb_gen x).
  { destruct (lb_writable lb); [injection HP as <- _; eauto|]. destruct (mark_got_writable _ _ _) as [calls|]; [|discriminate]. cbn [bind] in HP. injection HP as <- _.
    intros j x Hx. rewrite nth_error_upd. destruct (Nat.eqb i j) eqn:E2; [|eauto]. rewrite Hx. cbn. eexists. split; reflexivity. }
  destruct (for_each_pltrel m) as [rels|]; [|discriminate]. cbn [bind] in E.
  destruct (match rels with None => _ | Some _ => _ end) as [[mem log]|] in E; [|discriminate]. cbn [bind] in E. injection E as <- <-.
  assert (Ft : forall m', In m' all -> f' (key_of m') = f1 (key_of m')).
  { intros m' Hm'. pose proof (kmap_lookup _ _ _ (lcmp_ok all HND) _ lkey_eqb_ok _ _ _ (li_map _ _ _ L') (lkeys_of all m' Hm')) as H. cbn [l_table] in H.
    pose proof (kmap_lookup _ _ _ (lcmp_ok all HND) _ lkey_eqb_ok _ _ _ (li_map _ _ _ L1) (lkeys_of all m' Hm')) as H'. congruence. }
  split.
  - intros m' Hm' D. rewrite <- GO. unfold genof. cbn [l_heap]. rewrite (Ft m' Hm'). destruct (f1 (key_of m')) as [j|] eqn:Ej; [|reflexivity].
    destruct (li_rec _ _ _ L1 _ _ Ej) as (x & Hx & _). destruct (Hheap _ _ Hx) as (x' & Hx' & Hgx).
    assert (Hij : i <> j). { intros ->. apply D. eapply (li_inj _ _ _ L1); eauto. }
    rewrite nth_error_upd, (proj2 (Nat.eqb_neq i j) Hij), Hx', Hx. exact Hgx.
  - intros _. unfold genof. cbn [l_heap]. rewrite (Ft m Hm), Fi, nth_error_upd, Nat.eqb_refl. destruct (Hheap _ _ Elb) as (x' & Hx' & _). rewrite Hx'. cbn. exact G1.
Qed.

Lemma gots_freeze ibs t : forall maps l f p l' p', (forall m, In m maps -> In m all) -> NoDup (map key_of maps) -> linv all l f -> 0 <= l_gen l ->
  update_gots e ibs t maps (l, p) = Ok (l', p') ->
  exists f', linv all l' f' /\ l_gen l' = l_gen l /\ (forall m, In m all -> ~ In (key_of m) (map key_of maps) -> genof l' f' m = genof l f m) /\
    forall m, accepted (p_filter p) maps m -> genof l' f' m = l_gen l.
Proof.
  induction maps as [|m r IH]; intros l f p l' p' Hin Hnd L Hg E; cbn [update_gots] in E.
  { injection E as <- <-. exists f. split; [auto|]. split; [auto|]. split; [auto|]. intros m (pre & rest & H & _). destruct pre; discriminate. }
  inversion Hnd as [|? ? Hmr Hndr]; subst.
  destruct (update_library_got e ibs t m r (l, p)) as [[l1 p1]|] eqn:E1; [|discriminate]. cbn [bind] in E.
  destruct (got_freezes ibs t m r l f p l1 p1 (Hin m (or_introl eq_refl)) L Hg E1) as (f1 & L1 & G1 & F1 & O1 & A1).
  destruct (IH l1 f1 p1 l' p') as (f2 & L2 & G2 & O2 & A2); auto; [intros; apply Hin; right; auto|lia|].
  exists f2. split; [auto|]. split; [congruence|]. split.
  - intros m' Hm' Hn. rewrite O2; [apply O1|auto|]; auto; [intros Ek|intros H]; apply Hn; [left|right]; auto.
  - intros m' (pre & rest & Es & Ef). destruct pre as [|y pre]; cbn in Es; injection Es as -> ->.
    + rewrite O2; auto. apply Hin. left. auto.
    + rewrite A2; [auto|]. exists pre, rest. rewrite F1. auto.
Qed.

(** every accepted library is marked *)
Definition frozen (st : state) (f : lkey -> option nat) : Prop :=
  forall m, accepted (p_filter (s_p st)) (p_maps (s_p st)) m -> genof (s_l st) f m = l_gen (s_l st).

Lemma got_frozen ibs t m rest l f p : In m all -> linv all l f -> 0 <= l_gen l -> (filter_func (p_filter p) m rest = Ok true -> genof l f m = l_gen l) ->
  exists l' f', update_library_got e ibs t m rest (l, p) = Ok (l', p) /\ linv all l' f' /\ l_gen l' = l_gen l /\ forall m', genof l' f' m' = genof l f m'.
Proof.
  intros Hm L Hg Hfz. unfold update_library_got. destruct (track_exact all HND l f m L Hm Hg) as (l1 & i & f1 & E1 & L1 & G1 & Fi & GO & _). rewrite E1. cbn [bind].
  destruct (filter_ok e ex rl m (p_filter p) rest (HL m Hm)) as [acc Ea]. rewrite Ea in *. cbn [bind]. exists l1, f1.
  destruct acc; cbn [negb]; [|split; [reflexivity|auto]].
  destruct (li_rec _ _ _ L1 _ _ Fi) as (lb & Elb & _). rewrite (deref_Ok _ _ _ Elb). cbn [bind].
  assert (Eg : lb_gen lb = l_gen l1). { specialize (GO m). unfold genof in GO at 1. rewrite Fi, Elb in GO. rewrite GO, G1. auto. }
  rewrite Eg, Z.eqb_refl. split; [reflexivity|auto].
Qed.

Lemma gots_frozen ibs t : forall maps l f p, (forall m, In m maps -> In m all) -> linv all l f -> 0 <= l_gen l ->
  (forall m, accepted (p_filter p) maps m -> genof l f m = l_gen l) ->
  exists l' f', update_gots e ibs t maps (l, p) = Ok (l', p) /\ linv all l' f' /\ l_gen l' = l_gen l /\ forall m', genof l' f' m' = genof l f m'.
Proof.
  induction maps as [|m r IH]; intros l f p Hin L Hg Hfz; cbn [update_gots]; [eauto 6|].
  destruct (got_frozen ibs t m r l f p (Hin m (or_introl eq_refl)) L Hg) as (l1 & f1 & E1 & L1 & G1 & GO).
  { intros Ha. apply Hfz. exists [], r. auto. }
  rewrite E1. cbn [bind]. destruct (IH l1 f1 p) as (l2 & f2 & E2 & L2 & G2 & GO2); auto; [intros; apply Hin; right; auto|lia| |].
  { intros m' (pre & rest & Es & Ef). rewrite GO, G1. apply Hfz. exists (m :: pre), rest. subst r. auto. }
  exists l2, f2. split; [auto|]. split; [auto|]. split; [congruence|]. intros m'. rewrite GO2. auto.
Qed.

(** slots of other functions *)
Definition kept (N : list cstr) (st st' : state) : Prop :=
  p_maps (s_p st') = p_maps (s_p st) /\ p_filter (s_p st') = p_filter (s_p st) /\
  forall m n x, In m (p_maps (s_p st)) -> slot rl m n x -> ~ In n N -> p_mem (s_p st') x = p_mem (s_p st) x.
Lemma kept_trans N st1 st2 st3 : kept N st1 st2 -> kept N st2 st3 -> kept N st1 st3.
Proof.
  intros (A & B & C) (A' & B' & C'). split; [congruence|]. split; [congruence|]. intros m n x Hm Hs Hn. rewrite (C' m n x); auto; [eapply C; eauto|]. rewrite A. auto.
Qed.
Lemma kept_same N st st' : s_p st' = s_p st -> kept N st st'.
Proof. intros E. split; [congruence|]. split; [congruence|]. intros. congruence. Qed.
Lemma kept_mono N N' st st' : incl N N' -> kept N st st' -> kept N' st st'.
Proof. intros H (A & B & C). split; [auto|]. split; [auto|]. intros m n x Hm Hs Hn. eapply C; eauto. Qed.

(** a call that does not wrap main for the first time *)
Lemma stack_grows t ubs : forall a n, a_stack a n <> [] -> a_stack (fst (abinds a t ubs)) n <> [].
Proof.
  induction ubs as [|u r IH]; intros a n H; cbn [SpecCore.abinds]; [auto|].
  assert (H1 : a_stack (fst (abind a t u)) n <> []).
  { rewrite (abind_stack_gen ex ins_c). unfold cupd. destruct (cstr_eqb n (ub_name u)) eqn:Eq; [|auto]. apply ins_c_ne. }
  destruct (abind a t u) as [a1 f1]. cbn [fst] in *. specialize (IH a1 n H1). destruct (abinds a1 t r). exact IH.
Qed.
Lemma stack_bound t ubs : forall a u, In u ubs -> a_stack (fst (abinds a t ubs)) (ub_name u) <> [].
Proof.
  induction ubs as [|v r IH]; intros a u Hu; [destruct Hu|]. destruct Hu as [->|H]; cbn [SpecCore.abinds].
  - assert (H1 : a_stack (fst (abind a t u)) (ub_name u) <> []).
    { rewrite (abind_stack_gen ex ins_c), cupd_eq. apply ins_c_ne. }
    destruct (abind a t u) as [a1 f1]. cbn [fst] in *. pose proof (stack_grows t r a1 _ H1). destruct (abinds a1 t r). auto.
  - destruct (abind a t v) as [a1 f1]. specialize (IH a1 u H). destruct (abinds a1 t r). auto.
Qed.

Lemma wrap_tool_kept rec st a ch todo ubs tool f : srel st a ch todo -> plain a ubs -> lgood all st f -> l_gen (s_l st) < two32 - 1 ->
  let r := abinds (ause a (tool_of tool)) (tool_of tool) ubs in
  exists st' ch' c f', wrap_tool e rec st ubs tool = Ok (st', c) /\ srel st' (fst r) ch' todo /\ lgood all st' f' /\ bext (s_b st) (s_b st') /\
    l_gen (s_l st') = l_gen (s_l st) + 1 /\ kept (map ub_name ubs) st st' /\
    ((exists u, In u ubs /\ a_stack a (ub_name u) = []) -> frozen st' f').
Proof.
  intros S Hpl Y Hg r. destruct Y as [Y1 Y2 Y3 Y4 Y5]. set (t := tool_of tool) in *.
  destruct (wrap_tool_enter e ex rl EO rec st a ch todo ubs tool S) as (st1 & EW & S1 & B1 & P1 & L1 & Hent). rewrite (EW _ eq_refl). clear EW. fold t in S1, Hent.
  rewrite (u32_gen _ (conj Y5 Hg)) in L1.
  destruct (Nat.eq_dec (length ubs) 0) as [E0|E0].
  { destruct ubs; [|discriminate]. cbn [length wrap_loop bind pr_new pr_not_found]. exists st1, ch, GOTCHA_SUCCESS, f. split; [reflexivity|]. split; [exact S1|].
    split; [|split; [auto|split; [rewrite L1; auto|split; [apply kept_same; auto|intros (u & [] & _)]]]].
    constructor; rewrite ?P1, ?L1; auto; cbn [l_gen]; [apply linv_gen; [auto|lia]|lia]. }
  destruct (wrap_loop_sync e ex rl EO rec t (map ub_name ubs) (Z.of_nat (length ubs)) ch ltac:(lia) ubs st1 (ause a t) ch todo _ (mkPr 0 None) S1 Hent) as (st2 & ch2 & pr2 & EL & S2 & P2 & T2 & B2 & N2).
  { destruct Hpl as [H|H]; [left; auto|right; auto]. }
  { intros u Hu. apply in_map. exact Hu. }
  { exists (fun _ => None). cbn. split; [auto|]. split; [congruence|auto]. }
  fold r in S2. rewrite EL. cbn [bind]. destruct N2 as (tf & Htf & Hdom & Hhd).
  assert (Hin1 : forall m, In m (p_maps (s_p st1)) -> In m all) by (rewrite P1; auto).
  destruct (tracks_exact all HND _ _ _ T2 Hin1 f) as (f2 & L2 & G2 & GO2); [rewrite L1; apply linv_gen; [auto|lia]|rewrite L1; cbn; lia|].
  rewrite L1 in G2. cbn [l_gen] in G2.
  assert (Hbx : bext (s_b st) (s_b st2)) by (eapply bext_trans; eauto).
  assert (Y : lgood all st2 f2) by (constructor; rewrite ?P2, ?P1; auto; lia).
  destruct (pr_new pr2) as [nt|].
  - destruct (update_good e ex rl all HND HL st2 (fst r) ch2 todo f2 nt tf S2 Htf) as (st3 & f3 & EU & S3 & Y3' & B3 & G3 & PM3 & PF3 & U1 & U2); auto.
    + intros n b Hn. specialize (Hhd n). rewrite Hn in Hhd. apply Hhd.
    + rewrite EU. cbn [bind]. eexists st3, ch2, _, f3. split; [reflexivity|]. split; [auto|]. split; [auto|]. split; [eapply bext_trans; eauto|].
      split; [congruence|]. split.
      * rewrite P2, P1 in PM3, PF3, U2. split; [auto|]. split; [auto|]. intros m n x Hm Hs Hn. eapply U2; eauto.
        destruct (tf n) eqn:En; [|reflexivity]. exfalso. apply Hn. apply Hdom. congruence.
      * intros _ m Ha. unfold update_all_library_gots in EU. destruct (update_gots e _ nt _ _) as [[l' p']|] eqn:EG; [|discriminate]. cbn [bind] in EU. injection EU as <-.
        destruct Y as [Q1 Q2 Q3 Q4 Q5]. destruct (gots_freeze _ nt _ _ f2 _ _ _ Q2 Q3 Q1 Q5 EG) as (f4 & L4 & G4 & _ & A4).
        cbn [s_l s_p set_p set_l] in *. rewrite PM3, PF3 in Ha. pose proof (lg_l _ _ _ _ Y3') as L3. cbn [s_l set_p set_l] in L3. rewrite (genof_unique l' f3 f4 m L3 L4 (Q2 m (accepted_in _ _ _ Ha))). rewrite (A4 m Ha). congruence.
  - cbn [bind]. eexists st2, ch2, _, f2. split; [reflexivity|]. split; [auto|]. split; [auto|]. split; [auto|]. split; [auto|].
    split; [apply kept_same; congruence|]. intros (u & Hu & Hs). exfalso.
    pose proof (stack_bound t ubs (ause a t) u Hu) as Hb. fold r in Hb. apply Hb.
    pose proof (Hhd (ub_name u)) as H. rewrite Htf in H.
    pose proof (br_stack _ _ _ _ _ (sr_b _ _ _ _ _ _ _ _ S) (ub_name u)) as F0. rewrite Hs in F0. inversion F0 as [E1|]. rewrite <- E1 in H.
    pose proof (br_stack _ _ _ _ _ (sr_b _ _ _ _ _ _ _ _ S2) (ub_name u)) as F2. destruct (ch2 (ub_name u)); [inversion F2; auto|discriminate].
Qed.

Lemma wrap_body_kept rec st a ch todo ubs tool f : srel st a ch todo -> plain a ubs -> lgood all st f -> l_gen (s_l st) < two32 - 1 ->
  let r := abinds (ause a (tool_of tool)) (tool_of tool) ubs in
  exists st' ch' c f', wrap_body e rec st ubs tool = Ok (st', c) /\ srel st' (fst r) ch' todo /\ lgood all st' f' /\ bext (s_b st) (s_b st') /\
    l_gen (s_l st') = l_gen (s_l st) + 1 /\ kept (map ub_name ubs) st st' /\
    ((exists u, In u ubs /\ a_stack a (ub_name u) = []) -> frozen st' f').
Proof.
  intros S. unfold wrap_body, gotcha_init. rewrite (sr_init _ _ _ _ _ _ _ _ S). cbn [bind]. apply (wrap_tool_kept rec st a ch todo ubs tool f S).
Qed.

Definition own_names : list cstr := [n_libc_start_main; n_main].
Lemma stack_other t ubs n : forall a, (forall u, In u ubs -> ub_name u <> n) -> a_stack (fst (abinds a t ubs)) n = a_stack a n.
Proof.
  induction ubs as [|u r IH]; intros a H; cbn [SpecCore.abinds]; [auto|].
  assert (H1 : a_stack (fst (abind a t u)) n = a_stack a n).
  { rewrite (abind_stack_gen ex ins_c), cupd_neq; [auto|]. intros ->. apply (H u); auto. left. auto. }
  destruct (abind a t u) as [a1 f1]. cbn [fst] in *. rewrite <- H1. specialize (IH a1 (fun v Hv => H v (or_intror Hv))). destruct (abinds a1 t r). exact IH.
Qed.

Lemma wrap_main_freezes rec st a ch todo f : srel st a ch todo -> a_main a = false -> a_stack a n_main = [] -> lgood all st f -> l_gen (s_l st) < two32 - 2 ->
  exists st' ch' f', wrap_main e (wrap_body e rec) st n_main = Ok st' /\ srel st' (amain a n_main) ch' todo /\ lgood all st' f' /\
    bext (s_b st) (s_b st') /\ l_gen (s_l st') = l_gen (s_l st) + 2 /\ kept own_names st st' /\ frozen st' f'.
Proof.
  intros S Hm Hs Y Hg. unfold wrap_main. rewrite strcmp_main, CoreMaps.cstr_eqb_refl, (sr_main _ _ _ _ _ _ _ _ S), Hm. cbn [andb negb].
  set (st0 := mkSt (s_init st) true (s_b st) (s_l st) (s_p st)).
  set (a0 := mkA (a_init a) true (a_tools a) (a_stack a) (a_orig a) (a_maps a)).
  assert (S0 : srel st0 a0 ch todo) by (constructor; cbn; try apply S; auto; tauto).
  assert (Y0 : lgood all st0 f) by (destruct Y; constructor; auto).
  destruct (wrap_body_kept rec st0 a0 ch todo (libc_binds e) (Some n_gotcha) f S0 (or_intror eq_refl) Y0) as (st1 & ch1 & c1 & f1 & E1 & S1 & Y1 & B1 & G1 & K1 & _); [cbn [st0 s_l]; lia|].
  rewrite E1. cbn [bind tool_of] in *. set (a1 := fst (abinds (ause a0 n_gotcha) n_gotcha (libc_binds e))) in *.
  assert (Hm1 : a_main a1 = true) by (unfold a1; destruct (abinds_frame ex n_gotcha (libc_binds e) (ause a0 n_gotcha)) as (-> & _); reflexivity).
  assert (Hs1 : a_stack a1 n_main = []).
  { unfold a1. rewrite stack_other; [exact Hs|]. intros u [<-|[]]. cbn. discriminate. }
  cbn [st0 s_l s_b] in *.
  destruct (wrap_body_kept rec st1 a1 ch1 todo (main_binds e) (Some n_gotcha) f1 S1 (or_intror Hm1) Y1) as (st2 & ch2 & c2 & f2 & E2 & S2 & Y2 & B2 & G2 & K2 & Z2); [lia|].
  rewrite E2. cbn [bind tool_of] in *. exists st2, ch2, f2.
  assert (Ea : amain a n_main = fst (abinds (ause a1 n_gotcha) n_gotcha (main_binds e))).
  { unfold SpecCore.amain. rewrite CoreMaps.cstr_eqb_refl, Hm. reflexivity. }
  rewrite Ea. split; [reflexivity|]. split; [auto|]. split; [auto|]. split; [eapply bext_trans; eauto|]. split; [lia|]. split.
  - eapply kept_trans; [eapply kept_mono; [|exact K1]|eapply kept_mono; [|exact K2]]; intros n [<-|[]]; cbn; auto.
  - apply Z2. exists (mkUB n_main (e_w_main e) (e_h_main e)). split; [left; reflexivity|exact Hs1].
Qed.

Lemma frozen_tracks st st' f : lgood all st f -> frozen st f -> s_p st' = s_p st -> tracks (p_maps (s_p st)) (s_l st) (s_l st') ->
  exists f', lgood all st' f' /\ frozen st' f' /\ l_gen (s_l st') = l_gen (s_l st).
Proof.
  intros [Z1 Z2 Z3 Z4 Z5] Z HP HT. destruct (tracks_exact all HND _ _ _ HT Z2 f Z1 Z5) as (f2 & L2 & G2 & GO).
  exists f2. split; [constructor; rewrite ?HP; auto; lia|]. split; [|auto]. intros m Ha. rewrite HP in Ha. rewrite GO, G2. auto.
Qed.

(** the loop: main is still to come, or has been wrapped and the libraries are marked *)
Lemma wrap_loop_together rec tool num : 0 < num -> forall ubs st a ch todo start pr f,
  srel st a ch (seq start (length ubs) ++ todo) ->
  (forall k u, nth_error ubs k = Some u -> entry_of (s_b st) (start + k)%nat = Some (mkE tool (ub_wrapper u) (ub_handle u)) /\
                                           name_of (s_b st) (start + k)%nat = Some (ub_name u)) ->
  lgood all st f -> l_gen (s_l st) + slack a < two32 -> new_inv (pr_new pr) ->
  (a_main a = false /\ a_stack a n_main = [] /\ In n_main (map ub_name ubs)) \/ (a_main a = true /\ frozen st f) ->
  exists st' ch' pr' f', wrap_loop e (wrap_body e rec) num (length ubs) start (st, pr) = Ok (st', pr') /\ srel st' (fst (abinds_user a tool ubs)) ch' todo /\
    lgood all st' f' /\ kept own_names st st' /\ frozen st' f'.
Proof.
  intros Hnum. induction ubs as [|u us IH]; intros st a ch todo start pr f S Hent Y Hg Hni Hc.
  - cbn. exists st, ch, pr, f. cbn in S. destruct Hc as [(_ & _ & [])|[_ Hz]]. spl; auto. apply kept_same; auto.
  - cbn [length seq app] in S. cbn [wrap_loop length].
    destruct (Hent 0%nat u eq_refl) as [He Hn]. rewrite Nat.add_0_r in He, Hn.
    set (x := mkE tool (ub_wrapper u) (ub_handle u)) in *. set (n := ub_name u) in *.
    assert (HM : exists st1 ch1 f1, wrap_main e (wrap_body e rec) st n = Ok st1 /\ srel st1 (amain a n) ch1 (start :: seq (Datatypes.S start) (length us) ++ todo) /\ lgood all st1 f1 /\
       bext (s_b st) (s_b st1) /\ l_gen (s_l st1) + slack (amain a n) = l_gen (s_l st) + slack a /\ kept own_names st st1 /\
       ((a_main (amain a n) = false /\ n <> n_main /\ a_stack (amain a n) n_main = [] /\ In n_main (map ub_name us)) \/ (a_main (amain a n) = true /\ frozen st1 f1))).
    { destruct (a_main a) eqn:Em.
      - exists st, ch, f. unfold wrap_main. rewrite (sr_main _ _ _ _ _ _ _ _ S), Em, andb_false_r. rewrite amain_true by auto.
        destruct Hc as [(H & _)|[_ Hz]]; [discriminate|]. spl; auto; [apply bext_refl|apply kept_same; auto].
      - destruct Hc as [(_ & Hs & Hin)|[H _]]; [|discriminate]. destruct (cstr_dec n n_main) as [->|D].
        + destruct (wrap_main_freezes rec st a ch _ f S Em Hs Y) as (st1 & ch1 & f1 & E1 & S1 & Y1 & B1 & G1 & K1 & Z1); [unfold slack in Hg; rewrite Em in Hg; lia|].
          assert (Hm1 : a_main (amain a n_main) = true).
          { unfold SpecCore.amain. rewrite CoreMaps.cstr_eqb_refl, Em. cbn [andb negb].
            match goal with |- context [SpecCore.abinds _ _ (ause ?x ?t') ?t ?u] => destruct (abinds_frame ex t u (ause x t')) as (-> & _) end. cbn [ause a_main].
            match goal with |- context [SpecCore.abinds _ _ (ause ?x ?t') ?t ?u] => destruct (abinds_frame ex t u (ause x t')) as (-> & _) end. reflexivity. }
          exists st1, ch1, f1. spl; auto. unfold slack. rewrite Em, G1, Hm1. lia.
        + exists st, ch, f. unfold wrap_main. rewrite strcmp_main, (CoreMaps.cstr_eqb_neq _ _ D). cbn [andb]. rewrite amain_other by auto.
          spl; auto; [apply bext_refl|apply kept_same; auto|]. left. spl; auto. cbn in Hin. destruct Hin as [Hin|Hin]; [contradiction|auto]. }
    destruct HM as (st1 & ch1 & f1 & EM & S1 & Y1 & B1 & G1 & K1 & C1). destruct (B1 _ _ _ He Hn) as [He1 Hn1].
    destruct (wrap_one_spec e ex rl (wrap_body e rec) False st a ch _ start n x num pr st1 (amain a n) ch1 Hps Hnum S Hn He EM S1 Hn1 He1 (amain_prio ex e a n _) ltac:(tauto) Hni)
      as (st2 & ch2 & pr2 & nb & EO2 & S2 & Hnf & HP & HT & HB & Hto & Hta & _ & Hch & Hns & _ & _).
    replace (mkUB n (en_wrapper x) (en_handle x)) with u in * by (destruct u; reflexivity). cbn [en_tool x] in S2, Hnf.
    rewrite EO2. cbn [bind]. set (r1 := abind (amain a n) tool u) in *.
    assert (B2 : bext (s_b st1) (s_b st2)) by (apply bext_eq; auto).
    assert (B12 : bext (s_b st) (s_b st2)) by (eapply bext_trans; eauto).
    assert (Hmr : a_main (fst r1) = a_main (amain a n)) by (unfold r1; rewrite abind_main; auto).
    assert (HF : exists f2, lgood all st2 f2 /\ l_gen (s_l st2) = l_gen (s_l st1) /\
       ((a_main (fst r1) = false /\ a_stack (fst r1) n_main = [] /\ In n_main (map ub_name us)) \/ (a_main (fst r1) = true /\ frozen st2 f2))).
    { destruct C1 as [(C1 & C2 & C3 & C4)|[C1 C2]].
      - pose proof Y1 as [Z1 Z2 Z3 Z4 Z5]. destruct (tracks_exact all HND _ _ _ HT Z2 f1 Z1 Z5) as (f2 & L2 & G2 & _).
        exists f2. split; [constructor; rewrite ?HP; auto; lia|]. split; [auto|]. left. rewrite Hmr. split; [auto|]. split; [|auto].
        unfold r1. rewrite (abind_stack_gen ex ins_c), cupd_neq; auto.
      - destruct (frozen_tracks st1 st2 f1 Y1 C2 HP HT) as (f2 & A1 & A2 & A3). exists f2. split; [auto|]. split; [auto|]. right. rewrite Hmr. auto. }
    destruct HF as (f2 & Y2 & G2 & C2).
    assert (Hs2 : slack (fst r1) = slack (amain a n)) by (unfold slack; rewrite Hmr; auto).
    destruct (IH st2 (fst r1) ch2 todo (Datatypes.S start) pr2 f2 S2) as (st3 & ch3 & pr3 & f3 & EL & S3 & Y3 & K3 & Z3).
    + intros k v Hk. destruct (Hent (Datatypes.S k) v Hk) as [H1 H2]. rewrite Nat.add_succ_r in H1, H2. apply (B12 _ _ _ H1 H2).
    + auto.
    + lia.
    + eapply new_step_inv; eauto.
    + auto.
    + rewrite EL. exists st3, ch3, pr3, f3.
      assert (ER : fst (abinds_user a tool (u :: us)) = fst (abinds_user (fst r1) tool us)).
      { cbn [SpecCore.abinds_user]. change (abind (amain a (ub_name u)) tool u) with r1. destruct r1 as [a1 g1]. cbn [fst snd].
        destruct (abinds_user a1 tool us). reflexivity. }
      rewrite ER. spl; auto. eapply kept_trans; [exact K1|]. eapply kept_trans; [|exact K3]. apply kept_same; auto.
Qed.

Lemma wrap_together rec st a ch todo ubs tool f : srel st a ch todo -> lgood all st f -> l_gen (s_l st) + slack a < two32 - 1 ->
  a_main a = false -> a_stack a n_main = [] -> In n_main (map ub_name ubs) ->
  exists st' c f', wrap_tool e (wrap_body e rec) st ubs tool = Ok (st', c) /\ kept own_names st st' /\ lgood all st' f' /\ frozen st' f'.
Proof.
  intros S Y Hg Hm Hs Hin. set (t := tool_of tool) in *. pose proof (lg_gen _ _ _ _ Y) as Hg0. assert (Hsl : 0 <= slack a) by (unfold slack; destruct (a_main a); lia).
  destruct (wrap_tool_enter e ex rl EO (wrap_body e rec) st a ch todo ubs tool S) as (st1 & EW & S1 & B1 & P1 & L1 & Hent). fold t in S1, Hent.
  rewrite (u32_gen (l_gen (s_l st))) in L1 by lia.
  assert (Y1 : lgood all st1 f).
  { destruct Y as [Y1 Y2 Y3 Y4 Y5]. constructor; rewrite ?P1, ?L1; auto; cbn [l_gen]; [apply linv_gen; [auto|lia]|lia]. }
  assert (G1 : l_gen (s_l st1) = l_gen (s_l st) + 1) by (rewrite L1; reflexivity).
  rewrite (EW _ eq_refl). clear EW.
  assert (E0 : (length ubs <> 0)%nat) by (destruct ubs; [destruct Hin|cbn; lia]).
  destruct (wrap_loop_together rec t (Z.of_nat (length ubs)) ltac:(lia) ubs st1 (ause a t) ch todo _ (mkPr 0 None) f S1 Hent Y1) as (st2 & ch2 & pr2 & f2 & EL & S2 & Y2 & K2 & Z2).
  { rewrite G1. change (slack (ause a t)) with (slack a). lia. }
  { exact I. }
  { left. auto. }
  rewrite EL. cbn [bind]. assert (K : kept own_names st st2) by (eapply kept_trans; [|exact K2]; apply kept_same; auto).
  destruct (pr_new pr2) as [nt|]; [|cbn [bind]; exists st2; eauto 8].
  unfold update_all_library_gots. destruct Y2 as [Q1 Q2 Q3 Q4 Q5].
  destruct (gots_frozen (b_ib (s_b st2)) nt (p_maps (s_p st2)) (s_l st2) f2 (s_p st2) Q2 Q1 Q5 Z2) as (l' & f' & EG & L3 & G3 & GO3). rewrite EG. cbn [bind].
  eexists _, _, f'. split; [reflexivity|]. split; [eapply kept_trans; [exact K|]; apply kept_same; reflexivity|]. cbn [s_l s_p set_p set_l].
  split; [constructor; cbn [s_l s_p set_p set_l]; auto; lia|]. intros m Ha. cbn [s_l s_p set_p set_l] in *. rewrite GO3, G3. apply Z2. exact Ha.
Qed.

Lemma init_kept rec st a : prel st a -> (forall m, In m (p_maps (s_p st)) -> In m all) -> NoDup (map key_of (p_maps (s_p st))) -> slots_fun rl (p_maps (s_p st)) ->
  exists st' ch f, gotcha_init e (wrap_body e rec) st = Ok st' /\ srel st' (ainit a) ch [] /\ lgood all st' f /\ l_gen (s_l st') = 1 /\ kept [n_dlopen; n_dlsym] st st'.
Proof.
  intros P Hin Hnd SF. unfold gotcha_init. rewrite (pr_i _ _ _ _ _ P). unfold setup_hash_tables. cbn [s_l s_b s_init s_main s_p].
  destruct (kmap_create (D:=nat) (lkeys all) link_map_hash link_map_cmp lkey_eqb (e_ps e) 128 Hps ltac:(lia)) as (lt & Elt & Klt). rewrite Elt. cbn [bind].
  destruct (smap_create (e_ps e) 4096 Hps ltac:(lia)) as (ft & Eft & Hft). rewrite Eft. cbn [bind].
  destruct (smap_create (e_ps e) 128 Hps ltac:(lia)) as (nt & Ent & Hnt). rewrite Ent. cbn [bind].
  match goal with |- context[wrap_body e rec ?s _ _] => set (st0 := s) end.
  set (a0 := mkA true (a_main a) (a_tools a) (a_stack a) (a_orig a) (a_maps a)).
  assert (S0 : srel st0 a0 (fun _ => []) []).
  { constructor; cbn; [reflexivity|reflexivity|rewrite (pr_m _ _ _ _ _ P), (pr_am _ _ _ _ _ P); reflexivity|apply (pr_maps _ _ _ _ _ P)|apply (pr_lib _ _ _ _ _ P)| | | | |tauto|tauto].
    - rewrite (pr_b _ _ _ _ _ P). cbn. constructor; cbn.
      + exists []. constructor; cbn; try constructor. intros t [].
      + rewrite (pr_at _ _ _ _ _ P). reflexivity.
      + intros i Hi. lia.
      + intros n. rewrite (pr_as _ _ _ _ _ P). constructor.
      + reflexivity.
      + constructor.
      + intros n i [].
      + intros i [].
      + constructor.
      + intros i ib Hi. destruct i; discriminate.
      + exact Hft.
    - exists (fun _ => None). split; [auto|]. split; [discriminate|]. intros n. rewrite (pr_as _ _ _ _ _ P). tauto.
    - intros n _. apply (pr_ao _ _ _ _ _ P).
    - rewrite (pr_l _ _ _ _ _ P). destruct (create_spec (K:=lkey) (D:=nat) (e_ps e) 128 link_map_hash link_map_cmp Hps ltac:(lia)) as (lt' & Elt' & Ilt & _).
      assert (lt' = lt) by congruence. subst lt'. exists [], []. split; [exact Ilt|]. intros k i []. }
  assert (Y0 : lgood all st0 (fun _ => None)).
  { constructor; cbn; auto.
    - rewrite (pr_l _ _ _ _ _ P). constructor; cbn; auto; [discriminate|discriminate|]. intros i lb Hi. destruct i; discriminate.
    - rewrite (pr_l _ _ _ _ _ P). cbn. lia. }
  destruct (wrap_body_kept rec st0 a0 (fun _ => []) [] (dl_binds e) (Some n_gotcha) (fun _ => None) S0) as (st1 & ch1 & c1 & f1 & E1 & S1 & Y1 & B1 & G1 & K1 & _).
  { left. intros u [<-|[<-|[]]]; cbn; apply names_neq. }
  { exact Y0. }
  { cbn. rewrite (pr_l _ _ _ _ _ P). cbn. unfold two32. lia. }
  rewrite E1. cbn [bind tool_of] in *. exists st1, ch1, f1. unfold SpecCore.ainit. rewrite (pr_ai _ _ _ _ _ P). fold a0.
  split; [reflexivity|]. split; [auto|]. split; [auto|]. split; [|exact K1]. rewrite G1. cbn. rewrite (pr_l _ _ _ _ _ P). reflexivity.
Qed.
End All.

Lemma main_unwrapped maps ops : ~ main_bound ops -> a_main (fst (arun ins_c ex e (a0 maps) ops)) = false /\ a_stack (fst (arun ins_c ex e (a0 maps) ops)) n_main = [].
Proof.
  intros Hm. split.
  - destruct (a_main _) eqn:E; [|reflexivity]. exfalso. apply Hm. apply (main_flag_iff ins_c e ex maps). exact E.
  - apply (stack_empty e ex ins_c ins_c_ne maps). intros W. apply W. destruct (own_main_first e ops) as [H|[r H]]; [auto|].
    exfalso. apply Hm. assert (Hin : In (own_main e) (installed e ops n_main)) by (rewrite H; left; auto).
    unfold installed in Hin. apply in_sel in Hin. apply (in_map trip) in Hin. apply (Permutation_in _ (installs_perm e _ _ _)) in Hin.
    apply in_app_or in Hin. unfold main_bound. destruct Hin as [Hin|Hin]; [|apply (in_map ub_name) in Hin; exact Hin].
    unfold own in Hin. cbn [negb] in Hin. rewrite !andb_true_r in Hin. destruct (existsb is_main (user_binds ops)) eqn:Eu.
    + apply existsb_exists in Eu. destruct Eu as (y & Y1 & Y2). apply cstr_eqb_ok in Y2. rewrite <- Y2. apply in_map. exact Y1.
    + exfalso. rewrite app_nil_r in Hin. destruct (existsb is_api ops); [|destruct Hin].
      destruct Hin as [Hin|[Hin|[]]]; discriminate Hin.
Qed.

Lemma ainit_main_stack a : a_stack a n_main = [] -> a_stack (ainit a) n_main = [].
Proof.
  intros H. unfold SpecCore.ainit. destruct (a_init a); [auto|]. rewrite stack_other; [exact H|].
  intros u [<-|[<-|[]]]; cbn; discriminate.
Qed.

Lemma main_together maps mem ops ubs tool st rs : ~ main_bound ops -> In n_main (map ub_name ubs) ->
  process_ok e maps (ops ++ [OWrap ubs tool]) -> calm maps (ops ++ [OWrap ubs tool]) -> run e (init_state maps mem) ops = Ok (st, rs) ->
  exists st' r, step e st (OWrap ubs tool) = Ok (st', r) /\
    forall m n x, In m (p_maps (s_p st)) -> slot rl m n x -> n <> n_main -> n <> n_libc_start_main ->
      (existsb is_api ops = false -> n <> n_dlopen /\ n <> n_dlsym) -> p_mem (s_p st') x = p_mem (s_p st) x.
Proof.
  intros Hm Hin P T E. pose proof (process_app _ _ _ _ P) as P0. pose proof (calm_app _ _ _ T) as T0. pose proof (hist_good e EO maps mem ops st rs P0 T0 E) as G.
  destruct (reach e maps mem ops st rs P0 E) as (R0 & M0 & F0 & O0). destruct (main_unwrapped maps ops Hm) as [Em Es]. rewrite (reached_init e maps mem ops st rs P0 E).
  assert (H2 : forall m, In m (p_maps (s_p st)) -> In m (seen maps ops)) by (rewrite M0; apply maps_seen).
  assert (H3 : NoDup (map key_of (p_maps (s_p st)))) by (rewrite M0; apply (calm_now _ _ T0)).
  assert (H4 : slots_fun rl (p_maps (s_p st))) by (rewrite M0; apply (cm_slots _ _ T ops [OWrap ubs tool] eq_refl)).
  pose proof (cm_gen _ _ T0) as Hw. pose proof (cm_libs _ _ T0) as ND. pose proof (seen_ok e maps ops P0) as HL. set (all := seen maps ops) in *. set (a := fst (arun ins_c ex e (a0 maps) ops)) in *.
  cbn [step]. unfold gotcha_wrap. cbn [wrap_n]. unfold wrap_body at 1.
  assert (HI : exists st1 ch f, gotcha_init e (wrap_n e 2) st = Ok st1 /\ srel st1 (ainit a) ch [] /\ lgood all st1 f /\ l_gen (s_l st1) <= 1 + Z.of_nat (wraps ops) /\
     kept (if s_init st then [] else [n_dlopen; n_dlsym]) st st1).
  { destruct G as [Q|(ch & f & S & Y & G)].
    - destruct (init_kept all ND HL (wrap_n e 1) st a Q H2 H3 H4) as (st1 & ch & f & A1 & A2 & A3 & A4 & A5). exists st1, ch, f. rewrite (pr_i _ _ _ _ _ Q). spl; auto. lia.
    - exists st, ch, f. unfold gotcha_init. rewrite (sr_init _ _ _ _ _ _ _ _ S). unfold SpecCore.ainit. rewrite (sr_ainit _ _ _ _ _ _ _ _ S). unfold bound_of in G. rewrite Em in G.
      spl; auto; [lia|apply kept_same; auto]. }
  destruct HI as (st1 & ch & f & E1 & S1 & Y1 & G1 & K1). cbn [wrap_n] in *. rewrite E1. cbn [bind].
  destruct (wrap_together all ND HL (wrap_n e 1) st1 (ainit a) ch [] ubs tool f S1 Y1) as (st2 & c & f2 & E2 & K2 & _); auto.
  { unfold slack. rewrite ainit_main, Em. lia. }
  { rewrite ainit_main. auto. }
  { apply ainit_main_stack. auto. }
  cbn [wrap_n] in E2. rewrite E2. cbn [bind]. eexists _, _. split; [reflexivity|].
  intros m n x Hm' Hs D1 D2 D3. destruct K1 as (KM & _ & K1). destruct K2 as (_ & _ & K2). rewrite (K2 m n x).
  - apply (K1 m n x Hm' Hs). intros H. destruct (s_init st); [destruct H|]. destruct (D3 eq_refl) as [D4 D5]. destruct H as [H|[H|[]]]; congruence.
  - rewrite KM. auto.
  - auto.
  - intros [H|[H|[]]]; congruence.
Qed.
End Together.
